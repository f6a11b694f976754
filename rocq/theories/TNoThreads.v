(*PROPHEAD
Property theorems C82: threads linked with the no-std library
From Verif Require Import LSampleU.
*)
(** Proofs of the property theorems on threads linked with the no-std library (restated in Prop_NoThreads.v). *)
From Verif Require TThreads.
From Verif Require Import TPosition LExt LRuntime TRuntime TClient THeap TArena TNoStd LSampleU.
From Verif Require Export SpecNoThreads.

Notation shifted := TThreads.shifted.

Lemma granted_iff os : granted os = true <-> ~ In None os.
Proof.
  unfold granted. induction os as [|[x|] os IH]; cbn [forallb In]; [tauto| |].
  - rewrite IH. split; [intros H [Q|Q]; [discriminate Q|auto]|tauto].
  - split; [discriminate|tauto].
Qed.
Lemma granted_not os : granted os = false <-> In None os.
Proof.
  unfold granted. induction os as [|[x|] os IH]; cbn [forallb In]; [split; [discriminate|tauto]| |].
  - rewrite IH. split; [tauto|]. intros [Q|Q]; [discriminate Q|auto].
  - tauto.
Qed.

Lemma serial_run_le ls : forall rem, fst (serial_run rem ls) <= rem.
Proof.
  induction ls as [|l ls IH]; intros rem; cbn [serial_run]; [cbn; lia|]. pose proof (serial_alloc_le rem l) as A. destruct (serial_alloc rem l) as [r o]. specialize (IH r).
  destruct (serial_run r ls) as [r2 os]. cbn [fst] in *. lia.
Qed.

(** ** What a thread owns *)
Lemma owns_mapped P A E b env n k m0 nw st y : ninv P A E b env n k m0 nw st -> owns A b env n k nw y -> w_mem (nw_world nw) y <> None.
Proof.
  intros H [J|[J|(v & K & J)]] N; destruct (ni_frame _ _ _ _ _ _ _ _ _ _ H) as (m1 & H1 & _).
  - destruct J as (id & a & ms & L & R). pose proof (hi_obj _ _ _ _ _ _ _ _ _ _ H1 id) as Q. rewrite L in Q. destruct (hc_object st id) as [[[x0 x] ms']|]; [|exact Q].
    destruct Q as (_ & _ & Ac & _). unfold in_region in R. destruct (Ac (y - a)) as [z Hz]; [lia|]. replace (a + (y - a)) with y in Hz by lia. congruence.
  - destruct J as (id & L & R). destruct (w_live (nw_world nw) id) as [[a ms]|] eqn:Q; [|congruence]. destruct (ni_vec _ _ _ _ _ _ _ _ _ _ H id a ms Q) as (Ac & _).
    unfold in_region in R. destruct (Ac (y - fst (nw_vec nw id))) as [z Hz]; [lia|]. replace (fst (nw_vec nw id) + (y - fst (nw_vec nw id))) with y in Hz by lia. congruence.
  - destruct (hi_placed _ _ _ _ _ _ _ _ _ _ H1) as (_ & Ac & _). unfold in_variable, in_region in J.
    destruct (Ac v K (y - fst (region A env v))) as [z Hz]; [lia|]. replace (fst (region A env v) + (y - fst (region A env v))) with y in Hz by lia. congruence.
Qed.
Lemma owns_rest P A E b env n k m0 nw st y : ninv P A E b env n k m0 nw st -> ~ owns A b env n k nw y -> w_mem (nw_world nw) y = m0 y.
Proof.
  intros H N. destruct (ni_frame _ _ _ _ _ _ _ _ _ _ H) as (m1 & H1 & F). rewrite (hi_mem _ _ _ _ _ _ _ _ _ _ H1 y).
  - apply F. intros K. apply N. right. now left.
  - intros K. apply N. now left.
  - intros v V K. apply N. right. right. eauto.
Qed.
(** what is not a variable is in the arena, and was free *)
Lemma owns_free P A E b env n k m0 nw st y : ninv P A E b env n k m0 nw st -> owns A b env n k nw y ->
  (exists v, variable n k v /\ in_variable A env v y) \/ (in_region (nb_base b) (128 * 1024) y /\ m0 y = None).
Proof.
  intros H [J|[J|J]]; [right|right|now left]; destruct (ni_frame _ _ _ _ _ _ _ _ _ _ H) as (m1 & H1 & F).
  - pose proof J as (id & a & ms & L & R). destruct (ni_box _ _ _ _ _ _ _ _ _ _ H id a ms L). split; [unfold in_region in *; lia|].
    rewrite <- F; [exact (hi_fresh _ _ _ _ _ _ _ _ _ _ H1 id a ms y L R)|]. intros K. exact (ni_object _ _ _ _ _ _ _ _ _ _ H y J K).
  - pose proof J as (id & L & R). pose proof (ni_where _ _ _ _ _ _ _ _ _ _ H id y L R). split; [unfold in_region; lia|]. exact (ni_free _ _ _ _ _ _ _ _ _ _ H y J).
Qed.
Lemma owns_shared A b env n k m r nw y : owns A b env n k (n_shared m r nw) y <-> owns A b env n k nw y.
Proof. reflexivity. Qed.

(** the rest of the memory may change, and others may take from the arena *)
Lemma ninv_env P U A E b env n k m0 nw st m' r' : setting U A b env n k -> ninv P A E b env n k m0 nw st -> r' <= nw_rem nw ->
  (forall y, in_region (nb_base b) r' y -> m' y = None) -> (forall y, owns A b env n k nw y -> m' y = w_mem (nw_world nw) y) ->
  ninv P A E b env n k (shifted (w_mem (nw_world nw)) m' m0) (n_shared m' r' nw) st.
Proof.
  intros S H Le Lo Ow. destruct (ni_frame _ _ _ _ _ _ _ _ _ _ H) as (m1 & H1 & F). pose proof S as (I & HU & Bd & _).
  pose proof Bd as (Bk & _ & _ & _ & C & _ & G). pose proof (ni_rem _ _ _ _ _ _ _ _ _ _ H) as R.
  constructor; cbn [n_shared nw_world nw_rem nw_vec with_mem w_mem w_live].
  - exists (shifted (w_mem (nw_world nw)) m' m1). split.
    + apply TThreads.hinv_env; auto; [intros v y V J; apply Ow; right; right; eauto|]. intros y J. apply Ow. now left.
    + intros y N. unfold TThreads.shifted. destruct (TProgram.opt_eq_dec _ _); [|reflexivity]. apply F. exact N.
  - lia.
  - intros id a ms L. destruct (ni_box _ _ _ _ _ _ _ _ _ _ H id a ms L). lia.
  - intros id y L Y. pose proof (ni_where _ _ _ _ _ _ _ _ _ _ H id y L Y). lia.
  - intros id a ms L. apply (vec_frame b (w_mem (nw_world nw))); auto; [exact (ni_vec _ _ _ _ _ _ _ _ _ _ H id a ms L)|].
    intros y Y. apply Ow. right. left. exists id. split; auto. congruence.
  - apply H.
  - apply H.
  - intros y Y. unfold TThreads.shifted. destruct (TProgram.opt_eq_dec _ _); [|now apply Lo]. apply (ni_low _ _ _ _ _ _ _ _ _ _ H y). unfold in_region in *. lia.
  - intros y Y. rewrite TThreads.shifted_same; [exact (ni_free _ _ _ _ _ _ _ _ _ _ H y Y)|]. apply Ow. right. now left.
Qed.

(** what a call that does not come back leaves behind *)
Lemma n_shared_same nw : n_shared (w_mem (nw_world nw)) (nw_rem nw) nw = nw.
Proof. destruct nw as [[] ? ?]. reflexivity. Qed.
Lemma left_ok P U A E b env n k m0 pad o nw st x : setting U A b env n k -> ninv P A E b env n k m0 nw st -> hop_fine n k o -> hclient_step st o = Fine x ->
  ninv P A E b env n k m0 (n_shared (n_left P A E b env pad o nw) (nw_rem nw) nw) (left_state st o).
Proof.
  intros S H V Q.
  destruct o as [c|h|h|h g|h mv|h q|h t|i h|i h]; cbn [n_left left_state]; try (rewrite n_shared_same; exact H).
  destruct (ni_frame _ _ _ _ _ _ _ _ _ _ H) as (m1 & H1 & F). pose proof S as (I & HU & Bd & _). pose proof Bd as (Bk & _ & _ & _ & C & _ & G). set (w := nw_world nw) in *.
  pose proof (hstep_ok P A E (nb_box b) env n k m1 (fun _ => None) pad (HMove h mv) w st I Bk (no_alloc A (nb_box b) w) H1 V) as X. rewrite Q in X. destruct x as [st' r]. cbn [agrees] in X.
  destruct X as [(w' & X & H2)|[_ [_ [h' Z]]]]; [|discriminate Z].
  pose proof (deref_ok P A E (nb_box b) env n k m1 w st h H1) as Dr. cbn [hclient_step] in Q. unfold on_object in Q.
  destruct (object_of st h) as [[id [[x0 x] ms]]|] eqn:Ob; [|discriminate Q]. destruct Dr as (a & Dr & L & _ & Ho). destruct (a_try x (unpack mv)) as [x' ok] eqn:Tr. injection Q as <- <-.
  destruct (live_move P A E (nb_box b) env (fun _ => None) pad h mv w w' _ id a ms Dr X) as (ms' & Lw). rewrite X. cbn [fst].
  assert (SO : forall y, in_object (nb_box b) w y <-> in_object (nb_box b) w' y).
  { intros y. split; intros (j & c & mj & Lj & Y).
    - destruct (N.eq_dec j id) as [->|Ne]; [exists id, a, ms'; rewrite Lw, N.eqb_refl; split; [reflexivity|congruence]|].
      exists j, c, mj. rewrite Lw. destruct (N.eqb_spec j id); [contradiction|auto].
    - rewrite Lw in Lj. destruct (N.eqb_spec j id) as [->|Ne]; [injection Lj as <- <-; exists id, a, ms; auto|exists j, c, mj; auto]. }
  assert (Eq : forall y, ~ in_object (nb_box b) w y -> (forall v, variable n k v -> ~ in_variable A env v y) -> w_mem w' y = w_mem w y).
  { intros y N1 N2. rewrite (hi_mem _ _ _ _ _ _ _ _ _ _ H2 y), (hi_mem _ _ _ _ _ _ _ _ _ _ H1 y); auto. now rewrite <- SO. }
  constructor; cbn [n_shared nw_world nw_rem nw_vec with_mem w_mem w_live]; fold w; try apply H.
  - exists m1. split; [|exact F]. constructor; cbn [with_mem w_mem w_live w_handle w_next put_object hc_local hc_handle hc_next hc_object]; try apply H1.
    + apply H2.
    + exact (hi_tracks _ _ _ _ _ _ _ _ _ _ H2).
    + intros j. pose proof (hi_obj _ _ _ _ _ _ _ _ _ _ H2 j) as O. rewrite Lw in O. cbn [put_object hc_object] in O. destruct (N.eqb_spec j id) as [Ej|Ne]; [|exact O].
      rewrite Ej, L. split; [reflexivity|apply O].
    + intros y N1 N2. apply (hi_mem _ _ _ _ _ _ _ _ _ _ H2 y); auto. now rewrite <- SO.
  - intros j c mj Lj. apply (vec_frame b (w_mem w)); auto; [exact (ni_vec _ _ _ _ _ _ _ _ _ _ H j c mj Lj)|]. intros y Y.
    assert (Lj' : w_live (nw_world nw) j <> None) by (fold w; congruence). destruct (vec_clear P U A E b env n k m0 nw st j y S H Lj' Y) as (_ & C1 & C2). now apply Eq.
Qed.

(** ** The system *)
Definition nnow (sys : n_system) (i : nat) : n_world := n_shared (ns_mem sys) (ns_rem sys) (nt_world (ns_thread sys i)).
Record nsinv (P : profile) (A : N) (E : endian) (b : n_build) (envs : nat -> c_env) (n k : nat -> nat) (m : mem) (sys : n_system) (s : a_system) : Prop := {
  sv_rem : ns_rem sys = as_rem s;
  sv_todo : forall i, nt_todo (ns_thread sys i) = at_todo (as_thread s i);
  sv_results : forall i, nt_results (ns_thread sys i) = at_results (as_thread s i);
  sv_hung : forall i, nt_hung (ns_thread sys i) = at_hung (as_thread s i);
  sv_fine : forall i, Forall (hop_fine (n i) (k i)) (at_todo (as_thread s i));
  sv_each : forall i, exists m0, ninv P A E b (envs i) (n i) (k i) m0 (nnow sys i) (memory_of (as_thread s i));
  sv_apart : forall i j y, i <> j -> owns A b (envs i) (n i) (k i) (nt_world (ns_thread sys i)) y ->
             owns A b (envs j) (n j) (k j) (nt_world (ns_thread sys j)) y -> False;
  sv_rest : forall y, (forall i, ~ owns A b (envs i) (n i) (k i) (nt_world (ns_thread sys i)) y) -> ns_mem sys y = m y
}.
Definition all_set (U A : N) (b : n_build) (envs : nat -> c_env) (n k : nat -> nat) : Prop := forall i, setting U A b (envs i) (n i) (k i).

Lemma sv_held P A E b envs n k m sys s : nsinv P A E b envs n k m sys s -> forall i y,
  owns A b (envs i) (n i) (k i) (nt_world (ns_thread sys i)) y -> ns_mem sys y <> None.
Proof. intros V i y J. destruct (sv_each _ _ _ _ _ _ _ _ _ _ V i) as (m0 & H). exact (owns_mapped _ _ _ _ _ _ _ _ _ _ y H J). Qed.
Lemma set_thread_same ts i t : set_thread ts i t i = t.
Proof. unfold set_thread. now rewrite Nat.eqb_refl. Qed.
Lemma set_thread_other ts i t j : j <> i -> set_thread ts i t j = ts j.
Proof. intros N. unfold set_thread. destruct (Nat.eqb_spec j i); [contradiction|reflexivity]. Qed.
Lemma set_a_same ts i t : set_a ts i t i = t.
Proof. unfold set_a. now rewrite Nat.eqb_refl. Qed.
Lemma set_a_other ts i t j : j <> i -> set_a ts i t j = ts j.
Proof. intros N. unfold set_a. destruct (Nat.eqb_spec j i); [contradiction|reflexivity]. Qed.

Lemma turn_ok P U A E b envs n k pads m i sys s : all_set U A b envs n k -> arena_free b m -> nsinv P A E b envs n k m sys s ->
  match a_turn b i s with
  | Fine s' => exists sys', nsys_step P U A E b envs pads i sys = Ret sys' /\ nsinv P A E b envs n k m sys' s'
  | Misused => nsys_step P U A E b envs pads i sys = UB
  | Unset => True
  end.
Proof.
  intros St Af V. unfold a_turn, nsys_step. rewrite (sv_hung _ _ _ _ _ _ _ _ _ _ V i), (sv_todo _ _ _ _ _ _ _ _ _ _ V i).
  destruct (at_hung (as_thread s i)) eqn:Hu; [eauto|]. destruct (at_todo (as_thread s i)) as [|o rest] eqn:To; [eauto|].
  destruct (sv_each _ _ _ _ _ _ _ _ _ _ V i) as (m0 & H). unfold memory_of in H. rewrite Hu, To in H. fold (nnow sys i). set (t := ns_thread sys i) in *. set (st := at_state (as_thread s i)) in *.
  pose proof (sv_fine _ _ _ _ _ _ _ _ _ _ V i) as Vf. rewrite To in Vf. inversion Vf as [|? ? Vo Vr]; subst.
  pose proof (nstep_ok P U A E b (envs i) (n i) (k i) m0 (pads i (nt_tick t)) o (nnow sys i) st (St i) H Vo) as Q. unfold n_agrees in Q.
  destruct (hclient_step st o) as [[st' r]| |] eqn:Hs; [|rewrite Q; reflexivity|exact Logic.I].
  change (nw_rem (nnow sys i)) with (ns_rem sys) in Q. rewrite (sv_rem _ _ _ _ _ _ _ _ _ _ V) in Q.
  destruct (serial_run (as_rem s) (op_requests b st o)) as [rem' os] eqn:Se. destruct Q as [Q1 Q2].
  assert (Em : w_mem (nw_world (nnow sys i)) = ns_mem sys) by reflexivity.
  destruct (granted os) eqn:Gr.
  - apply granted_iff in Gr. destruct (Q2 Gr) as (nw' & -> & Rm & H'). eexists. split; [reflexivity|].
    set (m' := w_mem (nw_world nw')).
    assert (Rl : rem' <= ns_rem sys). { rewrite (sv_rem _ _ _ _ _ _ _ _ _ _ V). pose proof (serial_run_le (op_requests b st o) (as_rem s)) as X. rewrite Se in X. exact X. }
    (** bytes of the others *)
    assert (Fr : forall j y, j <> i -> owns A b (envs j) (n j) (k j) (nt_world (ns_thread sys j)) y -> ~ owns A b (envs i) (n i) (k i) (nt_world t) y /\ ~ owns A b (envs i) (n i) (k i) nw' y).
    { intros j y N J. assert (N1 : ~ owns A b (envs i) (n i) (k i) (nt_world t) y) by (intros K; exact (sv_apart _ _ _ _ _ _ _ _ _ _ V j i y N J K)).
      split; auto. intros K. destruct (owns_free _ _ _ _ _ _ _ _ _ _ _ H' K) as [Kv|[_ Kf]]; [apply N1; right; now right|].
      apply (sv_held _ _ _ _ _ _ _ _ _ _ V j y J). rewrite <- Em, (owns_rest _ _ _ _ _ _ _ _ _ _ y H); auto. }
    assert (Me : forall y, ~ owns A b (envs i) (n i) (k i) (nt_world t) y -> ~ owns A b (envs i) (n i) (k i) nw' y -> m' y = ns_mem sys y).
    { intros y N1 N2. unfold m'. rewrite (owns_rest _ _ _ _ _ _ _ _ _ _ y H' N2). symmetry. rewrite <- Em. exact (owns_rest _ _ _ _ _ _ _ _ _ _ y H N1). }
    constructor; cbn [ns_mem ns_rem ns_thread as_rem as_thread].
    + exact Rm.
    + intros j. destruct (Nat.eq_dec j i) as [->|N]; [now rewrite set_thread_same, set_a_same|]. rewrite set_thread_other, set_a_other by auto. apply V.
    + intros j. destruct (Nat.eq_dec j i) as [->|N]; [rewrite set_thread_same, set_a_same; cbn [nt_results at_results]; f_equal; apply V|]. rewrite set_thread_other, set_a_other by auto. apply V.
    + intros j. destruct (Nat.eq_dec j i) as [->|N]; [now rewrite set_thread_same, set_a_same|]. rewrite set_thread_other, set_a_other by auto. apply V.
    + intros j. destruct (Nat.eq_dec j i) as [->|N]; [now rewrite set_a_same|]. rewrite set_a_other by auto. apply V.
    + intros j. unfold nnow. cbn [ns_mem ns_rem ns_thread]. destruct (Nat.eq_dec j i) as [->|N].
      * rewrite set_thread_same, set_a_same. unfold memory_of. cbn [nt_world at_state at_hung at_todo]. replace (match rest with _ :: _ => st' | [] => st' end) with st' by now destruct rest. exists m0. replace (n_shared m' (nw_rem nw') nw') with nw'; [exact H'|].
        symmetry. apply n_shared_same.
      * rewrite set_thread_other, set_a_other in * by auto. destruct (sv_each _ _ _ _ _ _ _ _ _ _ V j) as (mj & Hj').
        eexists. refine (ninv_env P U A E b (envs j) (n j) (k j) mj (nnow sys j) (memory_of (as_thread s j)) m' (nw_rem nw') (St j) Hj' _ _ _).
        -- cbn [nnow n_shared nw_rem]. rewrite Rm. exact Rl.
        -- intros y Y. exact (proj1 (low_free P U A E b (envs i) (n i) (k i) m0 nw' st' y (St i) H' Y)).
        -- intros y Y. apply Me; apply (Fr j y N Y).
    + intros j l y N J K. destruct (Nat.eq_dec j i) as [->|Nj], (Nat.eq_dec l i) as [->|Nl]; [congruence| | |].
      * rewrite set_thread_same in J. rewrite set_thread_other in K by auto. exact (proj2 (Fr l y Nl K) J).
      * rewrite set_thread_same in K. rewrite set_thread_other in J by auto. exact (proj2 (Fr j y Nj J) K).
      * rewrite set_thread_other in J, K by auto. exact (sv_apart _ _ _ _ _ _ _ _ _ _ V j l y N J K).
    + intros y N. pose proof (N i) as Ni. rewrite set_thread_same in Ni. cbn [nt_world] in Ni.
      assert (No : forall j, j <> i -> ~ owns A b (envs j) (n j) (k j) (nt_world (ns_thread sys j)) y) by (intros j Nj; specialize (N j); rewrite set_thread_other in N by auto; exact N).
      unfold m'. rewrite (owns_rest _ _ _ _ _ _ _ _ _ _ y H' Ni).
      destruct (TProgram.opt_eq_dec (m0 y) (m y)) as [Q|Q]; [exact Q|exfalso]. assert (K : ~ owns A b (envs i) (n i) (k i) (nt_world t) y).
      { intros K. destruct (owns_free _ _ _ _ _ _ _ _ _ _ _ H K) as [Kv|[Ka Kf]]; [elim Ni; right; now right|]. apply Q. rewrite Kf. symmetry. now apply Af. }
      apply Q. rewrite <- (owns_rest _ _ _ _ _ _ _ _ _ _ y H K), Em. apply (sv_rest _ _ _ _ _ _ _ _ _ _ V). intros j. destruct (Nat.eq_dec j i) as [->|Nj]; auto.
  - apply granted_not in Gr. rewrite Q1 by auto. eexists. split; [reflexivity|].
    pose proof (left_ok P U A E b (envs i) (n i) (k i) m0 (pads i (nt_tick t)) o (nnow sys i) st (st', r) (St i) H Vo Hs) as H'.
    set (m' := n_left P A E b (envs i) (pads i (nt_tick t)) o (nnow sys i)) in *.
    assert (L2 : forall y, ~ owns A b (envs i) (n i) (k i) (nt_world t) y -> m' y = ns_mem sys y).
    { intros y N. rewrite <- Em, (owns_rest _ _ _ _ _ _ _ _ _ _ y H N). exact (owns_rest _ _ _ _ _ _ _ _ _ _ y H' N). }
    assert (Fr : forall j y, j <> i -> owns A b (envs j) (n j) (k j) (nt_world (ns_thread sys j)) y -> m' y = ns_mem sys y).
    { intros j y N J. apply L2. intros K. exact (sv_apart _ _ _ _ _ _ _ _ _ _ V j i y N J K). }
    assert (TW : forall j, nt_world (set_thread (ns_thread sys) i (NThread (o :: rest) (nt_world t) (nt_tick t) (nt_results t) true) j) = nt_world (ns_thread sys j)).
    { intros j. destruct (Nat.eq_dec j i) as [->|N]; [now rewrite set_thread_same|now rewrite set_thread_other]. }
    constructor; cbn [ns_mem ns_rem ns_thread as_rem as_thread].
    + apply V.
    + intros j. destruct (Nat.eq_dec j i) as [->|N]; [now rewrite set_thread_same, set_a_same|]. rewrite set_thread_other, set_a_other by auto. apply V.
    + intros j. destruct (Nat.eq_dec j i) as [->|N]; [rewrite set_thread_same, set_a_same; cbn [nt_results at_results]; apply V|]. rewrite set_thread_other, set_a_other by auto. apply V.
    + intros j. destruct (Nat.eq_dec j i) as [->|N]; [now rewrite set_thread_same, set_a_same|]. rewrite set_thread_other, set_a_other by auto. apply V.
    + intros j. destruct (Nat.eq_dec j i) as [->|N]; [now rewrite set_a_same|]. rewrite set_a_other by auto. apply V.
    + intros j. unfold nnow. cbn [ns_mem ns_rem ns_thread]. rewrite TW. destruct (Nat.eq_dec j i) as [->|N]; [rewrite set_a_same; exists m0; exact H'|].
      rewrite set_a_other by auto. destruct (sv_each _ _ _ _ _ _ _ _ _ _ V j) as (mj & Hj'). eexists.
      refine (ninv_env P U A E b (envs j) (n j) (k j) mj (nnow sys j) (memory_of (as_thread s j)) m' (ns_rem sys) (St j) Hj' _ _ _).
      * reflexivity.
      * intros y Y. destruct (low_free P U A E b (envs i) (n i) (k i) m0 (nnow sys i) st y (St i) H Y) as (Z & Z1 & Z2). rewrite L2; [exact Z|].
        intros [K|[K|(v & Kv & K)]]; [auto|auto|]. apply (var_arena U A b (envs i) (n i) (k i) v y (St i) Kv K).
        pose proof (ni_rem _ _ _ _ _ _ _ _ _ _ H). cbn [nnow n_shared nw_rem] in *. unfold in_region in *. lia.
      * intros y Y. exact (Fr j y N Y).
    + intros j l y. rewrite !TW. apply V.
    + intros y N. rewrite L2; [apply V; intros j; rewrite <- (TW j); apply N|]. specialize (N i). rewrite TW in N. exact N.
Qed.

(** ** Schedules *)
Lemma nsinv_start P A E b envs n k m programs : arena_free b m -> variables_apart A envs n k m -> (forall i, Forall (hop_fine (n i) (k i)) (programs i)) ->
  nsinv P A E b envs n k m (nsys_start m programs) (a_start programs).
Proof.
  intros Af [Pl Ap] V.
  assert (Ow : forall i y, owns A b (envs i) (n i) (k i) (n_start m) y -> exists v, variable (n i) (k i) v /\ in_variable A (envs i) v y).
  { intros i y [(id & a & ms & L & _)|[(id & L & _)|J]]; [discriminate L|elim L; reflexivity|exact J]. }
  constructor; cbn [nsys_start a_start ns_rem as_rem ns_thread as_thread nt_todo at_todo nt_results at_results nt_hung at_hung nt_world at_state ns_mem]; auto.
  - intros i. exists m. replace (memory_of _) with hclient_start by (unfold memory_of; cbn [at_todo at_hung at_state]; now destruct (programs i)).
    exact (ninv_start P A E b (envs i) (n i) (k i) m Af (Pl i)).
  - intros i j y N J K. apply Ow in J as (v & Kv & J). apply Ow in K as (w & Kw & K). exact (Ap i j v w y N Kv J Kw K).
Qed.
Lemma turns_ok P U A E b envs n k pads m schedule : all_set U A b envs n k -> arena_free b m -> forall sys s, nsinv P A E b envs n k m sys s ->
  match a_turns b schedule s with
  | Fine s' => exists sys', nsys_run P U A E b envs pads schedule sys = Ret sys' /\ nsinv P A E b envs n k m sys' s'
  | Misused => nsys_run P U A E b envs pads schedule sys = UB
  | Unset => True
  end.
Proof.
  intros St Af. induction schedule as [|i rest IH]; intros sys s V; cbn [a_turns nsys_run]; [eauto|].
  pose proof (turn_ok P U A E b envs n k pads m i sys s St Af V) as Q. destruct (a_turn b i s) as [s'| |]; [|rewrite Q; reflexivity|exact Logic.I].
  destruct Q as (sys' & -> & V'). cbn [bind]. exact (IH sys' s' V').
Qed.
Lemma all_set_intro U A b envs n k m : In A word_alignments -> 18 < U -> build_ok U A b -> nb_base b mod nb_align b = 0 -> arena_free b m ->
  variables_apart A envs n k m -> all_set U A b envs n k.
Proof. intros I HU Bd Ba Af [Pl _] i. exact (setting_intro U A b (envs i) (n i) (k i) m I HU Bd Ba Af (Pl i)). Qed.
Lemma nsinv_shows P U A E b envs n k m sys s i : all_set U A b envs n k -> nsinv P A E b envs n k m sys s ->
  thread_shows A E b (envs i) (n i) (k i) (ns_mem sys) (nt_world (ns_thread sys i)) (memory_of (as_thread s i)).
Proof.
  intros St V. destruct (sv_each _ _ _ _ _ _ _ _ _ _ V i) as (m0 & H). destruct (ni_frame _ _ _ _ _ _ _ _ _ _ H) as (m1 & H1 & F).
  destruct (St i) as (I & _ & Bd & _). destruct (hinv_shows P A E (nb_box b) (envs i) (n i) (k i) m1 _ _ I (proj1 Bd) H1) as (S1 & S2 & S3 & S4 & S5).
  split; [exact S1|]. split; [exact S2|]. split; [|exact S4]. intros id x0 x ms Ho. destruct (S3 id x0 x ms Ho) as (a & L & O). exists a. split; [exact L|]. split; [exact O|].
  apply (ni_vec _ _ _ _ _ _ _ _ _ _ H id a ms L).
Qed.

(** ** The theorems *)
(** C82: threads linked with the no-std library, each using its own variables and pointers rightly, have no undefined behaviour, whatever the
    order of their calls. Each call is answered as over abstract positions if the bundled allocator has what it asks for at that moment;
    otherwise its thread hangs for good and the others run on. What is left in the arena is as computed from the requests in the order made,
    the memory shows the variables, positions and lists of moves of every thread, no two threads own a byte in common, and no other memory changes. *)
Lemma c82_threads_pf : forall P U A E b envs n k pads programs m schedule, In A word_alignments -> 18 < U -> build_ok U A b -> nb_base b mod nb_align b = 0 ->
  arena_free b m -> variables_apart A envs n k m -> (forall i, Forall (hop_fine (n i) (k i)) (programs i)) ->
  match a_turns b schedule (a_start programs) with
  | Fine s =>
      exists sys, nsys_run P U A E b envs pads schedule (nsys_start m programs) = Ret sys /\ ns_rem sys = as_rem s /\
        (forall i, let t := ns_thread sys i in let a := as_thread s i in
           nt_todo t = at_todo a /\ nt_results t = at_results a /\ nt_hung t = at_hung a /\
           thread_shows A E b (envs i) (n i) (k i) (ns_mem sys) (nt_world t) (memory_of a)) /\
        (forall i j y, i <> j -> owns A b (envs i) (n i) (k i) (nt_world (ns_thread sys i)) y ->
           ~ owns A b (envs j) (n j) (k j) (nt_world (ns_thread sys j)) y) /\
        (forall y, (forall i, ~ owns A b (envs i) (n i) (k i) (nt_world (ns_thread sys i)) y) -> ns_mem sys y = m y)
  | Misused => nsys_run P U A E b envs pads schedule (nsys_start m programs) = UB
  | Unset => True
  end.
Proof.
  intros P U A E b envs n k pads programs m schedule I HU Bd Ba Af Pl V. pose proof (all_set_intro U A b envs n k m I HU Bd Ba Af Pl) as St.
  pose proof (turns_ok P U A E b envs n k pads m schedule St Af _ _ (nsinv_start P A E b envs n k m programs Af Pl V)) as Q.
  destruct (a_turns b schedule (a_start programs)) as [s| |]; auto. destruct Q as (sys & X & H). exists sys. split; [exact X|]. split; [apply H|]. split; [|split].
  - intros i t a. split; [apply H|]. split; [apply H|]. split; [apply H|]. exact (nsinv_shows P U A E b envs n k m sys s i St H).
  - intros i j y N J K. exact (sv_apart _ _ _ _ _ _ _ _ _ _ H i j y N J K).
  - apply H.
Qed.

(** ** Each thread by itself *)
Lemma hrun_app os os' : forall st, hclient_run st (os ++ os') =
  match hclient_run st os with
  | Fine (st1, rs1) => match hclient_run st1 os' with Fine (st2, rs2) => Fine (st2, rs1 ++ rs2) | Misused => Misused | Unset => Unset end
  | Misused => Misused
  | Unset => Unset
  end.
Proof.
  induction os as [|o os IH]; intros st; cbn [app hclient_run]; [destruct (hclient_run st os') as [[? ?]| |]; reflexivity|].
  destruct (hclient_step st o) as [[st1 r]| |]; auto. rewrite IH. destruct (hclient_run st1 os) as [[st2 rs]| |]; auto. destruct (hclient_run st2 os') as [[st3 rs']| |]; reflexivity.
Qed.
Lemma op_requests_one b st o : op_requests b st o = [] \/ exists l, op_requests b st o = [l].
Proof.
  destruct o; cbn [op_requests]; eauto. destruct (object_of st h) as [[? [[? ?] ?]]|]; auto. destruct (snd _); auto. unfold push_request. destruct (_ =? _); eauto.
Qed.
Definition blocked (b : n_build) (rem : N) (st : hclient) (todo : list h_op) : Prop :=
  exists o rest, todo = o :: rest /\ granted (snd (serial_run rem (op_requests b st o))) = false.
Lemma blocked_one rem rem' l : rem' <= rem -> granted (snd (serial_run rem [l])) = false -> granted (snd (serial_run rem' [l])) = false.
Proof.
  intros L. cbn [serial_run]. unfold serial_alloc. destruct (4096 <? l_align l); cbn [orb]; [auto|]. destruct (N.ltb_spec rem (l_size l)); cbn [snd granted forallb]; [|discriminate].
  intros _. replace (rem' <? l_size l) with true by lia. reflexivity.
Qed.
Lemma blocked_le b rem rem' st todo : rem' <= rem -> blocked b rem st todo -> blocked b rem' st todo.
Proof.
  intros L (o & rest & -> & G). exists o, rest. split; [reflexivity|]. destruct (op_requests_one b st o) as [Q|[l Q]]; rewrite Q in *; [discriminate G|]. eapply blocked_one; eauto.
Qed.
Lemma a_turn_rem b i s s' : a_turn b i s = Fine s' -> as_rem s' <= as_rem s.
Proof.
  unfold a_turn. destruct (at_hung _); [intros [= <-]; lia|]. destruct (at_todo _) as [|o rest]; [intros [= <-]; lia|]. destruct (hclient_step _ o) as [[st' r]| |]; try discriminate.
  pose proof (serial_run_le (op_requests b (at_state (as_thread s i)) o) (as_rem s)) as L. destruct (serial_run _ _) as [rem' os]. intros [= <-]. destruct (granted os); cbn [as_rem fst] in *; lia.
Qed.
Lemma a_turn_other b i s s' j : j <> i -> a_turn b i s = Fine s' -> as_thread s' j = as_thread s j.
Proof.
  intros N. unfold a_turn. destruct (at_hung _); [now intros [= <-]|]. destruct (at_todo _) as [|o rest]; [now intros [= <-]|]. destruct (hclient_step _ o) as [[st' r]| |]; try discriminate.
  destruct (serial_run _ _) as [rem' os]. intros [= <-]. destruct (granted os); cbn [as_thread]; now rewrite set_a_other.
Qed.
(** thread [t] has made [done] calls of its program in [turns] turns *)
Definition follows (b : n_build) (rem : N) (program : list h_op) (turns : nat) (t : a_thread) : Prop :=
  exists done, hclient_run hclient_start (firstn done program) = Fine (at_state t, at_results t) /\ at_todo t = skipn done program /\
    if at_hung t then (done < turns)%nat /\ blocked b rem (at_state t) (at_todo t) else done = Nat.min turns (length program).
Lemma skipn_next {T} (l : list T) d o rest : skipn d l = o :: rest -> firstn (S d) l = firstn d l ++ [o] /\ skipn (S d) l = rest /\ (d < length l)%nat.
Proof.
  revert l. induction d as [|d IH]; intros [|x l]; cbn [skipn]; try discriminate.
  - intros [= -> ->]. cbn. split; [reflexivity|]. split; [reflexivity|lia].
  - intros Q. destruct (IH l Q) as (A & B & C). cbn [firstn skipn length] in *. rewrite A. split; [reflexivity|]. split; [exact B|lia].
Qed.
Lemma follows_turn b programs i s pre : (forall j, exists x, hclient_run hclient_start (programs j) = Fine x) ->
  (forall j, follows b (as_rem s) (programs j) (on_turn j pre) (as_thread s j)) ->
  exists s', a_turn b i s = Fine s' /\ forall j, follows b (as_rem s') (programs j) (on_turn j (pre ++ [i])) (as_thread s' j).
Proof.
  intros Fi F.
  assert (Ex : exists s', a_turn b i s = Fine s' /\ follows b (as_rem s') (programs i) (S (on_turn i pre)) (as_thread s' i)).
  { unfold a_turn. destruct (F i) as (d & R & T & H). destruct (at_hung (as_thread s i)) eqn:Hu.
    - exists s. split; [reflexivity|]. exists d. rewrite Hu. split; [exact R|]. split; [exact T|]. split; [lia|apply H].
    - destruct (at_todo (as_thread s i)) as [|o rest] eqn:To.
      + exists s. split; [reflexivity|]. exists d. rewrite Hu. split; [exact R|]. rewrite To. split; [exact T|].
        assert (length (programs i) <= d)%nat; [|lia]. pose proof (f_equal (@length _) T) as L. rewrite skipn_length in L. cbn [length] in L. lia.
      + symmetry in T. destruct (skipn_next _ _ _ _ T) as (N1 & N2 & N3).
        assert (G : exists st' r, hclient_step (at_state (as_thread s i)) o = Fine (st', r)).
        { destruct (Fi i) as [x X]. rewrite <- (firstn_skipn d (programs i)), hrun_app, R, T in X. cbn [hclient_run] in X.
          destruct (hclient_step (at_state (as_thread s i)) o) as [[st' r]| |]; [eauto|discriminate X|discriminate X]. }
        destruct G as (st' & r & G). rewrite G. destruct (serial_run (as_rem s) (op_requests b (at_state (as_thread s i)) o)) as [rem' os] eqn:Se. eexists. split; [reflexivity|].
        destruct (granted os) eqn:Gr; cbn [as_rem as_thread]; rewrite set_a_same.
        * exists (S d). cbn [at_state at_results at_todo at_hung]. rewrite N1, hrun_app, R. cbn [hclient_run]. rewrite G. split; [reflexivity|]. split; [auto|]. lia.
        * exists d. cbn [at_state at_results at_todo at_hung]. split; [exact R|]. split; [auto|]. split; [lia|]. exists o, rest. split; [reflexivity|]. rewrite Se. exact Gr. }
  destruct Ex as (s' & Q & Fs). exists s'. split; [exact Q|]. intros j. unfold on_turn. rewrite filter_app, app_length. cbn [filter]. fold (on_turn j pre).
  destruct (Nat.eqb_spec j i) as [->|N]; cbn [length].
  - now rewrite Nat.add_1_r.
  - rewrite Nat.add_0_r. rewrite (a_turn_other b i s s' j N Q). destruct (F j) as (d & R & T & H). exists d. split; [exact R|]. split; [exact T|].
    destruct (at_hung (as_thread s j)); [|exact H]. destruct H as [H1 H2]. split; [exact H1|]. exact (blocked_le _ _ _ _ _ (a_turn_rem _ _ _ _ Q) H2).
Qed.
Lemma follows_turns b programs schedule : (forall j, exists x, hclient_run hclient_start (programs j) = Fine x) -> forall pre s,
  (forall j, follows b (as_rem s) (programs j) (on_turn j pre) (as_thread s j)) ->
  exists s', a_turns b schedule s = Fine s' /\ forall j, follows b (as_rem s') (programs j) (on_turn j (pre ++ schedule)) (as_thread s' j).
Proof.
  intros Fi. induction schedule as [|i rest IH]; intros pre s F; cbn [a_turns]; [rewrite app_nil_r; eauto|].
  destruct (follows_turn b programs i s pre Fi F) as (s1 & -> & F1). destruct (IH (pre ++ [i]) s1 F1) as (s2 & -> & F2). rewrite <- app_assoc in F2. eauto.
Qed.
Lemma follows_start b programs j : follows b (as_rem (a_start programs)) (programs j) (on_turn j []) (as_thread (a_start programs) j).
Proof. exists 0%nat. cbn. auto. Qed.

(** C82: a thread has at any moment the results that the first calls of its program have when it runs alone. If it does not hang it has made as
    many calls as it was on turn; if it hangs, then on a call whose request the allocator could not serve even now. A
    thread that hangs in [Position_make_compact_move] leaves a position behind in which the move is made, with a list of moves in which it is missing. *)
Lemma c82_alone_pf : forall P U A E b envs n k pads programs m schedule, In A word_alignments -> 18 < U -> build_ok U A b -> nb_base b mod nb_align b = 0 ->
  arena_free b m -> variables_apart A envs n k m -> (forall i, Forall (hop_fine (n i) (k i)) (programs i)) ->
  (forall i, exists x, hclient_run hclient_start (programs i) = Fine x) ->
  exists sys, nsys_run P U A E b envs pads schedule (nsys_start m programs) = Ret sys /\
    forall i, let t := ns_thread sys i in
      exists done st, hclient_run hclient_start (firstn done (programs i)) = Fine (st, nt_results t) /\ nt_todo t = skipn done (programs i) /\
        if nt_hung t
        then (done < on_turn i schedule)%nat /\
             exists o rest, nt_todo t = o :: rest /\ granted (snd (serial_run (ns_rem sys) (op_requests b st o))) = false /\
               thread_shows A E b (envs i) (n i) (k i) (ns_mem sys) (nt_world t) (left_state st o)
        else done = Nat.min (on_turn i schedule) (length (programs i)) /\
             thread_shows A E b (envs i) (n i) (k i) (ns_mem sys) (nt_world t) st.
Proof.
  intros P U A E b envs n k pads programs m schedule I HU Bd Ba Af Pl V Fi. pose proof (all_set_intro U A b envs n k m I HU Bd Ba Af Pl) as St.
  pose proof (turns_ok P U A E b envs n k pads m schedule St Af _ _ (nsinv_start P A E b envs n k m programs Af Pl V)) as Q.
  destruct (follows_turns b programs schedule Fi [] (a_start programs) (follows_start b programs)) as (s & X & F). rewrite X in Q. destruct Q as (sys & Y & H).
  exists sys. split; [exact Y|]. intros i t. destruct (F i) as (d & R & T & G). cbn [app] in G. exists d, (at_state (as_thread s i)).
  unfold t. rewrite (sv_results _ _ _ _ _ _ _ _ _ _ H i), (sv_todo _ _ _ _ _ _ _ _ _ _ H i), (sv_hung _ _ _ _ _ _ _ _ _ _ H i), (sv_rem _ _ _ _ _ _ _ _ _ _ H).
  pose proof (nsinv_shows P U A E b envs n k m sys s i St H) as W. unfold memory_of in W.
  split; [exact R|]. split; [exact T|]. destruct (at_hung (as_thread s i)) eqn:Hu.
  - destruct G as [G1 (o & rest & G2 & G3)]. split; [exact G1|]. exists o, rest. split; [exact G2|]. split; [exact G3|]. rewrite G2 in W. exact W.
  - split; [exact G|]. now destruct (at_todo (as_thread s i)).
Qed.

(** ** Running out *)
Lemma news_turn b i s s' j : granted (snd (serial_run (as_rem s) [Layout (bx_size (nb_box b)) (nb_align b)])) = false -> a_turn b i s = Fine s' ->
  news (at_todo (as_thread s' j)) = news (at_todo (as_thread s j)).
Proof.
  intros B Q. destruct (Nat.eq_dec j i) as [->|N]; [|now rewrite (a_turn_other b i s s' j N Q)]. revert Q. unfold a_turn. destruct (at_hung _); [now intros [= <-]|].
  destruct (at_todo (as_thread s i)) as [|o rest] eqn:To; [intros [= <-]; now rewrite To|]. destruct (hclient_step _ o) as [[st' r]| |]; try discriminate.
  assert (No : granted (snd (serial_run (as_rem s) (op_requests b (at_state (as_thread s i)) o))) = true -> news rest = news (o :: rest)).
  { destruct o; try reflexivity. cbn [op_requests]. rewrite B. discriminate. }
  destruct (serial_run (as_rem s) (op_requests b (at_state (as_thread s i)) o)) as [rem' os]. cbn [snd] in No. intros Q. injection Q as <-.
  destruct (granted os); cbn [as_thread]; rewrite set_a_same; cbn [at_todo]; auto.
Qed.
Lemma news_turns b later : forall s s', granted (snd (serial_run (as_rem s) [Layout (bx_size (nb_box b)) (nb_align b)])) = false -> a_turns b later s = Fine s' ->
  forall j, news (at_todo (as_thread s' j)) = news (at_todo (as_thread s j)).
Proof.
  induction later as [|i later IH]; intros s s' B Q j; cbn [a_turns] in Q; [injection Q as <-; reflexivity|]. destruct (a_turn b i s) as [s1| |] eqn:Z; try discriminate Q.
  rewrite (IH s1 s' (blocked_one _ _ _ (a_turn_rem _ _ _ _ Z) B) Q j). exact (news_turn b i s s1 j B Z).
Qed.
(** C82: once a thread hangs in [Position_startpos] no thread ever creates a position again, though positions may be destructed. *)
Lemma c82_last_position_pf : forall P U A E b envs n k pads programs m schedule later sys sys' i h rest, In A word_alignments -> 18 < U -> build_ok U A b ->
  nb_base b mod nb_align b = 0 -> arena_free b m -> variables_apart A envs n k m -> (forall i, Forall (hop_fine (n i) (k i)) (programs i)) ->
  (forall i, exists x, hclient_run hclient_start (programs i) = Fine x) ->
  nsys_run P U A E b envs pads schedule (nsys_start m programs) = Ret sys -> nt_hung (ns_thread sys i) = true -> nt_todo (ns_thread sys i) = HNew h :: rest ->
  nsys_run P U A E b envs pads later sys = Ret sys' ->
  forall j, news (nt_todo (ns_thread sys' j)) = news (nt_todo (ns_thread sys j)).
Proof.
  intros P U A E b envs n k pads programs m schedule later sys sys' i h rest I HU Bd Ba Af Pl V Fi R Hu To R' j. pose proof (all_set_intro U A b envs n k m I HU Bd Ba Af Pl) as St.
  pose proof (turns_ok P U A E b envs n k pads m schedule St Af _ _ (nsinv_start P A E b envs n k m programs Af Pl V)) as Q.
  destruct (follows_turns b programs schedule Fi [] (a_start programs) (follows_start b programs)) as (s & X & F). rewrite X, R in Q. destruct Q as (sys0 & [= <-] & H).
  pose proof (turns_ok P U A E b envs n k pads m later St Af _ _ H) as Q. cbn [app] in F.
  destruct (follows_turns b programs later Fi schedule s F) as (s' & X' & _). rewrite X', R' in Q. destruct Q as (sys0 & [= <-] & H').
  rewrite (sv_todo _ _ _ _ _ _ _ _ _ _ H' j), (sv_todo _ _ _ _ _ _ _ _ _ _ H j). apply (news_turns b later s s'); [|exact X'].
  destruct (F i) as (d & _ & _ & G). rewrite <- (sv_hung _ _ _ _ _ _ _ _ _ _ H i), Hu in G. destruct G as [_ (o & rest' & T & G)].
  rewrite <- (sv_todo _ _ _ _ _ _ _ _ _ _ H i), To in T. injection T as <- <-. exact G.
Qed.

(** ** Enough for everybody *)
Definition sum (f : nat -> N) (l : list nat) : N := fold_right (fun i t => f i + t) 0 l.
Lemma sum_ext f g l : (forall i, In i l -> f i = g i) -> sum f l = sum g l.
Proof. induction l as [|x l IH]; intros H; cbn [sum fold_right]; [reflexivity|]. fold (sum f l) (sum g l). rewrite H by (now left). rewrite IH; [reflexivity|]. intros i J. apply H. now right. Qed.
Lemma sum_change f g i l : NoDup l -> In i l -> (forall j, j <> i -> f j = g j) -> sum f l + g i = sum g l + f i.
Proof.
  intros D. induction D as [|x l Nx D IH]; intros J H; [destruct J|]. cbn [sum fold_right]. fold (sum f l) (sum g l). destruct (Nat.eq_dec x i) as [->|Ne].
  - rewrite (sum_ext f g l); [lia|]. intros j Jj. apply H. congruence.
  - destruct J as [J|J]; [contradiction|]. specialize (IH J H). rewrite (H x Ne). lia.
Qed.
Lemma spend_app ls ls' : spend (ls ++ ls') = spend ls + spend ls'.
Proof. unfold spend. induction ls as [|l ls IH]; cbn [app fold_right]; lia. Qed.
Lemma spend_served ls : forall rem, Forall (fun l => l_align l <> 0 /\ l_align l <= 4096) ls -> spend ls <= rem ->
  granted (snd (serial_run rem ls)) = true /\ rem <= fst (serial_run rem ls) + spend ls.
Proof.
  induction ls as [|l ls IH]; intros rem V S; cbn [serial_run]; [cbn; lia|]. inversion V as [|? ? [V1 V2] V']; subst. cbn [spend fold_right] in *. fold (spend ls) in *.
  unfold serial_alloc. replace (4096 <? l_align l) with false by lia. replace (rem <? l_size l) with false by lia. cbn [orb].
  set (o := (rem - l_size l) / l_align l * l_align l).
  assert (Lo : rem - l_size l <= o + (l_align l - 1)).
  { pose proof (N.div_mod' (rem - l_size l) (l_align l)). pose proof (N.mod_lt (rem - l_size l) (l_align l) V1). unfold o. lia. }
  specialize (IH o V' ltac:(lia)). destruct (serial_run o ls) as [r os]. cbn [fst snd] in *. destruct IH as [I1 I2]. split; [exact I1|lia].
Qed.
Lemma aligned_requests b U A st o : build_ok U A b -> nb_align b <= 4096 -> Forall (fun l => l_align l <> 0 /\ l_align l <= 4096) (op_requests b st o).
Proof.
  intros (_ & (j & _ & Aj) & _) L. assert (nb_align b <> 0) by (rewrite Aj; apply N.pow_nonzero; lia). destruct o; cbn [op_requests]; auto.
  destruct (object_of st h) as [[? [[? ?] ?]]|]; auto. destruct (snd _); auto. unfold push_request. destruct (_ =? _); auto. constructor; [cbn; lia|constructor].
Qed.
Definition owed (b : n_build) (t : a_thread) : N := spend (requests b (at_state t) (at_todo t)).
Lemma enough_turn U A b threads i s s' : build_ok U A b -> nb_align b <= 4096 -> NoDup threads -> In i threads -> a_turn b i s = Fine s' ->
  (forall j, at_hung (as_thread s j) = false) -> sum (fun j => owed b (as_thread s j)) threads <= as_rem s ->
  (forall j, at_hung (as_thread s' j) = false) /\ sum (fun j => owed b (as_thread s' j)) threads <= as_rem s'.
Proof.
  intros Bd Al D J Q Hu S. pose proof (fun j N => a_turn_other b i s s' j N Q) as Ot. revert Q. unfold a_turn. rewrite Hu. destruct (at_todo (as_thread s i)) as [|o rest] eqn:To; [now intros [= <-]|].
  destruct (hclient_step (at_state (as_thread s i)) o) as [[st' r]| |] eqn:Hs; try discriminate. intros Q.
  assert (Ow : owed b (as_thread s i) = spend (op_requests b (at_state (as_thread s i)) o) + spend (requests b st' rest)).
  { unfold owed. rewrite To. cbn [requests]. rewrite Hs. apply spend_app. }
  assert (Le : owed b (as_thread s i) <= as_rem s).
  { assert (owed b (as_thread s i) <= sum (fun j => owed b (as_thread s j)) threads); [|lia]. clear - J. induction threads as [|x l IH]; [destruct J|]. cbn [sum fold_right]. fold (sum (fun j => owed b (as_thread s j)) l).
    destruct J as [->|J]; [lia|specialize (IH J); lia]. }
  destruct (spend_served (op_requests b (at_state (as_thread s i)) o) (as_rem s) (aligned_requests b U A _ o Bd Al) ltac:(lia)) as [G1 G2].
  destruct (serial_run (as_rem s) _) as [rem' os]. cbn [fst snd] in *. rewrite G1 in Q. injection Q as <-. cbn [as_rem as_thread] in *. split.
  - intros j. destruct (Nat.eq_dec j i) as [->|N]; [now rewrite set_a_same|]. rewrite (Ot j N). apply Hu.
  - pose proof (sum_change (fun j => owed b (as_thread s j)) (fun j => owed b (set_a (as_thread s) i (AThread rest st' (at_results (as_thread s i) ++ [r]) false) j)) i threads D J) as C.
    cbn beta in C. specialize (C ltac:(intros j N; now rewrite (Ot j N))). rewrite set_a_same in C. change (owed b (AThread rest st' (at_results (as_thread s i) ++ [r]) false)) with (spend (requests b st' rest)) in C. lia.
Qed.
Lemma enough_turns U A b threads schedule : build_ok U A b -> nb_align b <= 4096 -> NoDup threads -> incl schedule threads -> forall s s', a_turns b schedule s = Fine s' ->
  (forall j, at_hung (as_thread s j) = false) -> sum (fun j => owed b (as_thread s j)) threads <= as_rem s -> forall j, at_hung (as_thread s' j) = false.
Proof.
  intros Bd Al D. induction schedule as [|i rest IH]; intros In_ s s' Q Hu S; cbn [a_turns] in Q; [injection Q as <-; exact Hu|].
  destruct (a_turn b i s) as [s1| |] eqn:Z; try discriminate Q. destruct (enough_turn U A b threads i s s1 Bd Al D (In_ i (or_introl eq_refl)) Z Hu S) as [H1 S1].
  exact (IH (fun x J => In_ x (or_intror J)) s1 s' Q H1 S1).
Qed.
(** C82: where all that the threads will ever ask for, with the most that alignment can cost, fits into the arena, no order of the calls makes a
    thread hang: every thread gets all its results. *)
Lemma c82_enough_pf : forall P U A E b envs n k pads programs m schedule threads, In A word_alignments -> 18 < U -> build_ok U A b -> nb_base b mod nb_align b = 0 ->
  arena_free b m -> variables_apart A envs n k m -> (forall i, Forall (hop_fine (n i) (k i)) (programs i)) ->
  (forall i, exists x, hclient_run hclient_start (programs i) = Fine x) ->
  nb_align b <= 4096 -> NoDup threads -> incl schedule threads -> spend_all b programs threads <= 128 * 1024 ->
  exists sys, nsys_run P U A E b envs pads schedule (nsys_start m programs) = Ret sys /\
    forall i, nt_hung (ns_thread sys i) = false /\ nt_todo (ns_thread sys i) = skipn (on_turn i schedule) (programs i) /\
      exists st, hclient_run hclient_start (firstn (on_turn i schedule) (programs i)) = Fine (st, nt_results (ns_thread sys i)).
Proof.
  intros P U A E b envs n k pads programs m schedule threads I HU Bd Ba Af Pl V Fi Al D In_ Sp. pose proof (all_set_intro U A b envs n k m I HU Bd Ba Af Pl) as St.
  pose proof (turns_ok P U A E b envs n k pads m schedule St Af _ _ (nsinv_start P A E b envs n k m programs Af Pl V)) as Q.
  destruct (follows_turns b programs schedule Fi [] (a_start programs) (follows_start b programs)) as (s & X & F). rewrite X in Q. destruct Q as (sys & Y & H). cbn [app] in F.
  pose proof (enough_turns U A b threads schedule Bd Al D In_ _ _ X (fun _ => eq_refl) Sp) as Hu. exists sys. split; [exact Y|]. intros i.
  rewrite (sv_hung _ _ _ _ _ _ _ _ _ _ H i), (sv_todo _ _ _ _ _ _ _ _ _ _ H i), (sv_results _ _ _ _ _ _ _ _ _ _ H i). split; [apply Hu|].
  destruct (F i) as (d & R & T & G). rewrite Hu in G. rewrite T. destruct (Nat.le_gt_cases (on_turn i schedule) (length (programs i))) as [L|L].
  - replace (on_turn i schedule) with d by lia. eauto.
  - assert (d = length (programs i)) by lia. subst d. rewrite !skipn_all2 by lia. split; [congruence|]. rewrite (firstn_all2 (programs i)) by lia. rewrite H0, firstn_all in R. eauto.
Qed.

(** ** The order matters *)
Definition hangs (x : outcome a_system) : list bool := match x with Fine s => map (fun i => at_hung (as_thread s i)) [0;1;2;3;4]%nat | _ => [] end.
(** C82 (full statement refuted): it is not so that which threads hang is settled by what each of them does. Five threads that create one
    position each and make one move in it all come to their end when the positions are created first. Thread after thread, the same calls
    make the last one hang: rounding down to the alignment of [Position] after each list of moves costs more. *)
Lemma c82_order_refuted_pf : ~ (forall P U A E b envs n k pads programs m schedule schedule' sys sys', In A word_alignments -> 18 < U -> build_ok U A b ->
  nb_base b mod nb_align b = 0 -> arena_free b m -> variables_apart A envs n k m -> (forall i, Forall (hop_fine (n i) (k i)) (programs i)) ->
  (forall i, exists x, hclient_run hclient_start (programs i) = Fine x) -> (forall i, on_turn i schedule = on_turn i schedule') ->
  nsys_run P U A E b envs pads schedule (nsys_start m programs) = Ret sys -> nsys_run P U A E b envs pads schedule' (nsys_start m programs) = Ret sys' ->
  forall i, nt_hung (ns_thread sys i) = nt_hung (ns_thread sys' i)).
Proof.
  intros C. assert (I : In 8 word_alignments) by (unfold word_alignments; cbn; auto). assert (HU : 18 < 64) by lia.
  set (envs := fun _ : nat => env1). set (pads := fun (_ _ : nat) (_ : N) => 0).
  assert (G : forall sch, exists sys, nsys_run Release 64 8 Little build3 envs pads sch (nsys_start ram1 five) = Ret sys /\
    forall s, a_turns build3 sch (a_start five) = Fine s -> nt_hung (ns_thread sys 4%nat) = at_hung (as_thread s 4%nat)).
  { intros sch. pose proof (c82_threads_pf Release 64 8 Little build3 envs (fun _ => 0%nat) (fun _ => 0%nat) pads five ram1 sch I HU build3_ok eq_refl arena1_free (no_variables _ _ _) (five_fine 0 0)) as Q.
    destruct (follows_turns build3 five sch five_runs [] (a_start five) (follows_start build3 five)) as (s & X & _). rewrite X in Q. destruct Q as (sys & R & _ & T & _). exists sys. split; [exact R|].
    rewrite X. intros s' Z. injection Z as <-. apply (T 4%nat). }
  destruct (G by_kind) as (sys & R & H). destruct (G by_thread) as (sys' & R' & H').
  specialize (C Release 64 8 Little build3 envs (fun _ => 0%nat) (fun _ => 0%nat) pads five ram1 by_kind by_thread sys sys' I HU build3_ok eq_refl arena1_free (no_variables _ _ _) (five_fine 0 0) five_runs).
  specialize (C ltac:(intros i; do 5 (destruct i as [|i]; [reflexivity|]); reflexivity) R R' 4%nat).
  assert (K : nth 4 (hangs (a_turns build3 by_kind (a_start five))) true = false) by (vm_compute; reflexivity).
  assert (K' : nth 4 (hangs (a_turns build3 by_thread (a_start five))) false = true) by (vm_compute; reflexivity).
  destruct (a_turns build3 by_kind (a_start five)) as [s| |]; try discriminate K. destruct (a_turns build3 by_thread (a_start five)) as [s'| |]; try discriminate K'.
  cbn [hangs map nth] in K, K'. rewrite (H s eq_refl), (H' s' eq_refl), K, K' in C. discriminate C.
Qed.
