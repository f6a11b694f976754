(*PROPHEAD
Property theorems C84: threads linked with the no-std library on weakly ordered memory
From Verif Require Import LSampleE.
*)
(** Proofs of the property theorems on weakly ordered memory (restated in Prop_Weak.v). *)
From Verif Require Import TPosition LExt LRuntime TRuntime TClient THeap TArena TNoStd LSampleE TNoThreads TNoFine.
From Verif Require Export SpecWeak.

(** ** An old value of [remaining] *)
Lemma fsinv_stale P U A E b envs n k programs m sys s i p l mask prev al prev' : fsinv P U A E b envs n k programs m sys s ->
  ft_phase (fs_thread sys i) = FAsking p l mask prev al -> fs_rem sys <= prev' <= 128 * 1024 ->
  fsinv P U A E b envs n k programs m (FSystem (fs_mem sys) (fs_rem sys) (f_put (fs_thread sys) i (with_phase (fs_thread sys i) (FAsking p l mask prev' al)))) s.
Proof.
  intros V Hp Le. set (t := fs_thread sys i) in *. set (t' := with_phase t (FAsking p l mask prev' al)).
  assert (Hh : forall j, ft_todo (f_put (fs_thread sys) i t' j) = ft_todo (fs_thread sys j) /\ ft_world (f_put (fs_thread sys) i t' j) = ft_world (fs_thread sys j) /\
    forall y, reserved b (f_put (fs_thread sys) i t' j) y -> reserved b (fs_thread sys j) y).
  { intros j. destruct (Nat.eq_dec j i) as [->|N]; [|rewrite f_put_other; auto]. rewrite f_put_same. unfold reserved, t'. cbn. fold t. rewrite Hp. auto. }
  constructor; cbn [fs_mem fs_rem fs_thread].
  - apply V.
  - intros j. rewrite (proj1 (Hh j)). apply V.
  - apply V.
  - apply V.
  - intros j. destruct (fv_each _ _ _ _ _ _ _ _ _ _ _ _ V j) as (m0 & st & H & Ph). exists m0, st. destruct (Nat.eq_dec j i) as [->|N]; [|rewrite f_put_other; auto].
    rewrite f_put_same. fold t in H, Ph. split; [exact H|]. unfold phase_ok, t' in *. rewrite Hp in Ph. cbn [with_phase ft_phase ft_todo ft_results ft_world].
    destruct Ph as (o & rest & H1 & H2 & H3 & H4 & H5 & H6 & H7 & H8 & H9 & H10 & H11). exists o, rest. repeat (split; [assumption|]). exact Le.
  - intros j q y N J K. apply (fv_apart _ _ _ _ _ _ _ _ _ _ _ _ V j q y N); unfold holds in *.
    + destruct J as [J|J]; [left|right]; [now rewrite <- (proj1 (proj2 (Hh j)))|now apply Hh].
    + destruct K as [K|K]; [left|right]; [now rewrite <- (proj1 (proj2 (Hh q)))|now apply Hh].
  - intros j y J. rewrite (proj1 (proj2 (Hh j))). apply V. now apply Hh.
  - intros y N. apply V. intros j. rewrite <- (proj1 (proj2 (Hh j))). apply N.
Qed.

(** ** The log *)
Definition log_ok (log : list N) (rem : N) : Prop := log <> [] /\ last log 0 = rem /\ Forall (fun x => rem <= x <= 128 * 1024) log /\ descending log.
Lemma descending_snoc l x : descending l -> (l <> [] -> x <= last l 0) -> descending (l ++ [x]).
Proof.
  induction l as [|y l IH]; intros D L; [exact Logic.I|]. destruct l as [|z l]; [cbn; split; [apply L; discriminate|exact Logic.I]|].
  destruct D as [D1 D2]. cbn [app descending]. split; [exact D1|]. apply (IH D2). intros _. apply L. discriminate.
Qed.
Lemma place_in log seen ex j : log <> [] -> (w_place log seen ex j < length log)%nat.
Proof.
  intros N. unfold w_place. destruct (_ && _) eqn:X; [|destruct log; [congruence|cbn [length]; lia]]. apply andb_prop in X as [X _]. apply andb_prop in X as [_ X]. now apply Nat.ltb_lt.
Qed.
Lemma log_place log rem seen ex j : log_ok log rem -> rem <= nth (w_place log seen ex j) log 0 <= 128 * 1024.
Proof. intros (N & La & F & _). rewrite Forall_forall in F. apply F, nth_In, place_in, N. Qed.
Lemma log_more log rem rem' : log_ok log rem -> rem' <= rem -> log_ok (log ++ [rem']) rem'.
Proof.
  intros (N & La & F & D) Le. split; [now destruct log|]. split; [apply last_last|]. assert (L : rem <= 128 * 1024) by (destruct log as [|x log]; [congruence|inversion F; subst; lia]). split.
  - apply Forall_app. split; [|repeat constructor; lia]. eapply Forall_impl; [|exact F]. cbn beta. intros; lia.
  - apply descending_snoc; auto. intros _. lia.
Qed.
(** a step changes [remaining] only with a successful exchange *)
Lemma step_rem P U A E b envs n k programs pads m i sp sys s sys' : all_set U A b envs n k -> arena_free b m -> fsinv P U A E b envs n k programs m sys s ->
  f_step P U A E b envs pads i sp sys = Ret sys' -> got_block (fs_thread sys' i) = true \/ fs_rem sys' = fs_rem sys.
Proof.
  intros St Af V Q. destruct (fstep_ok P U A E b envs n k programs pads m i sp sys s St Af V) as (sys0 & s' & X & M & _ & V' & _). rewrite Q in X. injection X as <-.
  rewrite (fv_rem _ _ _ _ _ _ _ _ _ _ _ _ V'), (fv_rem _ _ _ _ _ _ _ _ _ _ _ _ V). unfold f_moves in M. destruct (takes_effect _ _) eqn:Te; [|right; congruence].
  unfold f_step in Q. unfold takes_effect in Te. apply andb_prop in Te as [Te1 Te2]. destruct (ft_todo (fs_thread sys i)) as [|o rest] eqn:To.
  { injection Q as <-. right. rewrite <- (fv_rem _ _ _ _ _ _ _ _ _ _ _ _ V'). apply V. }
  destruct (f_act _ _ _ _ _ _ _ _ _ _ _) as [[nw r|m' r ph]| |] eqn:X; try discriminate Q; injection Q as <-; rewrite <- (fv_rem _ _ _ _ _ _ _ _ _ _ _ _ V'), <- (fv_rem _ _ _ _ _ _ _ _ _ _ _ _ V);
    cbn [fs_rem fs_thread] in *; rewrite ?f_put_same in *; unfold got_block, asking in *; cbn [ft_phase] in *; auto.
  - right. destruct (fv_each _ _ _ _ _ _ _ _ _ _ _ _ V i) as (m0 & st & H & Ph). unfold phase_ok in Ph. destruct (ft_phase (fs_thread sys i)) as [|p l mask prev al|p l off|] eqn:Hp; cbn [f_act] in X; try discriminate Te1.
    + destruct Ph as (T1 & T2 & T3 & ->). destruct (fv_right _ _ _ _ _ _ _ _ _ _ _ _ V i) as [x Ri]. rewrite <- T1, To in Ri. destruct (right_next _ _ _ _ Ri) as (st' & r' & Hs & _).
      pose proof (fv_fine _ _ _ _ _ _ _ _ _ _ _ _ V i) as Fi. rewrite To in Fi. inversion Fi; subst.
      destruct (begin_ok P U A E b (envs i) (n i) (k i) m0 (pads i (ft_tick (fs_thread sys i))) o _ _ st' r' (St i) H ltac:(assumption) Hs) as (out & Y & B). unfold fnow in Y. rewrite X in Y. injection Y as <-.
      destruct B as (_ & _ & B & _). exact B.
    + unfold f_round in X. destruct (alloc_closure P U l mask prev) as [[next asg]| |]; cbn [bind] in X; try discriminate X. destruct next; [destruct (_ && _)|]; discriminate X.
    + discriminate X.
  - destruct (ft_phase (fs_thread sys i)) as [|p l mask prev al|p l off|] eqn:Hp; cbn [f_act] in X; try discriminate Te1.
    + right. assert (Ask : forall m1 r1 p l, f_ask P U m1 r1 p l = Ret (Turned m' r ph) -> r = r1) by (intros m1 r1 p l Z; unfold f_ask in Z; destruct (align_mask P U l); cbn [bind] in Z; try discriminate Z; now injection Z as <- <- <-).
      assert (G : forall Y : res (n_world * c_result), ('(nw', r0) <- Y;; Ret (Answered nw' r0)) = Ret (Turned m' r ph) -> r = fs_rem sys) by (intros [[? ?]| |]; discriminate).
      unfold f_begin in X. destruct o; try exact (G _ X); [exact (Ask _ _ _ _ X)|]. cbn [n_shared nw_rem nw_world] in X.
      destruct (deref _ _) as [[id [a ms]]| |]; cbn [bind] in X; try discriminate X. destruct (h_step _ _ _ _ _ _ _ _ _) as [[w' res]| |]; cbn [bind] in X; try discriminate X.
      destruct res as [|[]| | | | | |]; try discriminate X. destruct (move_of_cm _ _); cbn [bind] in X; try discriminate X. destruct (_ =? _).
      * destruct (_ <=? _); [now injection X as <- <- <-|exact (Ask _ _ _ _ X)].
      * destruct (write_bytes _ _ _); discriminate X.
    + unfold f_round in X. destruct (alloc_closure P U l mask prev) as [[next asg]| |]; cbn [bind] in X; try discriminate X. destruct next; [destruct (_ && _)|]; injection X as <- <- <-; cbn [n_shared nw_rem]; auto.
    + injection X as <- <- <-. right. reflexivity.
Qed.
Definition winv P U A E b envs n k programs m (ws : w_system) (s : a_system) : Prop := fsinv P U A E b envs n k programs m (ws_sys ws) s /\ log_ok (ws_log ws) (fs_rem (ws_sys ws)).
Lemma wstep_ok P U A E b envs n k programs pads m c ws s : all_set U A b envs n k -> arena_free b m -> winv P U A E b envs n k programs m ws s ->
  exists ws' s', w_step P U A E b envs pads c ws = Ret ws' /\ f_moves b (wc_thread c) (fs_thread (ws_sys ws) (wc_thread c)) (fs_thread (ws_sys ws') (wc_thread c)) s s' /\
    winv P U A E b envs n k programs m ws' s' /\ f_takes A b envs n k (wc_thread c) (ws_sys ws) (ws_sys ws').
Proof.
  intros St Af [V L]. unfold w_step. set (i := wc_thread c). destruct (fstep_ok P U A E b envs n k programs pads m i (wc_spurious c) _ s St Af V) as (sys' & s' & X & M & _ & V' & T).
  pose proof (step_rem P U A E b envs n k programs pads m i _ _ s sys' St Af V X) as Sr. rewrite X. cbn [bind]. set (t' := fs_thread sys' i) in *.
  destruct (ft_phase t') as [|p l mask prev al|p l off|] eqn:Hp.
  1,4: eexists; exists s'; split; [reflexivity|]; split; [exact M|]; split; [|exact T]; split; [exact V'|]; cbn [ws_log ws_sys]; destruct Sr as [Sr| ->]; [unfold got_block in Sr; rewrite Hp in Sr; discriminate Sr|exact L].
  - eexists. exists s'. split; [reflexivity|]. cbn [ws_sys fs_thread]. rewrite f_put_same.
    destruct Sr as [Sr|Sr]; [unfold got_block in Sr; rewrite Hp in Sr; discriminate Sr|].
    split; [unfold f_moves, takes_effect, asking in *; fold t' in M; rewrite Hp in M; cbn [with_phase ft_phase]; exact M|]. split.
    + split; cbn [ws_sys ws_log fs_rem]; [|rewrite Sr; exact L]. apply (fsinv_stale P U A E b envs n k programs m sys' s' i p l mask prev al _ V' Hp). rewrite Sr. apply log_place, L.
    + destruct T as (T1 & T2 & T3 & T4). split; [exact T1|]. cbn [fs_thread fs_mem]. split; [intros j N; rewrite f_put_other; auto|]. rewrite f_put_same. split; [|exact T4].
      intros y [K|[]]. apply T3. left. exact K.
  - eexists. exists s'. split; [reflexivity|]. split; [exact M|]. split; [|exact T]. split; [exact V'|]. cbn [ws_log ws_sys]. apply (log_more _ _ _ L). apply T.
Qed.
Lemma wrun_ok P U A E b envs n k programs pads m cs : all_set U A b envs n k -> arena_free b m -> forall ws s, winv P U A E b envs n k programs m ws s ->
  exists ws' s', w_run P U A E b envs pads cs ws = Ret ws' /\ a_turns b (w_effects P U A E b envs pads cs ws) s = Fine s' /\ winv P U A E b envs n k programs m ws' s'.
Proof.
  intros St Af. induction cs as [|c cs IH]; intros ws s V; cbn [w_run w_effects]; [exists ws, s; auto|].
  destruct (wstep_ok P U A E b envs n k programs pads m c ws s St Af V) as (ws1 & s1 & X & M & V1 & _). rewrite X. cbn [bind].
  destruct (IH ws1 s1 V1) as (ws2 & s2 & Y & T & V2). exists ws2, s2. split; [exact Y|]. split; [|exact V2].
  unfold f_moves in M. destruct (takes_effect _ _); cbn [app a_turns]; [now rewrite M|now subst s1].
Qed.
Lemma winv_start P U A E b envs n k programs m : arena_free b m -> variables_apart A envs n k m -> (forall i, Forall (hop_fine (n i) (k i)) (programs i)) ->
  (forall i, exists x, hclient_run hclient_start (programs i) = Fine x) -> winv P U A E b envs n k programs m (w_start m programs) (a_start programs).
Proof.
  intros Af Pl V Fi. split; [now apply fsinv_start|]. cbn [w_start ws_log ws_sys f_start fs_rem]. split; [discriminate|]. split; [reflexivity|]. split; [|exact Logic.I].
  constructor; [|constructor]. unfold ARENA_SIZE. lia.
Qed.

(** ** The theorems *)
(** C84: C83 holds for threads that may read any old value of [remaining] they have not seen a newer one of: no undefined behaviour, and all
    is as if the calls happened at once, in the order in which they get their memory, find that there is none or come back without asking. *)
Lemma c84_atomic_pf : forall P U A E b envs n k pads programs m cs, In A word_alignments -> 18 < U -> build_ok U A b -> nb_base b mod nb_align b = 0 ->
  arena_free b m -> variables_apart A envs n k m -> (forall i, Forall (hop_fine (n i) (k i)) (programs i)) ->
  (forall i, exists x, hclient_run hclient_start (programs i) = Fine x) ->
  exists ws s, w_run P U A E b envs pads cs (w_start m programs) = Ret ws /\
    a_turns b (w_effects P U A E b envs pads cs (w_start m programs)) (a_start programs) = Fine s /\
    let sys := ws_sys ws in
    descending (ws_log ws) /\ last (ws_log ws) 0 = fs_rem sys /\ fs_rem sys = as_rem s /\
    (forall i, stands A E b (envs i) (n i) (k i) (fs_mem sys) (fs_thread sys i) (as_thread s i)) /\
    (forall i j y, i <> j -> holds A b (envs i) (n i) (k i) (fs_thread sys i) y -> ~ holds A b (envs j) (n j) (k j) (fs_thread sys j) y) /\
    (forall y, (forall i, ~ owns A b (envs i) (n i) (k i) (ft_world (fs_thread sys i)) y) -> fs_mem sys y = m y).
Proof.
  intros P U A E b envs n k pads programs m cs I HU Bd Ba Af Pl V Fi. pose proof (all_set_intro U A b envs n k m I HU Bd Ba Af Pl) as St.
  destruct (wrun_ok P U A E b envs n k programs pads m cs St Af _ _ (winv_start P U A E b envs n k programs m Af Pl V Fi)) as (ws & s & X & T & H & (_ & L1 & _ & L2)).
  exists ws, s. split; [exact X|]. split; [exact T|]. split; [exact L2|]. split; [exact L1|]. split; [apply H|]. split; [|split].
  - intros i. exact (fsinv_stands P U A E b envs n k programs m _ s i St H).
  - intros i j y N J K. exact (fv_apart _ _ _ _ _ _ _ _ _ _ _ _ H i j y N J K).
  - apply H.
Qed.

(** ** No byte is used by two threads *)
Lemma held_above P U A E b envs n k programs m sys s i y : all_set U A b envs n k -> fsinv P U A E b envs n k programs m sys s ->
  holds A b (envs i) (n i) (k i) (fs_thread sys i) y -> ~ in_region (nb_base b) (fs_rem sys) y.
Proof. intros St V Hd Y. exact (low_unheld P U A E b envs n k programs m sys s i y St V Y Hd). Qed.
Lemma private_run P U A E b envs n k programs pads m later : all_set U A b envs n k -> arena_free b m -> forall ws s ws' j y, winv P U A E b envs n k programs m ws s ->
  w_run P U A E b envs pads later ws = Ret ws' -> ~ in_region (nb_base b) (fs_rem (ws_sys ws)) y -> ~ holds A b (envs j) (n j) (k j) (fs_thread (ws_sys ws) j) y ->
  ~ holds A b (envs j) (n j) (k j) (fs_thread (ws_sys ws') j) y.
Proof.
  intros St Af. induction later as [|c later IH]; intros ws s ws' j y V Q Nr Nh; cbn [w_run] in Q; [injection Q as <-; exact Nh|].
  destruct (wstep_ok P U A E b envs n k programs pads m c ws s St Af V) as (ws1 & s1 & X & _ & V1 & (T1 & T2 & T3 & _)). rewrite X in Q. cbn [bind] in Q.
  apply (IH ws1 s1 ws' j y V1 Q); [unfold in_region in *; lia|]. destruct (Nat.eq_dec j (wc_thread c)) as [->|N]; [|rewrite T2; auto]. intros K. destruct (T3 y K) as [K'|K']; auto.
Qed.
(** C84: no byte is ever used by two threads, at whatever moments: what one thread holds at some time no other ever holds later. With
    [c84_footprint] there is no data race, whatever the order in which threads see each other's writes. *)
Lemma c84_private_pf : forall P U A E b envs n k pads programs m cs later ws ws' i j y, In A word_alignments -> 18 < U -> build_ok U A b -> nb_base b mod nb_align b = 0 ->
  arena_free b m -> variables_apart A envs n k m -> (forall i, Forall (hop_fine (n i) (k i)) (programs i)) ->
  (forall i, exists x, hclient_run hclient_start (programs i) = Fine x) ->
  w_run P U A E b envs pads cs (w_start m programs) = Ret ws -> w_run P U A E b envs pads later ws = Ret ws' -> i <> j ->
  holds A b (envs i) (n i) (k i) (fs_thread (ws_sys ws) i) y -> ~ holds A b (envs j) (n j) (k j) (fs_thread (ws_sys ws') j) y.
Proof.
  intros P U A E b envs n k pads programs m cs later ws ws' i j y I HU Bd Ba Af Pl V Fi R R' N Hd. pose proof (all_set_intro U A b envs n k m I HU Bd Ba Af Pl) as St.
  destruct (wrun_ok P U A E b envs n k programs pads m cs St Af _ _ (winv_start P U A E b envs n k programs m Af Pl V Fi)) as (ws0 & s & X & _ & H). rewrite R in X. injection X as <-.
  apply (private_run P U A E b envs n k programs pads m later St Af ws s ws' j y H R').
  - exact (held_above P U A E b envs n k programs m _ s i y St (proj1 H) Hd).
  - intros K. exact (fv_apart _ _ _ _ _ _ _ _ _ _ _ _ (proj1 H) i j y N Hd K).
Qed.

(** ** What a step uses *)
Definition alone_n (i : nat) (n : nat -> nat) (j : nat) : nat := if Nat.eqb j i then n j else 0%nat.
Lemma alone_n_same i n : alone_n i n i = n i.
Proof. unfold alone_n. now rewrite Nat.eqb_refl. Qed.
Lemma alone_n_other i n j : j <> i -> alone_n i n j = 0%nat.
Proof. unfold alone_n. destruct (Nat.eqb_spec j i); [contradiction|reflexivity]. Qed.
Definition emptied (b : n_build) (m : mem) : mem := fun y => if (nb_base b <=? y) && (y <? nb_base b + 128 * 1024) then None else m y.
Lemma alone_inv P U A E b envs n k programs m sys s i m' : all_set U A b envs n k -> fsinv P U A E b envs n k programs m sys s ->
  only A b (envs i) (n i) (k i) (fs_thread sys i) (fs_mem sys) m' ->
  fsinv P U A E b envs (alone_n i n) (alone_n i k) (fun j => if Nat.eqb j i then programs i else []) (emptied b m')
    (FSystem m' (fs_rem sys) (f_put (fun _ => FThread [] (n_start m') 0 [] FReady) i (fs_thread sys i)))
    (ASystem (as_rem s) (set_a (fun _ => AThread [] hclient_start [] false) i (as_thread s i))).
Proof.
  intros St V [O1 O2].
  assert (Nv : forall v, variable 0 0 v -> False) by (intros []; cbn; lia).
  assert (Ot : forall j y, j <> i -> holds A b (envs j) (alone_n i n j) (alone_n i k j) (f_put (fun _ => FThread [] (n_start m') 0 [] FReady) i (fs_thread sys i) j) y -> False).
  { intros j y N. rewrite f_put_other, !alone_n_other by auto. intros [[(id & a & ms & L & _)|[(id & L & _)|(v & K & _)]]|K]; [discriminate L|elim L; reflexivity|exact (Nv v K)|exact K]. }
  assert (Low : forall y, in_region (nb_base b) (fs_rem sys) y -> m' y = None).
  { intros y Y. apply O2; [|intros K; exact (low_unheld P U A E b envs n k programs m sys s i y St V Y (or_introl K))].
    destruct (fv_each _ _ _ _ _ _ _ _ _ _ _ _ V i) as (m0 & st & H & _). pose proof (ni_rem _ _ _ _ _ _ _ _ _ _ H) as R. cbn [fnow n_shared nw_rem] in R. unfold in_region in *. lia. }
  destruct (fv_each _ _ _ _ _ _ _ _ _ _ _ _ V i) as (m0 & st & H & Ph).
  pose proof (ninv_env P U A E b (envs i) (n i) (k i) m0 _ st m' (fs_rem sys) (St i) H (N.le_refl _) Low O1) as H'. pose proof (ni_rem _ _ _ _ _ _ _ _ _ _ H) as R. cbn [fnow n_shared nw_rem] in R.
  constructor; cbn [fs_mem fs_rem fs_thread as_rem as_thread].
  - apply V.
  - intros j. destruct (Nat.eq_dec j i) as [->|N]; [rewrite f_put_same, !alone_n_same; apply V|rewrite f_put_other by auto; constructor].
  - intros j. destruct (Nat.eq_dec j i) as [->|N]; [rewrite set_a_same; apply V|rewrite set_a_other by auto; cbn; eauto].
  - intros j. destruct (Nat.eqb_spec j i) as [->|N]; [rewrite set_a_same; apply V|rewrite set_a_other by auto; cbn; exists []; auto].
  - intros j. destruct (Nat.eq_dec j i) as [->|N].
    + rewrite f_put_same, set_a_same, !alone_n_same, Nat.eqb_refl. eexists. exists st. split; [exact H'|exact Ph].
    + rewrite f_put_other, set_a_other, !alone_n_other by auto.
      assert (Sj : setting U A b (envs j) 0 0) by (destruct (St j) as (I & HU & Bd & Ba & _); repeat (split; [assumption|]); intros v y K; elim (Nv v K)).
      assert (Pj : placed A (envs j) 0 0 (emptied b m')) by (split; [intros x X; lia|split; [intros v K; elim (Nv v K)|intros v w x K; elim (Nv v K)]]).
      assert (Ej : arena_free b (emptied b m')) by (intros y Y; unfold emptied; unfold in_region in Y; replace ((nb_base b <=? y) && (y <? nb_base b + 128 * 1024)) with true by lia; reflexivity).
      pose proof (ninv_env P U A E b (envs j) 0 0 _ _ _ m' (fs_rem sys) Sj (ninv_start P A E b (envs j) 0 0 _ Ej Pj) ltac:(cbn [n_start nw_rem]; unfold ARENA_SIZE in *; lia) Low) as Z.
      eexists. exists hclient_start. split; [apply Z|cbn; auto].
      intros y [(id & a & ms & L & _)|[(id & L & _)|(v & K & _)]]; [discriminate L|elim L; reflexivity|elim (Nv v K)].
  - intros j q y N J K. destruct (Nat.eq_dec j i) as [->|Nj]; [exact (Ot q y (not_eq_sym N) K)|exact (Ot j y Nj J)].
  - intros j y. destruct (Nat.eq_dec j i) as [->|N]; [rewrite f_put_same, !alone_n_same; apply V|]. intros K _. exact (Ot j y N (or_intror K)).
  - intros y N. unfold emptied. destruct ((nb_base b <=? y) && (y <? nb_base b + 128 * 1024)) eqn:Ar; [|reflexivity]. apply O2; [unfold in_region; lia|].
    specialize (N i). rewrite f_put_same, !alone_n_same in N. exact N.
Qed.
Lemma step_local P U A E b envs pads i sp m r ts ts' : ts i = ts' i ->
  match f_step P U A E b envs pads i sp (FSystem m r ts), f_step P U A E b envs pads i sp (FSystem m r ts') with
  | Ret x, Ret y => fs_mem x = fs_mem y /\ fs_rem x = fs_rem y /\ fs_thread x i = fs_thread y i
  | Panic, Panic | UB, UB => True
  | _, _ => False
  end.
Proof.
  intros Q. unfold f_step. cbn [fs_mem fs_rem fs_thread]. rewrite <- Q. destruct (ft_todo (ts i)) as [|o rest]; [auto|].
  destruct (f_act _ _ _ _ _ _ _ _ _ _ _) as [[nw res|m' r' ph]| |]; cbn [fs_mem fs_rem fs_thread]; rewrite ?f_put_same; auto.
Qed.
(** C84: a step of a thread uses only what the thread holds. If the blocks of all other threads are taken out of memory and the memory outside
    the arena that is not its own is changed in any way, the step still has no undefined behaviour and ends the same calls with the same
    results. It changes no byte that the thread does not own before or after the step, and what it holds more afterwards was free. *)
Lemma c84_footprint_pf : forall P U A E b envs n k pads programs m cs ws i spurious m', In A word_alignments -> 18 < U -> build_ok U A b -> nb_base b mod nb_align b = 0 ->
  arena_free b m -> variables_apart A envs n k m -> (forall i, Forall (hop_fine (n i) (k i)) (programs i)) ->
  (forall i, exists x, hclient_run hclient_start (programs i) = Fine x) -> w_run P U A E b envs pads cs (w_start m programs) = Ret ws ->
  let sys := ws_sys ws in only A b (envs i) (n i) (k i) (fs_thread sys i) (fs_mem sys) m' ->
  exists sys1 sys2, f_step P U A E b envs pads i spurious sys = Ret sys1 /\ f_step P U A E b envs pads i spurious (FSystem m' (fs_rem sys) (fs_thread sys)) = Ret sys2 /\
    ft_todo (fs_thread sys1 i) = ft_todo (fs_thread sys2 i) /\ ft_results (fs_thread sys1 i) = ft_results (fs_thread sys2 i) /\
    (forall y, ~ owns A b (envs i) (n i) (k i) (ft_world (fs_thread sys i)) y -> ~ owns A b (envs i) (n i) (k i) (ft_world (fs_thread sys1 i)) y -> fs_mem sys1 y = fs_mem sys y) /\
    (forall y, holds A b (envs i) (n i) (k i) (fs_thread sys1 i) y -> holds A b (envs i) (n i) (k i) (fs_thread sys i) y \/ in_region (nb_base b) (fs_rem sys) y).
Proof.
  intros P U A E b envs n k pads programs m cs ws i sp m' I HU Bd Ba Af Pl V Fi R sys O. pose proof (all_set_intro U A b envs n k m I HU Bd Ba Af Pl) as St.
  destruct (wrun_ok P U A E b envs n k programs pads m cs St Af _ _ (winv_start P U A E b envs n k programs m Af Pl V Fi)) as (ws0 & s & X & _ & [H _]). rewrite R in X. injection X as <-. fold sys in H.
  destruct (fstep_ok P U A E b envs n k programs pads m i sp sys s St Af H) as (sys1 & s1 & X1 & _ & T1 & V1 & (_ & _ & F1 & F2)).
  pose proof (alone_inv P U A E b envs n k programs m sys s i m' St H O) as H2.
  assert (St2 : all_set U A b envs (alone_n i n) (alone_n i k)).
  { intros j. destruct (Nat.eq_dec j i) as [->|N]; [rewrite !alone_n_same; apply St|]. rewrite !alone_n_other by auto. destruct (St j) as (I' & HU' & Bd' & Ba' & _). repeat (split; [assumption|]). intros [] y K; cbn in K; lia. }
  assert (Af2 : arena_free b (emptied b m')) by (intros y Y; unfold emptied; unfold in_region in Y; replace ((nb_base b <=? y) && (y <? nb_base b + 128 * 1024)) with true by lia; reflexivity).
  destruct (fstep_ok P U A E b envs _ _ _ pads _ i sp _ _ St2 Af2 H2) as (sys3 & s3 & X3 & _ & T3 & V3 & _). cbn [fs_thread as_thread] in T3. rewrite f_put_same, set_a_same in T3.
  pose proof (step_local P U A E b envs pads i sp m' (fs_rem sys) (fs_thread sys) (f_put (fun _ => FThread [] (n_start m') 0 [] FReady) i (fs_thread sys i)) ltac:(now rewrite f_put_same)) as Lc. rewrite X3 in Lc.
  destruct (f_step P U A E b envs pads i sp (FSystem m' (fs_rem sys) (fs_thread sys))) as [sys2| |]; try contradiction. destruct Lc as (_ & _ & Lc).
  exists sys1, sys2. split; [exact X1|]. split; [reflexivity|]. rewrite Lc. split; [congruence|]. split; [|auto].
  (** the results are settled by the calls that are left *)
  assert (Hr : forall nn kk pp mm sy ss, fsinv P U A E b envs nn kk pp mm sy ss -> pp i = programs i ->
    exists before st, before ++ ft_todo (fs_thread sy i) = programs i /\ hclient_run hclient_start before = Fine (st, ft_results (fs_thread sy i))).
  { intros nn kk pp mm sy ss W <-. destruct (fv_each _ _ _ _ _ _ _ _ _ _ _ _ W i) as (m0 & st & _ & Ph). destruct (fv_hist _ _ _ _ _ _ _ _ _ _ _ _ W i) as (be & Q1 & Q2).
    unfold phase_ok in Ph. destruct (ft_phase (fs_thread sy i)).
    - destruct Ph as (-> & -> & _). eauto.
    - destruct Ph as (o & rest & -> & P2 & -> & _). rewrite P2 in Q1. eauto.
    - destruct Ph as (st0 & o1 & r & _ & _ & _ & _ & _ & (b0 & B1 & B2) & _). eauto.
    - destruct Ph as (o & rest & -> & P2 & -> & _). rewrite P2 in Q1. eauto. }
  destruct (Hr _ _ _ _ _ _ V1 eq_refl) as (be1 & st1 & B1 & R1). destruct (Hr _ _ _ _ _ _ V3 ltac:(cbn beta; now rewrite Nat.eqb_refl)) as (be3 & st3 & B3 & R3).
  assert (be1 = be3) by (rewrite T1 in B1; rewrite T3 in B3; rewrite <- B3 in B1; exact (app_inv_tail _ _ _ B1)). subst be3. rewrite R1 in R3. now injection R3 as _ <-.
Qed.

(** ** Loads that read the newest value *)
Lemma step_cong P U A E b envs pads i sp sys sys' : same_system sys sys' ->
  match f_step P U A E b envs pads i sp sys, f_step P U A E b envs pads i sp sys' with
  | Ret x, Ret y => same_system x y
  | Panic, Panic | UB, UB => True
  | _, _ => False
  end.
Proof.
  intros (Q1 & Q2 & Q3). unfold f_step. rewrite <- Q1, <- Q2, <- Q3. destruct (ft_todo (fs_thread sys i)) as [|o rest]; [repeat split; auto|].
  destruct (f_act _ _ _ _ _ _ _ _ _ _ _) as [[nw res|m' r' ph]| |]; auto; repeat split; intros j; cbn [fs_thread]; unfold f_put; destruct (Nat.eqb j i); auto.
Qed.
Lemma step_prev P U A E b envs pads i sp sys sys' p l mask prev al : f_step P U A E b envs pads i sp sys = Ret sys' -> ft_todo (fs_thread sys i) <> [] ->
  ft_phase (fs_thread sys' i) = FAsking p l mask prev al -> prev = fs_rem sys'.
Proof.
  unfold f_step. destruct (ft_todo (fs_thread sys i)) as [|o rest]; [congruence|]. intros Q _.
  destruct (f_act _ _ _ _ _ _ _ _ _ _ _) as [[nw r|m' r ph]| |] eqn:X; try discriminate Q; injection Q; clear Q; intros <-; cbn [fs_thread fs_rem]; rewrite f_put_same; cbn [ft_phase]; try discriminate.
  intros ->. assert (Ask : forall m1 r1 p1 l1, f_ask P U m1 r1 p1 l1 = Ret (Turned m' r (FAsking p l mask prev al)) -> prev = r).
  { intros m1 r1 p1 l1 Z. unfold f_ask in Z. destruct (align_mask P U l1); cbn [bind] in Z; try discriminate Z. destruct (_ <? _); [discriminate Z|]. injection Z; intros; congruence. }
  destruct (ft_phase (fs_thread sys i)) as [|p1 l1 mask1 prev1 al1|p1 l1 off|]; cbn [f_act] in X; try discriminate X.
  - assert (G : forall Y : res (n_world * c_result), ('(nw', r0) <- Y;; Ret (Answered nw' r0)) = Ret (Turned m' r (FAsking p l mask prev al)) -> prev = r) by (intros [[? ?]| |]; discriminate).
    unfold f_begin in X. destruct o; try exact (G _ X); [exact (Ask _ _ _ _ X)|]. cbn [n_shared nw_rem nw_world] in X.
    destruct (deref _ _) as [[id [a ms]]| |]; cbn [bind] in X; try discriminate X. destruct (h_step _ _ _ _ _ _ _ _ _) as [[w' res]| |]; cbn [bind] in X; try discriminate X.
    destruct res as [|[]| | | | | |]; try discriminate X. destruct (move_of_cm _ _); cbn [bind] in X; try discriminate X. destruct (_ =? _).
    + destruct (_ <=? _); [discriminate X|exact (Ask _ _ _ _ X)].
    + destruct (write_bytes _ _ _); discriminate X.
  - unfold f_round in X. destruct (alloc_closure P U l1 mask1 prev1) as [[next asg]| |]; cbn [bind] in X; try discriminate X. destruct next; [destruct (_ && _)|]; try discriminate X. injection X; intros; congruence.
  - unfold f_finish in X. destruct p1 as [h|w id len x]; [destruct (h_step _ _ _ _ _ _ _ _ _) as [[? ?]| |]; discriminate X|].
    destruct (memcpy _ _ _ _) as [[? ?]| |]; cbn [bind] in X; try discriminate X. destruct (write_bytes _ _ _); discriminate X.
Qed.
Lemma last_nth (l : list N) : nth (length l - 1) l 0 = last l 0.
Proof. induction l as [|x l IH]; [reflexivity|]. destruct l as [|y l]; [reflexivity|]. change (last (x :: y :: l) 0) with (last (y :: l) 0). rewrite <- IH. cbn [length]. rewrite !Nat.sub_succ, !Nat.sub_0_r. reflexivity. Qed.
Lemma strong_run P U A E b envs n k programs pads m B cs : all_set U A b envs n k -> arena_free b m -> forall ws s sys, winv P U A E b envs n k programs m ws s ->
  same_system (ws_sys ws) sys -> (length (ws_log ws) + length cs <= B + 1)%nat ->
  exists ws' sys', w_run P U A E b envs pads (map (fun c => WChoice (fst c) (snd c) B) cs) ws = Ret ws' /\ f_run P U A E b envs pads cs sys = Ret sys' /\ same_system (ws_sys ws') sys'.
Proof.
  intros St Af. induction cs as [|[i sp] cs IH]; intros ws s sys V Sa Le; cbn [map w_run f_run fst snd]; [exists ws, sys; auto|].
  destruct (wstep_ok P U A E b envs n k programs pads m (WChoice i sp B) ws s St Af V) as (ws1 & s1 & X & _ & V1 & _). rewrite X. cbn [bind].
  pose proof (step_cong P U A E b envs pads i sp _ _ Sa) as Cg. cbn [length] in Le.
  assert (G : exists sys1, f_step P U A E b envs pads i sp sys = Ret sys1 /\ same_system (ws_sys ws1) sys1 /\ (length (ws_log ws1) <= S (length (ws_log ws)))%nat).
  { unfold w_step in X. cbn [wc_thread wc_spurious wc_place] in X. destruct (f_step P U A E b envs pads i sp (ws_sys ws)) as [sys0| |] eqn:F; try discriminate X. cbn [bind] in X.
    destruct (f_step P U A E b envs pads i sp sys) as [sys1| |]; try contradiction. exists sys1. split; [reflexivity|]. destruct (ft_phase (fs_thread sys0 i)) as [|p l mask prev al|p l off|] eqn:Hp; injection X as <-; cbn [ws_sys ws_log]; auto.
    - split; [|lia]. destruct Cg as (C1 & C2 & C3). split; [exact C1|]. split; [exact C2|]. cbn [fs_thread]. intros j. destruct (Nat.eq_dec j i) as [->|N]; [|rewrite f_put_other; auto]. rewrite f_put_same, <- C3.
      destruct V as [V Lg]. unfold w_place. replace (Nat.ltb B (length (ws_log ws))) with false by (symmetry; apply Nat.ltb_ge; lia). rewrite andb_false_r. cbn [andb]. rewrite last_nth. destruct Lg as (_ & -> & _).
      assert (To : ft_todo (fs_thread (ws_sys ws) i) <> []).
      { intros Z. unfold f_step in F. rewrite Z in F. injection F as <-. destruct (fv_each _ _ _ _ _ _ _ _ _ _ _ _ V i) as (m0 & st & _ & Ph). unfold phase_ok in Ph. rewrite Hp in Ph. destruct Ph as (o & rest & Z' & _). congruence. }
      pose proof (step_prev _ _ _ _ _ _ _ _ _ _ _ _ _ _ _ _ F To Hp) as Pv. destruct (step_rem P U A E b envs n k programs pads m i sp _ s _ St Af V F) as [Sr|Sr]; [unfold got_block in Sr; rewrite Hp in Sr; discriminate Sr|].
      rewrite <- Sr, <- Pv. unfold with_phase. rewrite <- Hp. now destruct (fs_thread sys0 i).
    - rewrite app_length. cbn [length]. split; [exact Cg|lia]. }
  destruct G as (sys1 & Y & Sa1 & Le1). rewrite Y. cbn [bind]. apply (IH ws1 s1 sys1 V1 Sa1). lia.
Qed.
(** C84: where every load reads the newest value the machine is that of C83: the weak runs include those of the code with [SeqCst]. *)
Lemma c84_newest_pf : forall P U A E b envs n k pads programs m cs, In A word_alignments -> 18 < U -> build_ok U A b -> nb_base b mod nb_align b = 0 ->
  arena_free b m -> variables_apart A envs n k m -> (forall i, Forall (hop_fine (n i) (k i)) (programs i)) ->
  (forall i, exists x, hclient_run hclient_start (programs i) = Fine x) ->
  exists ws sys, w_run P U A E b envs pads (map (fun c => WChoice (fst c) (snd c) (length cs)) cs) (w_start m programs) = Ret ws /\
    f_run P U A E b envs pads cs (f_start m programs) = Ret sys /\ same_system (ws_sys ws) sys.
Proof.
  intros P U A E b envs n k pads programs m cs I HU Bd Ba Af Pl V Fi. pose proof (all_set_intro U A b envs n k m I HU Bd Ba Af Pl) as St.
  apply (strong_run P U A E b envs n k programs pads m (length cs) cs St Af _ _ _ (winv_start P U A E b envs n k programs m Af Pl V Fi)); [repeat split; auto|]. cbn. lia.
Qed.

(** ** No thread waits for another *)
Definition reading_ok (log : list N) (seen : nat -> nat) (ts : nat -> f_thread) : Prop :=
  forall i, (seen i < length log)%nat /\ match ft_phase (ts i) with FAsking _ _ _ prev _ => prev = nth (seen i) log 0 | _ => True end.
Lemma step_others P U A E b envs pads i sp sys sys' j : f_step P U A E b envs pads i sp sys = Ret sys' -> j <> i -> fs_thread sys' j = fs_thread sys j.
Proof.
  unfold f_step. intros Q N. destruct (ft_todo _) as [|o rest]; [now injection Q as <-|]. destruct (f_act _ _ _ _ _ _ _ _ _ _ _) as [[nw r|m r ph]| |]; try discriminate Q; injection Q as <-; cbn [fs_thread]; now apply f_put_other.
Qed.
Lemma reading_step P U A E b envs pads c ws ws' : ws_log ws <> [] -> reading_ok (ws_log ws) (ws_seen ws) (fs_thread (ws_sys ws)) -> w_step P U A E b envs pads c ws = Ret ws' ->
  reading_ok (ws_log ws') (ws_seen ws') (fs_thread (ws_sys ws')).
Proof.
  intros Ne R. unfold w_step. set (i := wc_thread c). destruct (f_step P U A E b envs pads i (wc_spurious c) (ws_sys ws)) as [sys| |] eqn:F; try discriminate. cbn [bind].
  pose proof (fun j => step_others _ _ _ _ _ _ _ _ _ _ _ j F) as O.
  destruct (ft_phase (fs_thread sys i)) as [|p l mask prev al|p l off|] eqn:Hp; intros [= <-] j; cbn [ws_log ws_seen ws_sys fs_thread]; destruct (R j) as [R1 R2].
  - split; [exact R1|]. destruct (Nat.eq_dec j i) as [->|N]; [now rewrite Hp|now rewrite O].
  - unfold w_see. destruct (Nat.eqb_spec j i) as [->|N]; [rewrite f_put_same; cbn [with_phase ft_phase]; split; [now apply place_in|reflexivity]|]. rewrite f_put_other by auto. rewrite O; auto.
  - rewrite app_length. cbn [length]. unfold w_see. destruct (Nat.eqb_spec j i) as [->|N]; [rewrite Hp; split; [lia|exact Logic.I]|]. rewrite O by auto. split; [lia|].
    destruct (ft_phase (fs_thread (ws_sys ws) j)); auto. rewrite app_nth1; auto.
  - split; [exact R1|]. destruct (Nat.eq_dec j i) as [->|N]; [now rewrite Hp|now rewrite O].
Qed.
Lemma log_ne P U A E b envs pads c ws ws' : ws_log ws <> [] -> w_step P U A E b envs pads c ws = Ret ws' -> ws_log ws' <> [].
Proof.
  intros Ne. unfold w_step. destruct (f_step _ _ _ _ _ _ _ _ _ _) as [sys| |]; try discriminate. cbn [bind]. destruct (ft_phase _); intros [= <-]; cbn [ws_log]; auto. now destruct (ws_log ws).
Qed.
Lemma reading_run P U A E b envs pads cs : forall ws ws', ws_log ws <> [] -> reading_ok (ws_log ws) (ws_seen ws) (fs_thread (ws_sys ws)) -> w_run P U A E b envs pads cs ws = Ret ws' ->
  reading_ok (ws_log ws') (ws_seen ws') (fs_thread (ws_sys ws')).
Proof.
  induction cs as [|c cs IH]; intros ws ws' Ne R; cbn [w_run]; [intros [= <-]; exact R|]. destruct (w_step _ _ _ _ _ _ _ _ _) as [ws1| |] eqn:X; try discriminate. cbn [bind]. apply IH; [eapply log_ne; eauto|eapply reading_step; eauto].
Qed.
Lemma w_run_app P U A E b envs pads cs cs' ws : w_run P U A E b envs pads (cs ++ cs') ws = (ws' <- w_run P U A E b envs pads cs ws;; w_run P U A E b envs pads cs' ws').
Proof. revert ws. induction cs as [|c cs IH]; intros ws; cbn [app w_run bind]; [reflexivity|]. destruct (w_step _ _ _ _ _ _ _ _ _); cbn [bind]; auto. Qed.
(** how many steps are left in the call at most *)
Definition wrank (i : nat) (ws : w_system) : nat :=
  match ft_phase (fs_thread (ws_sys ws) i) with
  | FReady => length (ws_log ws) + 2
  | FAsking _ _ _ _ _ => length (ws_log ws) - 1 - ws_seen ws i + 2
  | FServed _ _ _ => 1
  | FHung => 0
  end.
Lemma w_more P U A E b envs pads c ws ws' i : w_step P U A E b envs pads c ws = Ret ws' -> wc_thread c = i ->
  (length (ft_results (fs_thread (ws_sys ws) i)) <= length (ft_results (fs_thread (ws_sys ws') i)))%nat /\ (ft_phase (fs_thread (ws_sys ws) i) = FHung -> ft_phase (fs_thread (ws_sys ws') i) = FHung).
Proof.
  intros X <-. unfold w_step in X. destruct (f_step _ _ _ _ _ _ _ _ _ _) as [sys| |] eqn:F; try discriminate X. cbn [bind] in X. destruct (step_more _ _ _ _ _ _ _ _ _ _ _ F) as [M1 M2].
  destruct (ft_phase (fs_thread sys (wc_thread c))) eqn:Hp; injection X as <-; cbn [ws_sys fs_thread]; rewrite ?f_put_same; cbn [with_phase ft_results ft_phase]; rewrite ?Hp; auto.
  split; [exact M1|]. intros Z. specialize (M2 Z). discriminate M2.
Qed.
Lemma w_rank P U A E b envs pads i place ws ws' : reading_ok (ws_log ws) (ws_seen ws) (fs_thread (ws_sys ws)) -> last (ws_log ws) 0 = fs_rem (ws_sys ws) ->
  w_step P U A E b envs pads (WChoice i false place) ws = Ret ws' -> let t := fs_thread (ws_sys ws) i in let t' := fs_thread (ws_sys ws') i in
  ft_todo t = [] \/ ft_phase t' = FHung \/ (length (ft_results t) < length (ft_results t'))%nat \/
  (ft_todo t' = ft_todo t /\ ft_results t' = ft_results t /\ (wrank i ws' < wrank i ws)%nat).
Proof.
  intros R La Q t t'. unfold w_step in Q. cbn [wc_thread wc_spurious wc_place] in Q. destruct (f_step P U A E b envs pads i false (ws_sys ws)) as [sys| |] eqn:F; try discriminate Q. cbn [bind] in Q.
  pose proof (step_rank _ _ _ _ _ _ _ _ _ _ F) as Sr. cbv zeta in Sr. fold t in Sr. destruct Sr as [Z|[Z|[Z|(Z1 & Z2 & Z3)]]]; [now left|right..].
  - left. rewrite Z in Q. injection Q as <-. exact Z.
  - right. left. unfold t'. destruct (ft_phase (fs_thread sys i)); injection Q as <-; cbn [ws_sys fs_thread]; rewrite ?f_put_same; exact Z.
  - destruct (R i) as [R1 R2]. assert (Ne : ws_log ws <> []) by (intros Z; rewrite Z in R1; cbn in R1; lia).
    right. right. unfold wrank, t'. destruct (ft_phase (fs_thread sys i)) as [|p l mask prev al|p l off|] eqn:Hp; injection Q as <-; cbn [ws_sys ws_log ws_seen fs_thread]; rewrite ?f_put_same; cbn [with_phase ft_todo ft_results ft_phase]; (split; [exact Z1|]); (split; [exact Z2|]).
    + exfalso. revert Z3. unfold rank. fold t. destruct (ft_phase t); [lia|destruct (_ =? _); lia|lia|lia].
    + unfold w_see. rewrite Nat.eqb_refl. fold t in R2 |- *. pose proof (place_in (ws_log ws) (ws_seen ws i) (w_expected (ft_phase t) false) place Ne) as Pl.
      destruct (ft_phase t) as [|p1 l1 mask1 prev1 al1|p1 l1 off1|] eqn:Ht; [lia| |unfold rank in Z3; destruct (_ =? _); lia|unfold rank in Z3; destruct (_ =? _); lia].
      enough (ws_seen ws i < w_place (ws_log ws) (ws_seen ws i) (w_expected (FAsking p1 l1 mask1 prev1 al1) false) place)%nat by lia.
      assert (Nq : fs_rem (ws_sys ws) <> prev1) by (intros Z; unfold rank in Z3; rewrite Z, N.eqb_refl in Z3; destruct (_ =? _); lia).
      unfold w_place. cbn [w_expected]. destruct (_ && _) eqn:X.
      * apply andb_prop in X as [X X3]. apply andb_prop in X as [X1 X2]. apply Nat.leb_le in X1. destruct (Nat.eq_dec (ws_seen ws i) place) as [Z|Z]; [|lia].
        rewrite <- Z, <- R2, N.eqb_refl in X3. discriminate X3.
      * destruct (Nat.eq_dec (ws_seen ws i) (length (ws_log ws) - 1)) as [Z|Z]; [|lia]. rewrite Z, last_nth, La in R2. congruence.
    + fold t. rewrite Hp in *. unfold rank in Z3. destruct (ft_phase t); lia.
    + fold t. rewrite Hp. unfold rank in Z3. destruct (ft_phase t); try lia.
Qed.
Lemma w_solo P U A E b envs n k programs pads m i places : all_set U A b envs n k -> arena_free b m -> forall ws s ws', winv P U A E b envs n k programs m ws s ->
  reading_ok (ws_log ws) (ws_seen ws) (fs_thread (ws_sys ws)) -> w_run P U A E b envs pads (map (WChoice i false) places) ws = Ret ws' -> (wrank i ws <= length places)%nat ->
  ft_todo (fs_thread (ws_sys ws) i) = [] \/ ft_phase (fs_thread (ws_sys ws') i) = FHung \/ (length (ft_results (fs_thread (ws_sys ws) i)) < length (ft_results (fs_thread (ws_sys ws') i)))%nat.
Proof.
  intros St Af. induction places as [|j places IH]; intros ws s ws' V R; cbn [map w_run length].
  - intros [= <-] L. right. left. unfold wrank in L. destruct (ft_phase (fs_thread (ws_sys ws) i)); try lia. reflexivity.
  - destruct (wstep_ok P U A E b envs n k programs pads m (WChoice i false j) ws s St Af V) as (ws1 & s1 & X & _ & V1 & _). rewrite X. cbn [bind]. intros Q L.
    assert (Mo : (length (ft_results (fs_thread (ws_sys ws1) i)) <= length (ft_results (fs_thread (ws_sys ws') i)))%nat /\ (ft_phase (fs_thread (ws_sys ws1) i) = FHung -> ft_phase (fs_thread (ws_sys ws') i) = FHung)).
    { clear - Q. revert ws1 Q. induction places as [|j places IH]; intros ws1; cbn [map w_run]; [intros [= <-]; auto|]. destruct (w_step _ _ _ _ _ _ _ _ _) as [ws2| |] eqn:X; try discriminate. cbn [bind]. intros Q.
      destruct (w_more _ _ _ _ _ _ _ _ _ _ i X eq_refl), (IH _ Q). split; [lia|auto]. }
    destruct V as [V (L0 & L1 & L2)]. pose proof (reading_step _ _ _ _ _ _ _ _ _ _ L0 R X) as R1. destruct (w_rank _ _ _ _ _ _ _ _ _ _ _ R L1 X) as [Z|[Z|[Z|(Z1 & Z2 & Z3)]]]; [now left|right; left; now apply Mo|right; right; lia|].
    destruct (IH ws1 s1 ws' V1 R1 Q ltac:(lia)) as [Y|[Y|Y]]; [left; congruence|auto|]. right. right. rewrite <- Z2. exact Y.
Qed.
(** C84: no thread waits for another on weakly ordered memory either. Wherever the threads have been interrupted, as many steps of one of them
    as there are values in the log, and two more, bring it to the end of a call, whatever old values it reads, or it hangs because there is no
    memory; provided that [compare_exchange_weak] does not fail for no reason. *)
Lemma c84_progress_pf : forall P U A E b envs n k pads programs m cs ws i places, In A word_alignments -> 18 < U -> build_ok U A b -> nb_base b mod nb_align b = 0 ->
  arena_free b m -> variables_apart A envs n k m -> (forall i, Forall (hop_fine (n i) (k i)) (programs i)) ->
  (forall i, exists x, hclient_run hclient_start (programs i) = Fine x) -> w_run P U A E b envs pads cs (w_start m programs) = Ret ws ->
  length places = (length (ws_log ws) + 2)%nat ->
  exists ws', w_run P U A E b envs pads (map (WChoice i false) places) ws = Ret ws' /\
    (ft_todo (fs_thread (ws_sys ws) i) = [] \/ ft_phase (fs_thread (ws_sys ws') i) = FHung \/
     (length (ft_results (fs_thread (ws_sys ws) i)) < length (ft_results (fs_thread (ws_sys ws') i)))%nat).
Proof.
  intros P U A E b envs n k pads programs m cs ws i places I HU Bd Ba Af Pl V Fi R Le. pose proof (all_set_intro U A b envs n k m I HU Bd Ba Af Pl) as St.
  destruct (wrun_ok P U A E b envs n k programs pads m cs St Af _ _ (winv_start P U A E b envs n k programs m Af Pl V Fi)) as (ws0 & s & X & _ & H). rewrite R in X. injection X as <-.
  destruct (wrun_ok P U A E b envs n k programs pads m (map (WChoice i false) places) St Af ws s H) as (ws' & s' & X & _). exists ws'. split; [exact X|].
  assert (Rd : reading_ok (ws_log ws) (ws_seen ws) (fs_thread (ws_sys ws))).
  { apply (reading_run P U A E b envs pads cs (w_start m programs) ws); [discriminate| |exact R]. intros j. cbn. split; [lia|exact Logic.I]. }
  apply (w_solo P U A E b envs n k programs pads m i places St Af ws s ws' H Rd X). unfold wrank. destruct (ft_phase _); lia.
Qed.
(** C84 (full statement refuted): the three steps that are enough for threads that always read the newest value (C83) are not enough here. A
    thread that has loaded before two others took memory reads one new value after the other. *)
Lemma c84_three_refuted_pf : ~ (forall P U A E b envs n k pads programs m cs ws i places, In A word_alignments -> 18 < U -> build_ok U A b -> nb_base b mod nb_align b = 0 ->
  arena_free b m -> variables_apart A envs n k m -> (forall i, Forall (hop_fine (n i) (k i)) (programs i)) ->
  (forall i, exists x, hclient_run hclient_start (programs i) = Fine x) -> w_run P U A E b envs pads cs (w_start m programs) = Ret ws ->
  length places = 3%nat ->
  exists ws', w_run P U A E b envs pads (map (WChoice i false) places) ws = Ret ws' /\
    (ft_todo (fs_thread (ws_sys ws) i) = [] \/ ft_phase (fs_thread (ws_sys ws') i) = FHung \/
     (length (ft_results (fs_thread (ws_sys ws) i)) < length (ft_results (fs_thread (ws_sys ws') i)))%nat)).
Proof.
  intros C. assert (I : In 8 word_alignments) by (unfold word_alignments; cbn; auto). assert (HU : 18 < 64) by lia.
  set (envs := fun _ : nat => env1). set (pads := fun (_ _ : nat) (_ : N) => 0).
  assert (K : match w_run Release 64 8 Little build1 envs pads behind (w_start ram1 five) with
    | Ret ws => length (ft_todo (fs_thread (ws_sys ws) 0%nat)) = 2%nat /\
      match w_run Release 64 8 Little build1 envs pads (map (WChoice 0 false) [1; 2; 3]%nat) ws with Ret ws' => ft_results (fs_thread (ws_sys ws') 0%nat) = [] /\ ft_phase (fs_thread (ws_sys ws') 0%nat) <> FHung | _ => False end
    | _ => False end) by (vm_compute; repeat split; discriminate).
  destruct (w_run Release 64 8 Little build1 envs pads behind (w_start ram1 five)) as [ws| |] eqn:R; try contradiction. destruct K as [K1 K2].
  specialize (C Release 64 8 Little build1 envs (fun _ => 0%nat) (fun _ => 0%nat) pads five ram1 behind ws 0%nat [1; 2; 3]%nat I HU build1_ok eq_refl arena1_free (no_variables _ _ _) (five_fine 0 0) five_runs R eq_refl).
  destruct C as (ws' & Q & D). rewrite Q in K2. destruct K2 as [K2 K3]. destruct D as [D|[D|D]]; [rewrite D in K1; discriminate K1|contradiction|rewrite K2 in D; cbn in D; lia].
Qed.
