(*PROPHEAD
Property theorems C71: C programs with threads
From Verif Require Import LSampleP LSampleQ LSampleT TCheck.
*)
(** C71: C programs with threads. *)
From Verif Require Import TPosition TSfen LExt LRuntime TRuntime TClient TCall THeap TProgram TCheck.
From Verif Require Export SpecThreads.

(** ** The rest of the memory may change *)
Definition shifted (m m' m0 : mem) : mem := fun y => if opt_eq_dec (m y) (m' y) then m0 y else m' y.
Lemma shifted_same m m' m0 y : m' y = m y -> shifted m m' m0 y = m0 y.
Proof. intros H. unfold shifted. destruct (opt_eq_dec _ _) as [_|N]; [reflexivity|]. now destruct N. Qed.
Lemma hinv_env P A E B env n k m0 w st m' : In A word_alignments -> box_ok A B -> hinv P A E B env n k m0 w st ->
  (forall v y, variable n k v -> in_variable A env v y -> m' y = w_mem w y) -> (forall y, SpecHeap.in_object B w y -> m' y = w_mem w y) ->
  hinv P A E B env n k (shifted (w_mem w) m' m0) (with_mem w m') st.
Proof.
  intros I Bk H V O. constructor; cbn [with_mem w_mem w_live w_next w_handle]; try apply H.
  - destruct (hi_placed _ _ _ _ _ _ _ _ _ _ H) as (P1 & P2 & P3). split; auto. split; auto. intros v Vv i Li. rewrite (V v); [now apply P2|exact Vv|unfold in_variable, in_region; lia].
  - apply (tracks_frame P A E env n k (w_mem w)); auto. apply H.
  - intros id. pose proof (hi_obj _ _ _ _ _ _ _ _ _ _ H id) as Q. destruct (w_live w id) as [[a ms]|] eqn:L; [|exact Q].
    destruct (hc_object st id) as [[[x0 x] ms']|]; [|exact Q]. destruct Q as [Q1 Q2]. split; auto. apply (obj_frame P A E B (w_mem w)); auto.
    intros y Y. apply O. eapply in_object_intro; eauto.
  - intros id a ms y L Y. rewrite shifted_same; [eapply (hi_fresh _ _ _ _ _ _ _ _ _ _ H); eauto|]. apply O. eapply in_object_intro; eauto.
  - intros y N Vv. unfold shifted. destruct (opt_eq_dec (w_mem w y) (m' y)) as [<-|C]; [|reflexivity]. exact (hi_mem _ _ _ _ _ _ _ _ _ _ H y N Vv).
  - destruct (hi_init _ _ _ _ _ _ _ _ _ _ H) as (P1 & P2 & P3). split; auto. split; auto. intros v Vv i Li.
    rewrite shifted_same; [now apply P2|]. apply (V v); auto. unfold in_variable, in_region. lia.
Qed.
Lemma pinv_env P A E B env Z m0 m1 w st m' : In A word_alignments -> box_ok A B -> pinv P A E B env Z m0 m1 w st ->
  (forall y, own_byte A B env Z (pw_heap w) y -> m' y = w_mem (pw_heap w) y) ->
  pinv P A E B env Z (shifted (w_mem (pw_heap w)) m' m0) (shifted (w_mem (pw_heap w)) m' m1) (with_shared m' w) st.
Proof.
  intros I Bk [H V D [S1 S2] Pl] O. constructor; cbn [with_shared pw_heap]; auto.
  - apply hinv_env; auto.
    + intros v y Vv J. apply O. right. left. eauto.
    + intros y J. apply O. now left.
  - apply (val_frame A E _ _ _ (pw_values w)); auto. intros o y K J. cbn [with_shared pw_values pw_heap with_mem w_mem v_mem]. apply O. right. right. eauto.
  - split.
    + intros y N. unfold shifted. destruct (opt_eq_dec _ _); auto.
    + intros y. unfold shifted. destruct (opt_eq_dec _ _); [apply S2|tauto].
  - destruct Pl as (P1 & P2 & P3). split; auto. split; auto. intros o K i L. rewrite shifted_same; [now apply P2|].
    apply O. right. right. exists o. split; auto. unfold SpecCall.in_object, in_region. lia.
Qed.

(** ** What a program owns *)
Lemma own_mapped P A E B env Z m0 m1 w st y : pinv P A E B env Z m0 m1 w st -> own_byte A B env Z (pw_heap w) y -> w_mem (pw_heap w) y <> None.
Proof.
  intros [H V D S Pl] [J|[(v & K & J)|(o & K & J)]] N.
  - destruct J as (id & a & ms & L & R). pose proof (hi_obj _ _ _ _ _ _ _ _ _ _ H id) as Q. rewrite L in Q. destruct (hc_object (ps_heap st) id) as [[[x0 x] ms']|]; [|exact Q].
    destruct Q as (_ & _ & Ac & _). unfold in_region in R. destruct (Ac (y - a)) as [b Hb]; [lia|]. replace (a + (y - a)) with y in Hb by lia. congruence.
  - destruct (hi_placed _ _ _ _ _ _ _ _ _ _ H) as (_ & Ac & _). unfold in_variable, in_region in J.
    destruct (Ac v K (y - fst (region A (p_positions env) v))) as [b Hb]; [lia|]. replace (fst (region A (p_positions env) v) + (y - fst (region A (p_positions env) v))) with y in Hb by lia. congruence.
  - destruct V as (_ & _ & (_ & Ac & _)). unfold SpecCall.in_object, in_region in J.
    destruct (Ac o K (y - fst (v_region (p_objects env) o))) as [b Hb]; [lia|]. replace (fst (v_region (p_objects env) o) + (y - fst (v_region (p_objects env) o))) with y in Hb by lia.
    cbn [pw_values v_mem] in Hb. congruence.
Qed.
Lemma own_rest P A E B env Z m0 m1 w st y : pinv P A E B env Z m0 m1 w st -> ~ own_byte A B env Z (pw_heap w) y -> w_mem (pw_heap w) y = m0 y.
Proof.
  intros [H V D [S1 S2] Pl] N. rewrite (hi_mem _ _ _ _ _ _ _ _ _ _ H y).
  - apply S1. intros o K J. apply N. right. right. eauto.
  - intros J. apply N. now left.
  - intros v K J. apply N. right. left. eauto.
Qed.
Lemma own_fresh P A E B env Z m0 m1 w st y : pinv P A E B env Z m0 m1 w st -> SpecHeap.in_object B (pw_heap w) y -> m0 y = None.
Proof. intros [H V D [S1 S2] Pl] (id & a & ms & L & R). apply S2. eapply (hi_fresh _ _ _ _ _ _ _ _ _ _ H); eauto. Qed.
(** what changes when a program takes a step *)
Lemma own_new P A E B env Z m0 m1 m2 w w' st st' y : pinv P A E B env Z m0 m1 w st -> pinv P A E B env Z m0 m2 w' st' ->
  own_byte A B env Z (pw_heap w') y -> ~ own_byte A B env Z (pw_heap w) y -> w_mem (pw_heap w) y = None.
Proof.
  intros H H' [J|J] N; [|destruct N; now right]. rewrite (own_rest _ _ _ _ _ _ _ _ _ _ _ H N). exact (own_fresh _ _ _ _ _ _ _ _ _ _ _ H' J).
Qed.
Lemma own_old P A E B env Z m0 m1 m2 w w' st st' y : pinv P A E B env Z m0 m1 w st -> pinv P A E B env Z m0 m2 w' st' ->
  own_byte A B env Z (pw_heap w) y -> ~ own_byte A B env Z (pw_heap w') y -> w_mem (pw_heap w') y = None.
Proof.
  intros H H' J N. rewrite (own_rest _ _ _ _ _ _ _ _ _ _ _ H' N). destruct J as [J|J]; [|destruct N; now right]. exact (own_fresh _ _ _ _ _ _ _ _ _ _ _ H J).
Qed.
Lemma own_frame P A E B env Z m0 m1 m2 w w' st st' y : pinv P A E B env Z m0 m1 w st -> pinv P A E B env Z m0 m2 w' st' ->
  ~ own_byte A B env Z (pw_heap w) y -> ~ own_byte A B env Z (pw_heap w') y -> w_mem (pw_heap w') y = w_mem (pw_heap w) y.
Proof. intros H H' N N'. rewrite (own_rest _ _ _ _ _ _ _ _ _ _ _ H N), (own_rest _ _ _ _ _ _ _ _ _ _ _ H' N'). reflexivity. Qed.
Lemma own_shared A B env Z m w y : own_byte A B env Z (pw_heap (with_shared m w)) y <-> own_byte A B env Z (pw_heap w) y.
Proof. unfold own_byte, SpecHeap.in_object. cbn [with_shared pw_heap with_mem w_live]. tauto. Qed.
Lemma pinv_shows P A E B env Z m0 m1 w st : In A word_alignments -> box_ok A B -> pinv P A E B env Z m0 m1 w st -> p_shows A E B env Z w st.
Proof.
  intros I Bk [H V D S Pl]. destruct (hinv_shows _ _ _ _ _ _ _ _ _ _ I Bk H) as (S1 & S2 & S3 & S4 & S5). split; [apply V|]. auto.
Qed.

(** ** One step *)
Definition code_within (Z : p_size) (code : list c_stmt) : Prop := forall s, In s code -> stmt_within Z s.
Definition step_agrees (P : profile) (A : N) (E : endian) (B : box_layout) (env : p_env) (Z : p_size) (m0 : mem) (out : Prop)
    (a : outcome (list c_stmt * p_state)) (r : res (list c_stmt * p_world)) : Prop :=
  match a with
  | Fine (code, st) => (exists w m2, r = Ret (code, w) /\ pinv P A E B env Z m0 m2 w st /\ code_within Z code) \/ (r = Panic /\ out)
  | Misused => r = UB
  | Unset => True
  end.
Lemma t_step_ok P A E B env Z m0 m1 allocs pads code w st : In A word_alignments -> box_ok A B -> (forall j, fresh_blocks A B (allocs j)) ->
  code_within Z code -> pinv P A E B env Z m0 m1 w st ->
  step_agrees P A E B env Z m0 (no_block allocs code w) (a_step code st) (t_step P A E B env allocs pads code w).
Proof.
  intros I Bk FB W H. destruct code as [|s rest]; [left; exists w, m1; auto|].
  assert (Ws : stmt_within Z s) by (apply W; now left). assert (Wr : code_within Z rest) by (intros t J; apply W; now right).
  assert (Wc : forall t, stmt_within Z t -> code_within Z (t :: rest)) by (intros t Wt u [<-|J]; auto).
  pose proof H as [Hh V D S _]. pose proof V as ((Sv & _) & _). clear W.
  destruct s as [|o|x c|x a|x a b|s t|c s t|c s]; cbn [a_step t_step stmt_within] in *.
  - left. eexists _, m1. eauto.
  - destruct (v_meaning (ps_val st) o) as [v'|] eqn:Q; [|exact Logic.I].
    destruct (pinv_value P A E B env Z m0 m1 w st o v' I Bk H Ws Q) as (vw & m2 & -> & H'). cbn [bind]. left. eauto.
  - pose proof (p_step_ok P A E B env Z m0 m1 (allocs (pw_tick w)) (pads (pw_tick w)) c w st I Bk (FB _ _) H Ws) as Q.
    destruct (p_meaning st c) as [[h v]| |]; cbn [agrees_p step_agrees] in *; [|rewrite Q; reflexivity|exact Logic.I].
    destruct Q as [(w' & -> & H')|[-> [Hm [g ->]]]]; cbn [bind]; [left|right; split; [reflexivity|]; now exists x, g, rest]. eexists _, m1. split; [reflexivity|]. split; [|exact Wr]. now apply pinv_heap.
  - destruct (arg_of (ps_val st) a) as [v|] eqn:Q; [|exact Logic.I]. destruct (is_pointer v) eqn:Np; [exact Logic.I|].
    destruct (arg_ok (p_objects env) (pw_values w) (ps_val st) a v Sv Q) as (v' & -> & L). cbn [bind]. assert (v' = v) as -> by (destruct v; try discriminate Np; exact L).
    left. eexists _, m1. split; [reflexivity|]. split; [|exact Wr]. now apply pinv_var.
  - destruct (number_of (ps_val st) a) as [y|] eqn:Qa; [|exact Logic.I]. destruct (number_of (ps_val st) b) as [z|] eqn:Qb; [|exact Logic.I].
    rewrite (number_ok _ _ _ _ _ _ _ _ _ V Qa), (number_ok _ _ _ _ _ _ _ _ _ V Qb). cbn [bind]. left. eexists _, m1. split; [reflexivity|]. split; [|exact Wr]. now apply pinv_var.
  - left. eexists _, m1. split; [reflexivity|]. split; [exact H|]. intros u [<-|[<-|J]]; [apply Ws|apply Ws|auto].
  - destruct (holds (ps_val st) c) as [b|] eqn:Q; [|exact Logic.I]. rewrite (TProgram.cond_ok _ _ _ _ _ _ _ _ _ V Q). cbn [bind].
    left. eexists _, m1. split; [reflexivity|]. split; [exact H|]. apply Wc. destruct b; apply Ws.
  - destruct (holds (ps_val st) c) as [b|] eqn:Q; [|exact Logic.I]. rewrite (TProgram.cond_ok _ _ _ _ _ _ _ _ _ V Q). cbn [bind].
    destruct b; cbn [step_agrees]; left; eexists _, m1; (split; [reflexivity|]); (split; [exact H|]); [|exact Wr]. intros u [<-|[<-|J]]; [exact Ws|exact Ws|auto].
Qed.

(** ** All threads *)
Record sinv (P : profile) (A : N) (E : endian) (B : box_layout) (envs : nat -> p_env) (Zs : nat -> p_size) (m : mem) (sys : system) (st : nat -> p_state) : Prop := {
  si_each : forall i, exists m0 m1, pinv P A E B (envs i) (Zs i) m0 m1 (now sys i) (st i);
  si_code : forall i, code_within (Zs i) (th_code (sy_thread sys i));
  si_apart : forall i j y, i <> j -> own_byte A B (envs i) (Zs i) (pw_heap (now sys i)) y -> own_byte A B (envs j) (Zs j) (pw_heap (now sys j)) y -> False;
  si_rest : forall y, (forall i, ~ own_byte A B (envs i) (Zs i) (pw_heap (now sys i)) y) -> sy_mem sys y = m y;
  si_heap : forall i y, SpecHeap.in_object B (pw_heap (now sys i)) y -> m y = None
}.
Lemma sinv_start P A E B envs Zs m programs : threads_placed A envs Zs m -> (forall i, stmt_within (Zs i) (programs i)) ->
  sinv P A E B envs Zs m (sys_start m programs) (fun _ => p_state_start).
Proof.
  intros [Pl Ap] W. constructor.
  - intros i. exists m, m. apply p_start_ok. apply Pl.
  - intros i s [<-|[]]. apply W.
  - intros i j y N J K. apply (Ap i j y N).
    + destruct J as [(id & a & ms & L & _)|J]; [discriminate L|exact J].
    + destruct K as [(id & a & ms & L & _)|K]; [discriminate L|exact K].
  - reflexivity.
  - intros i y (id & a & ms & L & _). discriminate L.
Qed.
Definition upd {T} (f : nat -> T) (i : nat) (x : T) : nat -> T := fun j => if Nat.eqb j i then x else f j.
Lemma now_shared sys i : with_shared (sy_mem sys) (now sys i) = now sys i.
Proof. reflexivity. Qed.
Lemma sys_step_ok P A E B envs Zs m allocs pads sys st i : In A word_alignments -> box_ok A B -> (forall i j, fresh_blocks A B (allocs i j)) ->
  sinv P A E B envs Zs m sys st ->
  match a_step (th_code (sy_thread sys i)) (st i) with
  | Fine (code, st') =>
      (exists sys', sys_step P A E B envs allocs pads i sys = Ret sys' /\ sinv P A E B envs Zs m sys' (upd st i st') /\
         (forall j, th_code (sy_thread sys' j) = upd (fun j => th_code (sy_thread sys j)) i code j) /\
         (forall y, ~ own_byte A B (envs i) (Zs i) (pw_heap (now sys i)) y -> ~ own_byte A B (envs i) (Zs i) (pw_heap (now sys' i)) y -> sy_mem sys' y = sy_mem sys y)) \/
      (sys_step P A E B envs allocs pads i sys = Panic /\ no_block (allocs i) (th_code (sy_thread sys i)) (now sys i))
  | Misused => sys_step P A E B envs allocs pads i sys = UB
  | Unset => True
  end.
Proof.
  intros I Bk FB V. destruct (si_each _ _ _ _ _ _ _ _ _ V i) as (m0 & m1 & H).
  pose proof (t_step_ok P A E B (envs i) (Zs i) m0 m1 (allocs i) (pads i) _ _ _ I Bk (FB i) (si_code _ _ _ _ _ _ _ _ _ V i) H) as Q.
  destruct (a_step (th_code (sy_thread sys i)) (st i)) as [[code st']| |]; cbn [step_agrees] in Q; [| |exact Logic.I].
  2:{ unfold sys_step. unfold now in Q. rewrite Q. reflexivity. }
  destruct Q as [(w' & m2 & Q & H' & W')|[Q X]]; [left|right; unfold sys_step; unfold now in Q; rewrite Q; auto].
  unfold sys_step. unfold now in Q. rewrite Q. cbn [bind].
  set (sys' := System (w_mem (pw_heap w')) (fun j => if Nat.eqb j i then Thread code w' else sy_thread sys j)).
  assert (Ei : now sys' i = w'). { unfold now, sys'. cbn [sy_mem sy_thread]. rewrite Nat.eqb_refl. cbn [th_world]. destruct w' as [[? ? ? ?] ? ?]. reflexivity. }
  assert (Ej : forall j, j <> i -> now sys' j = with_shared (w_mem (pw_heap w')) (now sys j)).
  { intros j N. unfold now, sys'. cbn [sy_mem sy_thread]. destruct (Nat.eqb_spec j i); [contradiction|reflexivity]. }
  assert (Em : forall j, w_mem (pw_heap (now sys j)) = sy_mem sys) by reflexivity.
  assert (Ow : forall j y, j <> i -> own_byte A B (envs j) (Zs j) (pw_heap (now sys' j)) y <-> own_byte A B (envs j) (Zs j) (pw_heap (now sys j)) y).
  { intros j y N. rewrite (Ej j N). apply own_shared. }
  assert (Fr : forall j y, j <> i -> own_byte A B (envs j) (Zs j) (pw_heap (now sys j)) y ->
    ~ own_byte A B (envs i) (Zs i) (pw_heap (now sys i)) y /\ ~ own_byte A B (envs i) (Zs i) (pw_heap w') y).
  { intros j y N J. assert (N1 : ~ own_byte A B (envs i) (Zs i) (pw_heap (now sys i)) y) by (intros K; exact (si_apart _ _ _ _ _ _ _ _ _ V j i y N J K)).
    split; [exact N1|]. intros K. destruct (si_each _ _ _ _ _ _ _ _ _ V j) as (n0 & n1 & Hj). apply (own_mapped _ _ _ _ _ _ _ _ _ _ _ Hj J). rewrite Em.
    rewrite <- (Em i). exact (own_new _ _ _ _ _ _ _ _ _ _ _ _ _ _ H H' K N1). }
  assert (Me : forall y, ~ own_byte A B (envs i) (Zs i) (pw_heap (now sys i)) y -> ~ own_byte A B (envs i) (Zs i) (pw_heap w') y -> w_mem (pw_heap w') y = sy_mem sys y)
    by (intros y N1 N2; rewrite <- (Em i); exact (own_frame _ _ _ _ _ _ _ _ _ _ _ _ _ _ H H' N1 N2)).
  exists sys'. split; [reflexivity|]. split; [constructor|split].
  - intros j. unfold upd. destruct (Nat.eqb_spec j i) as [->|N]; [rewrite Ei; eauto|]. rewrite (Ej j N). destruct (si_each _ _ _ _ _ _ _ _ _ V j) as (n0 & n1 & Hj).
    eexists _, _. apply pinv_env; eauto. intros y J. rewrite Em. apply Me; apply (Fr j y N J).
  - intros j. unfold sys'. cbn [sy_thread]. destruct (Nat.eqb_spec j i) as [->|N]; [exact W'|]. apply (si_code _ _ _ _ _ _ _ _ _ V).
  - intros j k y N J K. destruct (Nat.eq_dec j i) as [->|Nj], (Nat.eq_dec k i) as [->|Nk]; [now destruct N| | |].
    + rewrite Ei in J. apply (Ow k y Nk) in K. exact (proj2 (Fr k y Nk K) J).
    + rewrite Ei in K. apply (Ow j y Nj) in J. exact (proj2 (Fr j y Nj J) K).
    + apply (Ow k y Nk) in K. apply (Ow j y Nj) in J. exact (si_apart _ _ _ _ _ _ _ _ _ V j k y N J K).
  - intros y N. unfold sys'. cbn [sy_mem]. pose proof (N i) as N2. rewrite Ei in N2. destruct (opt_eq_dec (w_mem (pw_heap w') y) (m y)) as [Q'|Q']; [exact Q'|].
    assert (N1 : ~ own_byte A B (envs i) (Zs i) (pw_heap (now sys i)) y).
    { intros J. apply Q'. rewrite (own_old _ _ _ _ _ _ _ _ _ _ _ _ _ _ H H' J N2). destruct J as [J|J]; [|destruct N2; now right]. symmetry. exact (si_heap _ _ _ _ _ _ _ _ _ V i y J). }
    rewrite (Me y N1 N2). apply (si_rest _ _ _ _ _ _ _ _ _ V). intros j J. destruct (Nat.eq_dec j i) as [->|Nj]; [contradiction|]. apply (N j). now apply Ow.
  - intros j y J. destruct (Nat.eq_dec j i) as [->|Nj].
    + rewrite Ei in J. pose proof (own_fresh _ _ _ _ _ _ _ _ _ _ _ H' J) as Z0.
      (* the byte was the thread's before, or it was free *)
      destruct (opt_eq_dec (m y) None) as [Q'|Q']; [exact Q'|]. exfalso. 
      assert (N1 : ~ own_byte A B (envs i) (Zs i) (pw_heap (now sys i)) y).
      { intros [K|K]; [apply Q'; exact (si_heap _ _ _ _ _ _ _ _ _ V i y K)|]. apply (own_mapped _ _ _ _ _ _ _ _ _ _ y H' ); [now right|].
        destruct K as [(v & Kv & K)|(o & Ko & K)].
        - exfalso. destruct J as (id & a & ms & L & R). exact (hi_vars _ _ _ _ _ _ _ _ _ _ (pi_heap _ _ _ _ _ _ _ _ _ _ H') id a ms v y L Kv K R).
        - exfalso. refine (proj2 (object_bytes P A E B (envs i) (Zs i) m2 (pw_heap w') (ps_heap st') (pi_heap _ _ _ _ _ _ _ _ _ _ H') (pi_apart _ _ _ _ _ _ _ _ _ _ H') _ o y Ko K) J).
          exact (placed_untouched A _ _ _ _ _ (pi_init _ _ _ _ _ _ _ _ _ _ H') (pi_same _ _ _ _ _ _ _ _ _ _ H')). }
      pose proof (own_new _ _ _ _ _ _ _ _ _ _ _ _ _ _ H H' (or_introl J) N1) as Z1. rewrite Em in Z1.
      apply Q'. rewrite <- Z1. symmetry. apply (si_rest _ _ _ _ _ _ _ _ _ V). intros k K. destruct (Nat.eq_dec k i) as [->|Nk]; [contradiction|].
      destruct (si_each _ _ _ _ _ _ _ _ _ V k) as (n0 & n1 & Hk). apply (own_mapped _ _ _ _ _ _ _ _ _ _ _ Hk K). rewrite Em. exact Z1.
    + apply (si_heap _ _ _ _ _ _ _ _ _ V j y). rewrite (Ej j Nj) in J. exact J.
  - intros j. unfold sys', upd. cbn [sy_thread]. destruct (Nat.eqb_spec j i); reflexivity.
  - intros y N1 N2. rewrite Ei in N2. exact (Me y N1 N2).
Qed.

(** ** Schedules *)
Lemma fine_inj {T} (x y : T) : Fine x = Fine y -> x = y.
Proof. congruence. Qed.
Lemma ret_inj {T} (x y : T) : Ret x = Ret y -> x = y.
Proof. congruence. Qed.
Lemma turns_same i rest : turns i (i :: rest) = S (turns i rest).
Proof. unfold turns. cbn [filter]. now rewrite Nat.eqb_refl. Qed.
Lemma turns_other i j rest : i <> j -> turns i (j :: rest) = turns i rest.
Proof. intros N. unfold turns. cbn [filter]. destruct (Nat.eqb_spec i j); [contradiction|reflexivity]. Qed.
Lemma sys_run_ok P A E B envs Zs m allocs pads : In A word_alignments -> box_ok A B -> (forall i j, fresh_blocks A B (allocs i j)) ->
  forall schedule sys st, sinv P A E B envs Zs m sys st ->
  (forall i, a_steps (turns i schedule) (th_code (sy_thread sys i)) (st i) <> Unset) ->
  match sys_run P A E B envs allocs pads schedule sys with
  | Ret sys' => exists st', sinv P A E B envs Zs m sys' st' /\ forall i, a_steps (turns i schedule) (th_code (sy_thread sys i)) (st i) = Fine (th_code (sy_thread sys' i), st' i)
  | Panic => sys_out_of_memory P A E B envs allocs pads schedule sys
  | UB => exists i, a_steps (turns i schedule) (th_code (sy_thread sys i)) (st i) = Misused
  end.
Proof.
  intros I Bk FB. induction schedule as [|k rest IH]; intros sys st V F; [exists st; auto|].
  pose proof (sys_step_ok P A E B envs Zs m allocs pads sys st k I Bk FB V) as Q. pose proof (F k) as Fk. rewrite turns_same in Fk. cbn [a_steps] in Fk. cbn [sys_run].
  destruct (a_step (th_code (sy_thread sys k)) (st k)) as [[code st1]| |] eqn:S1; [| |now destruct Fk].
  2:{ rewrite Q. cbn [bind]. exists k. rewrite turns_same. cbn [a_steps]. now rewrite S1. }
  destruct Q as [(sys1 & Q & V1 & C1 & _)|[-> Hm]]; cbn [bind]; [|exists [], k, rest, sys; auto]. rewrite Q. cbn [bind].
  assert (G : forall i, a_steps (turns i (k :: rest)) (th_code (sy_thread sys i)) (st i) = a_steps (turns i rest) (th_code (sy_thread sys1 i)) (upd st k st1 i)).
  { intros i. rewrite (C1 i). unfold upd. destruct (Nat.eqb_spec i k) as [->|N]; [|now rewrite turns_other]. rewrite turns_same. cbn [a_steps]. now rewrite S1. }
  specialize (IH sys1 (upd st k st1) V1). destruct (sys_run P A E B envs allocs pads rest sys1) as [sys2| |].
  - destruct IH as (st2 & V2 & G2); [intros i; rewrite <- G; apply F|]. exists st2. split; [exact V2|]. intros i. now rewrite G.
  - destruct IH as (before & i & after & sys2 & -> & R & N); [intros i; rewrite <- G; apply F|]. exists (k :: before), i, after, sys2. split; [reflexivity|].
    split; [|exact N]. cbn [sys_run]. now rewrite Q.
  - destruct IH as [i IH]; [intros j; rewrite <- G; apply F|]. exists i. now rewrite G.
Qed.
Lemma no_block_panics P A E B env allocs pads code w : no_block allocs code w -> t_step P A E B env allocs pads code w = Panic.
Proof. intros (x & h & rest & -> & N). cbn [t_step p_step]. cbv zeta. cbn [h_step]. unfold Position_startpos, pos_startpos. rewrite startpos_ok, N. reflexivity. Qed.
Lemma sys_out_panics P A E B envs allocs pads : forall schedule sys, sys_out_of_memory P A E B envs allocs pads schedule sys ->
  sys_run P A E B envs allocs pads schedule sys = Panic.
Proof.
  intros schedule sys (before & i & after & sys' & -> & R & N). revert sys R. induction before as [|k before IH]; intros sys R; cbn [app sys_run] in *.
  - injection R as ->. unfold sys_step. cbv zeta. change (with_shared (sy_mem sys') (th_world (sy_thread sys' i))) with (now sys' i). now rewrite no_block_panics.
  - destruct (sys_step P A E B envs allocs pads k sys) as [sys1| |]; try discriminate R. cbn [bind] in *. auto.
Qed.
Definition own_now (A : N) (B : box_layout) (envs : nat -> p_env) (Zs : nat -> p_size) (sys : system) (i : nat) (y : N) : Prop :=
  own_byte A B (envs i) (Zs i) (pw_heap (now sys i)) y.
Lemma alone_start m programs i n : a_steps n (th_code (sy_thread (sys_start m programs) i)) p_state_start = alone programs i n.
Proof. reflexivity. Qed.
Lemma out_of_threads P A E B envs allocs pads before i after sys :
  match sys_run P A E B envs allocs pads before sys with
  | Ret s => match th_code (sy_thread s i) with SCall x (QStartpos h) :: _ => allocs i (pw_tick (th_world (sy_thread s i))) (sy_mem s) = None | _ => False end
  | _ => False end ->
  sys_out_of_memory P A E B envs allocs pads (before ++ i :: after) sys.
Proof.
  destruct (sys_run P A E B envs allocs pads before sys) as [s| |] eqn:Q; try contradiction. destruct (th_code (sy_thread s i)) as [|[] code] eqn:C; try contradiction.
  destruct c; try contradiction. intros H. exists before, i, after, s. split; [reflexivity|]. split; [exact Q|]. rewrite C. eexists _, _, _. eauto.
Qed.
(** C71: threads that each run a program over the library on variables of their own, taking turns in any order, have no undefined
    behaviour as long as each of the programs by itself keeps to the contracts, and panic only when the allocator has no block for one of them. At any
    moment every thread has exactly what it would have after as many steps of its own, no two threads own a byte in common and the
    memory that none of them owns is as it was. *)
Lemma c71_threads_pf : forall P A E B envs Zs allocs pads programs m schedule, In A word_alignments -> box_ok A B ->
  (forall i j, fresh_blocks A B (allocs i j)) -> threads_placed A envs Zs m -> (forall i, stmt_within (Zs i) (programs i)) ->
  (forall i, exists code st, alone programs i (turns i schedule) = Fine (code, st)) ->
  match sys_run P A E B envs allocs pads schedule (sys_start m programs) with
  | Ret sys =>
      (forall i, exists st, alone programs i (turns i schedule) = Fine (th_code (sy_thread sys i), st) /\ p_shows A E B (envs i) (Zs i) (now sys i) st) /\
      (forall i j y, i <> j -> own_byte A B (envs i) (Zs i) (pw_heap (now sys i)) y -> own_byte A B (envs j) (Zs j) (pw_heap (now sys j)) y -> False) /\
      (forall y, (forall i, ~ own_byte A B (envs i) (Zs i) (pw_heap (now sys i)) y) -> sy_mem sys y = m y)
  | Panic => sys_out_of_memory P A E B envs allocs pads schedule (sys_start m programs)
  | UB => False
  end.
Proof.
  intros P A E B envs Zs allocs pads programs m schedule I Bk FB Pl W F.
  pose proof (sys_run_ok P A E B envs Zs m allocs pads I Bk FB schedule _ _ (sinv_start P A E B envs Zs m programs Pl W)) as G.
  destruct (sys_run P A E B envs allocs pads schedule (sys_start m programs)) as [sys| |].
  - destruct G as (st & V & G); [intros i Q; destruct (F i) as (code & st & R); rewrite alone_start, R in Q; discriminate Q|]. split; [|split; apply V].
    intros i. exists (st i). split; [apply G|]. destruct (si_each _ _ _ _ _ _ _ _ _ V i) as (m0 & m1 & H). exact (pinv_shows _ _ _ _ _ _ _ _ _ _ I Bk H).
  - apply G. intros i Q. destruct (F i) as (code & st & R). rewrite alone_start, R in Q. discriminate Q.
  - destruct G as [i G]; [intros i Q|]; destruct (F i) as (code & st & R); rewrite alone_start, R in *; discriminate.
Qed.
(** C71: if one of the threads comes to use a dangling or unset pointer, it is undefined behaviour whatever the others do in between, unless
    the allocator has no block for one of them before. *)
Lemma c71_misuse_pf : forall P A E B envs Zs allocs pads programs m schedule i, In A word_alignments -> box_ok A B ->
  (forall i j, fresh_blocks A B (allocs i j)) -> threads_placed A envs Zs m -> (forall i, stmt_within (Zs i) (programs i)) ->
  (forall j, alone programs j (turns j schedule) <> Unset) -> alone programs i (turns i schedule) = Misused ->
  match sys_run P A E B envs allocs pads schedule (sys_start m programs) with
  | Ret _ => False
  | Panic => sys_out_of_memory P A E B envs allocs pads schedule (sys_start m programs)
  | UB => True
  end.
Proof.
  intros P A E B envs Zs allocs pads programs m schedule i I Bk FB Pl W F Q.
  pose proof (sys_run_ok P A E B envs Zs m allocs pads I Bk FB schedule _ _ (sinv_start P A E B envs Zs m programs Pl W) F) as G.
  destruct (sys_run P A E B envs allocs pads schedule (sys_start m programs)) as [sys| |]; [|exact G|exact Logic.I].
  destruct G as (st & _ & G). specialize (G i). rewrite alone_start, Q in G. discriminate G.
Qed.
(** C71: and then they do panic. *)
Lemma c71_out_of_memory_pf : forall P A E B envs allocs pads programs m schedule,
  sys_out_of_memory P A E B envs allocs pads schedule (sys_start m programs) -> sys_run P A E B envs allocs pads schedule (sys_start m programs) = Panic.
Proof. intros. now apply sys_out_panics. Qed.
(** C71: the order in which the threads take their turns, the memory around them, the allocator and the build make no difference to any thread. *)
Lemma c71_schedules_pf : forall P P' A E B envs Zs allocs allocs' pads pads' programs m m' schedule schedule' sys sys', In A word_alignments -> box_ok A B ->
  (forall i j, fresh_blocks A B (allocs i j)) -> (forall i j, fresh_blocks A B (allocs' i j)) ->
  threads_placed A envs Zs m -> threads_placed A envs Zs m' -> (forall i, stmt_within (Zs i) (programs i)) ->
  (forall i, exists code st, alone programs i (turns i schedule) = Fine (code, st)) -> (forall i, turns i schedule = turns i schedule') ->
  sys_run P A E B envs allocs pads schedule (sys_start m programs) = Ret sys ->
  sys_run P' A E B envs allocs' pads' schedule' (sys_start m' programs) = Ret sys' ->
  forall i, th_code (sy_thread sys i) = th_code (sy_thread sys' i) /\ (forall x, pw_var (now sys i) x = pw_var (now sys' i) x) /\
    exists st, p_shows A E B (envs i) (Zs i) (now sys i) st /\ p_shows A E B (envs i) (Zs i) (now sys' i) st.
Proof.
  intros P P' A E B envs Zs allocs allocs' pads pads' programs m m' schedule schedule' sys sys' I Bk FB FB' Pl Pl' W F T R R' i.
  pose proof (c71_threads_pf P A E B envs Zs allocs pads programs m schedule I Bk FB Pl W F) as G.
  assert (F' : forall i, exists code st, alone programs i (turns i schedule') = Fine (code, st)) by (intros j; rewrite <- T; apply F).
  pose proof (c71_threads_pf P' A E B envs Zs allocs' pads' programs m' schedule' I Bk FB' Pl' W F') as G'.
  rewrite R in G. rewrite R' in G'. destruct G as [G _]. destruct G' as [G' _]. destruct (G i) as (st & Q & S). destruct (G' i) as (st' & Q' & S').
  rewrite <- T, Q in Q'. injection Q' as <- <-. split; [reflexivity|]. split; [|eauto].
  intros x. destruct S as ((S & _) & _). destruct S' as ((S' & _) & _). cbn [pw_values v_var] in S, S'. now rewrite S, S'.
Qed.
Lemma a_steps_add n k : forall code st, a_steps (n + k) code st = match a_steps n code st with Fine (code', st') => a_steps k code' st' | Misused => Misused | Unset => Unset end.
Proof. induction n as [|n IH]; intros code st; [reflexivity|]. cbn [a_steps Nat.add]. destruct (a_step code st) as [[code' st']| |]; auto. Qed.
Lemma turns_app i s t : turns i (s ++ t) = (turns i s + turns i t)%nat.
Proof. unfold turns. now rewrite filter_app, app_length. Qed.
Lemma prefix_fine programs schedule i : (forall j, exists code st, alone programs j (turns j (schedule ++ [i])) = Fine (code, st)) ->
  (forall j, a_steps (turns j schedule) [programs j] p_state_start <> Unset) /\
  forall code st, alone programs i (turns i schedule) = Fine (code, st) -> exists code' st', a_step code st = Fine (code', st').
Proof.
  intros F. split.
  - intros j Q. destruct (F j) as (code & st & R). unfold alone in R. rewrite turns_app, a_steps_add, Q in R. discriminate R.
  - intros code st Q. destruct (F i) as (code' & st' & R). unfold alone in *. rewrite turns_app, a_steps_add, Q, turns_same in R. cbn [a_steps] in R.
    destruct (a_step code st) as [[c s]| |]; try discriminate R. eauto.
Qed.
(** C71: a thread writes only to its own bytes, so never to those of another. *)
Lemma c71_writes_pf : forall P A E B envs Zs allocs pads programs m schedule i sys sys', In A word_alignments -> box_ok A B ->
  (forall i j, fresh_blocks A B (allocs i j)) -> threads_placed A envs Zs m -> (forall i, stmt_within (Zs i) (programs i)) ->
  (forall j, exists code st, alone programs j (turns j (schedule ++ [i])) = Fine (code, st)) ->
  sys_run P A E B envs allocs pads schedule (sys_start m programs) = Ret sys -> sys_step P A E B envs allocs pads i sys = Ret sys' ->
  (forall y, ~ own_byte A B (envs i) (Zs i) (pw_heap (now sys i)) y -> ~ own_byte A B (envs i) (Zs i) (pw_heap (now sys' i)) y -> sy_mem sys' y = sy_mem sys y) /\
  forall j y, j <> i -> own_byte A B (envs j) (Zs j) (pw_heap (now sys j)) y -> sy_mem sys' y = sy_mem sys y.
Proof.
  intros P A E B envs Zs allocs pads programs m schedule i sys sys' I Bk FB Pl W F R R'.
  destruct (prefix_fine programs schedule i F) as [F0 F1].
  pose proof (sys_run_ok P A E B envs Zs m allocs pads I Bk FB schedule _ _ (sinv_start P A E B envs Zs m programs Pl W) F0) as G. rewrite R in G.
  destruct G as (st & V & G). specialize (G i). rewrite alone_start in G. destruct (F1 _ _ G) as (code & st' & Q).
  pose proof (sys_step_ok P A E B envs Zs m allocs pads sys st i I Bk FB V) as X. rewrite Q in X.
  destruct X as [(sys1 & X & V' & _ & Y)|[X _]]; rewrite R' in X; [|discriminate X]. injection X as <-. split; [exact Y|].
  intros j y N J. apply Y; intros K; [exact (si_apart _ _ _ _ _ _ _ _ _ V j i y N J K)|]. apply (si_apart _ _ _ _ _ _ _ _ _ V' j i y N); [|exact K].
  unfold sys_step in R'. destruct (t_step P A E B (envs i) (allocs i) (pads i) _ _) as [[c w]| |]; try discriminate R'. cbn [bind] in R'. injection R' as <-.
  unfold now. cbn [sy_mem sy_thread]. destruct (Nat.eqb_spec j i); [contradiction|]. exact J.
Qed.
(** C71: a thread reads nothing but its own bytes: its next step does the same in any memory in which its own bytes are the same. *)
Lemma c71_reads_pf : forall P A E B envs Zs allocs pads programs m schedule i sys m', In A word_alignments -> box_ok A B ->
  (forall i j, fresh_blocks A B (allocs i j)) -> threads_placed A envs Zs m -> (forall i, stmt_within (Zs i) (programs i)) ->
  (forall j, exists code st, alone programs j (turns j (schedule ++ [i])) = Fine (code, st)) ->
  sys_run P A E B envs allocs pads schedule (sys_start m programs) = Ret sys ->
  (forall y, own_byte A B (envs i) (Zs i) (pw_heap (now sys i)) y -> m' y = sy_mem sys y) ->
  match sys_step P A E B envs allocs pads i (System m' (sy_thread sys)) with
  | Ret sys' => exists st, alone programs i (S (turns i schedule)) = Fine (th_code (sy_thread sys' i), st) /\ p_shows A E B (envs i) (Zs i) (now sys' i) st
  | Panic => no_block (allocs i) (th_code (sy_thread sys i)) (with_shared m' (now sys i))
  | UB => False
  end.
Proof.
  intros P A E B envs Zs allocs pads programs m schedule i sys m' I Bk FB Pl W F R O.
  destruct (prefix_fine programs schedule i F) as [F0 F1].
  pose proof (sys_run_ok P A E B envs Zs m allocs pads I Bk FB schedule _ _ (sinv_start P A E B envs Zs m programs Pl W) F0) as G. rewrite R in G.
  destruct G as (st & V & G). specialize (G i). rewrite alone_start in G. destruct (F1 _ _ G) as (code & st' & Q).
  destruct (si_each _ _ _ _ _ _ _ _ _ V i) as (m0 & m1 & H). pose proof (pinv_env _ _ _ _ _ _ _ _ _ _ m' I Bk H O) as H'.
  pose proof (t_step_ok P A E B (envs i) (Zs i) _ _ (allocs i) (pads i) _ _ _ I Bk (FB i) (si_code _ _ _ _ _ _ _ _ _ V i) H') as X.
  rewrite Q in X. cbn [step_agrees] in X. unfold sys_step. cbn [sy_mem sy_thread]. change (with_shared m' (th_world (sy_thread sys i))) with (with_shared m' (now sys i)).
  destruct X as [(w & m2 & -> & Hw & _)|[-> X]]; cbn [bind]; [|exact X]. exists st'. cbn [sy_thread]. rewrite Nat.eqb_refl. cbn [th_code]. split.
  - unfold alone in *. replace (S (turns i schedule)) with (turns i schedule + 1)%nat by lia. rewrite a_steps_add, G. cbn [a_steps]. now rewrite Q.
  - unfold now. cbn [sy_mem sy_thread]. rewrite Nat.eqb_refl. cbn [th_world].
    replace (with_shared (w_mem (pw_heap w)) w) with w by (destruct w as [[? ? ? ?] ? ?]; reflexivity). exact (pinv_shows _ _ _ _ _ _ _ _ _ _ I Bk Hw).
Qed.

(** C71: threads that have destructed all their objects have given all memory back. *)
Lemma c71_no_leak_pf : forall P A E B envs Zs allocs pads programs m schedule sys, In A word_alignments -> box_ok A B ->
  (forall i j, fresh_blocks A B (allocs i j)) -> threads_placed A envs Zs m -> (forall i, stmt_within (Zs i) (programs i)) ->
  (forall i, exists code st, alone programs i (turns i schedule) = Fine (code, st) /\ forall id, hc_object (ps_heap st) id = None) ->
  sys_run P A E B envs allocs pads schedule (sys_start m programs) = Ret sys -> forall y, sy_mem sys y = None <-> m y = None.
Proof.
  intros P A E B envs Zs allocs pads programs m schedule sys I Bk FB Pl W F R y.
  assert (F' : forall i, a_steps (turns i schedule) [programs i] p_state_start <> Unset).
  { intros i Q. destruct (F i) as (code & st & X & _). unfold alone in X. rewrite Q in X. discriminate X. }
  pose proof (sys_run_ok P A E B envs Zs m allocs pads I Bk FB schedule _ _ (sinv_start P A E B envs Zs m programs Pl W) F') as G. rewrite R in G. destruct G as (st & V & G).
  assert (No : forall i z, ~ SpecHeap.in_object B (pw_heap (now sys i)) z).
  { intros i z (id & a & ms & L & _). destruct (F i) as (code & st' & X & O). specialize (G i). rewrite alone_start, X in G. apply fine_inj in G. apply (f_equal snd) in G. cbn [snd] in G. subst st'.
    destruct (si_each _ _ _ _ _ _ _ _ _ V i) as (m0 & m1 & H). pose proof (hi_obj _ _ _ _ _ _ _ _ _ _ (pi_heap _ _ _ _ _ _ _ _ _ _ H) id) as Q. rewrite L, O in Q. exact Q. }
  assert (Ow : forall i, own_byte A B (envs i) (Zs i) (pw_heap (now sys i)) y -> sy_mem sys y <> None /\ m y <> None).
  { intros i J. destruct (si_each _ _ _ _ _ _ _ _ _ V i) as (m0 & m1 & H). split; [exact (own_mapped _ _ _ _ _ _ _ _ _ _ _ H J)|].
    destruct J as [J|J]; [now destruct (No i y)|]. apply (own_mapped P A E B (envs i) (Zs i) m m (p_start m) p_state_start y); [apply p_start_ok, Pl|now right]. }
  assert (Re : (forall i, ~ own_byte A B (envs i) (Zs i) (pw_heap (now sys i)) y) -> sy_mem sys y = m y) by apply (si_rest _ _ _ _ _ _ _ _ _ V).
  split; intros Q.
  - rewrite <- Re; [exact Q|]. intros i J. exact (proj1 (Ow i J) Q).
  - rewrite Re; [exact Q|]. intros i J. exact (proj2 (Ow i J) Q).
Qed.

(** ** Small steps and whole runs *)
Fixpoint runs_all (fuel : nat) (code : list c_stmt) (st : p_state) : outcome (option p_state) :=
  match code with
  | [] => Fine (Some st)
  | s :: rest => match runs fuel s st with Fine (Some st') => runs_all fuel rest st' | Fine None => Fine None | Misused => Misused | Unset => Unset end
  end.
Lemma runs_more fuel : forall s st r, runs fuel s st = r -> r <> Fine None -> runs (S fuel) s st = r.
Proof.
  induction fuel as [|fuel IH]; intros s st r H N; [cbn [runs] in H; now destruct N|].
  destruct s as [|o|x c|x a|x a b|s t|c s t|c s]; try exact H.
  - cbn [runs] in H. change (runs (S (S fuel)) (SSeq s t) st) with
      (match runs (S fuel) s st with Fine (Some st') => runs (S fuel) t st' | Fine None => Fine None | Misused => Misused | Unset => Unset end).
    destruct (runs fuel s st) as [[st'|]| |] eqn:Q; [|now destruct N| |]; rewrite (IH _ _ _ Q) by discriminate; auto.
  - cbn [runs] in H. change (runs (S (S fuel)) (SIf c s t) st) with
      (match holds (ps_val st) c with Some true => runs (S fuel) s st | Some false => runs (S fuel) t st | None => Unset end).
    destruct (holds (ps_val st) c) as [[]|]; auto.
  - cbn [runs] in H. change (runs (S (S fuel)) (SWhile c s) st) with
      (match holds (ps_val st) c with
       | Some true => match runs (S fuel) s st with Fine (Some st') => runs (S fuel) (SWhile c s) st' | Fine None => Fine None | Misused => Misused | Unset => Unset end
       | Some false => Fine (Some st) | None => Unset end).
    destruct (holds (ps_val st) c) as [[]|]; auto.
    destruct (runs fuel s st) as [[st'|]| |] eqn:Q; [|now destruct N| |]; rewrite (IH _ _ _ Q) by discriminate; auto.
Qed.
Lemma runs_all_more fuel code : forall st r, runs_all fuel code st = r -> r <> Fine None -> runs_all (S fuel) code st = r.
Proof.
  induction code as [|s rest IH]; intros st r H N; [exact H|]. cbn [runs_all] in *.
  destruct (runs fuel s st) as [[st'|]| |] eqn:Q; [|now destruct N| |]; rewrite (runs_more _ _ _ _ Q) by discriminate; auto.
Qed.
Lemma a_step_back fuel code st code' st' r : a_step code st = Fine (code', st') -> runs_all fuel code' st' = r -> r <> Fine None -> runs_all (S fuel) code st = r.
Proof.
  intros H R N. pose proof (runs_all_more _ _ _ _ R N) as R1.
  destruct code as [|[|o|x c|x a|x a b|s t|c s t|c s] rest]; cbn [a_step] in H.
  - injection H as <- <-. exact R1.
  - injection H as <- <-. exact R1.
  - cbn [runs_all runs]. destruct (v_meaning (ps_val st) o); [|discriminate H]. injection H as <- <-. exact R1.
  - cbn [runs_all runs]. destruct (p_meaning st c) as [[h v]| |]; try discriminate H. injection H as <- <-. exact R1.
  - cbn [runs_all runs]. destruct (arg_of (ps_val st) a) as [v|]; [|discriminate H]. destruct (is_pointer v); [discriminate H|]. injection H as <- <-. exact R1.
  - cbn [runs_all runs]. destruct (number_of (ps_val st) a); [|discriminate H]. destruct (number_of (ps_val st) b); [|discriminate H]. injection H as <- <-. exact R1.
  - injection H as <- <-. cbn [runs_all] in R. change (runs_all (S fuel) (SSeq s t :: rest) st) with
      (match match runs fuel s st with Fine (Some st') => runs fuel t st' | Fine None => Fine None | Misused => Misused | Unset => Unset end with
       | Fine (Some st') => runs_all (S fuel) rest st' | Fine None => Fine None | Misused => Misused | Unset => Unset end).
    destruct (runs fuel s st) as [[st1|]| |]; auto. destruct (runs fuel t st1) as [[st2|]| |]; auto. now apply runs_all_more.
  - change (runs_all (S fuel) (SIf c s t :: rest) st) with
      (match match holds (ps_val st) c with Some true => runs fuel s st | Some false => runs fuel t st | None => Unset end with
       | Fine (Some st') => runs_all (S fuel) rest st' | Fine None => Fine None | Misused => Misused | Unset => Unset end).
    destruct (holds (ps_val st) c) as [[]|]; try discriminate H; injection H as <- <-; cbn [runs_all] in R.
    + destruct (runs fuel s st) as [[st2|]| |]; auto. now apply runs_all_more.
    + destruct (runs fuel t st) as [[st2|]| |]; auto. now apply runs_all_more.
  - change (runs_all (S fuel) (SWhile c s :: rest) st) with
      (match match holds (ps_val st) c with
       | Some true => match runs fuel s st with Fine (Some st') => runs fuel (SWhile c s) st' | Fine None => Fine None | Misused => Misused | Unset => Unset end
       | Some false => Fine (Some st) | None => Unset end with
       | Fine (Some st') => runs_all (S fuel) rest st' | Fine None => Fine None | Misused => Misused | Unset => Unset end).
    destruct (holds (ps_val st) c) as [[]|]; try discriminate H; injection H as <- <-; [|exact R1]. cbn [runs_all] in R.
    destruct (runs fuel s st) as [[st1|]| |]; auto. destruct (runs fuel (SWhile c s) st1) as [[st2|]| |]; auto. now apply runs_all_more.
Qed.
(** the end of a run of small steps *)
Definition ended (a : outcome (list c_stmt * p_state)) : outcome (option p_state) :=
  match a with Fine ([], st) => Fine (Some st) | Fine (_ :: _, _) => Fine None | Misused => Misused | Unset => Unset end.
Lemma a_steps_back n : forall code st r, ended (a_steps n code st) = r -> r <> Fine None -> exists fuel, runs_all fuel code st = r.
Proof.
  induction n as [|n IH]; intros code st r H N; cbn [a_steps] in H.
  - cbn [ended] in H. destruct code as [|s rest]; [exists O; exact H|]. now destruct N.
  - destruct (a_step code st) as [[code' st']| |] eqn:Q.
    + destruct (IH _ _ _ H N) as [fuel R]. exists (S fuel). now apply (a_step_back fuel code st code' st').
    + cbn [ended] in H. subst r. exists 1%nat. destruct code as [|[|o|x c|x a|x a b|s t|c s t|c s] rest]; cbn [a_step] in Q; try discriminate Q; cbn [runs_all runs].
      * destruct (v_meaning (ps_val st) o); discriminate Q.
      * destruct (p_meaning st c) as [[h v]| |]; try discriminate Q. reflexivity.
      * destruct (arg_of (ps_val st) a) as [v|]; [|discriminate Q]. destruct (is_pointer v); discriminate Q.
      * destruct (number_of (ps_val st) a); [|discriminate Q]. destruct (number_of (ps_val st) b); discriminate Q.
      * destruct (holds (ps_val st) c) as [[]|]; discriminate Q.
      * destruct (holds (ps_val st) c) as [[]|]; discriminate Q.
    + cbn [ended] in H. subst r. exists 1%nat. destruct code as [|[|o|x c|x a|x a b|s t|c s t|c s] rest]; cbn [a_step] in Q; try discriminate Q; cbn [runs_all runs].
      * destruct (v_meaning (ps_val st) o); [discriminate Q|reflexivity].
      * destruct (p_meaning st c) as [[h v]| |]; try discriminate Q. reflexivity.
      * destruct (arg_of (ps_val st) a) as [v|]; [|reflexivity]. destruct (is_pointer v); [reflexivity|discriminate Q].
      * destruct (number_of (ps_val st) a); [|reflexivity]. destruct (number_of (ps_val st) b); [discriminate Q|reflexivity].
      * destruct (holds (ps_val st) c) as [[]|]; try discriminate Q. reflexivity.
      * destruct (holds (ps_val st) c) as [[]|]; try discriminate Q. reflexivity.
Qed.
(** after [s] the rest is left *)
Definition then_rest (r : outcome (option p_state)) (rest : list c_stmt) : outcome (list c_stmt * p_state) :=
  match r with Fine (Some st) => Fine (rest, st) | Fine None => Unset | Misused => Misused | Unset => Unset end.
Lemma runs_steps fuel : forall s st r rest, runs fuel s st = r -> r <> Fine None -> exists n, a_steps n (s :: rest) st = then_rest r rest.
Proof.
  induction fuel as [|fuel IH]; intros s st r rest H N; [cbn [runs] in H; now destruct N|].
  destruct s as [|o|x c|x a|x a b|s t|c s t|c s]; cbn [runs] in H.
  - exists 1%nat. subst r. reflexivity.
  - exists 1%nat. subst r. cbn [a_steps a_step]. destruct (v_meaning (ps_val st) o); reflexivity.
  - exists 1%nat. subst r. cbn [a_steps a_step]. destruct (p_meaning st c) as [[h v]| |]; reflexivity.
  - exists 1%nat. subst r. cbn [a_steps a_step]. destruct (arg_of (ps_val st) a) as [v|]; [|reflexivity]. destruct (is_pointer v); reflexivity.
  - exists 1%nat. subst r. cbn [a_steps a_step]. destruct (number_of (ps_val st) a); [|reflexivity]. destruct (number_of (ps_val st) b); reflexivity.
  - destruct (runs fuel s st) as [[st1|]| |] eqn:Q; [|now destruct N| |].
    + destruct (IH _ _ _ (t :: rest) Q) as [n Hn]; [discriminate|]. destruct (IH _ _ _ rest H N) as [k Hk]. exists (S (n + k)). cbn [a_steps a_step]. rewrite a_steps_add, Hn. exact Hk.
    + destruct (IH _ _ _ (t :: rest) Q) as [n Hn]; [discriminate|]. exists (S n). cbn [a_steps a_step]. rewrite Hn. now subst r.
    + destruct (IH _ _ _ (t :: rest) Q) as [n Hn]; [discriminate|]. exists (S n). cbn [a_steps a_step]. rewrite Hn. now subst r.
  - destruct (holds (ps_val st) c) as [b|] eqn:Q; [|exists 1%nat; cbn [a_steps a_step]; rewrite Q; now subst r].
    destruct b; destruct (IH _ _ _ rest H N) as [n Hn]; exists (S n); cbn [a_steps a_step]; rewrite Q; exact Hn.
  - destruct (holds (ps_val st) c) as [b|] eqn:Q; [|exists 1%nat; cbn [a_steps a_step]; rewrite Q; now subst r].
    destruct b; [|exists 1%nat; cbn [a_steps a_step]; rewrite Q; now subst r].
    destruct (runs fuel s st) as [[st1|]| |] eqn:Q1; [|now destruct N| |].
    + destruct (IH _ _ _ (SWhile c s :: rest) Q1) as [n Hn]; [discriminate|]. destruct (IH _ _ _ rest H N) as [k Hk]. exists (S (n + k)). cbn [a_steps a_step]. rewrite Q, a_steps_add, Hn. exact Hk.
    + destruct (IH _ _ _ (SWhile c s :: rest) Q1) as [n Hn]; [discriminate|]. exists (S n). cbn [a_steps a_step]. rewrite Q, Hn. now subst r.
    + destruct (IH _ _ _ (SWhile c s :: rest) Q1) as [n Hn]; [discriminate|]. exists (S n). cbn [a_steps a_step]. rewrite Q, Hn. now subst r.
Qed.
Lemma runs_all_one fuel s st : runs_all fuel [s] st = runs fuel s st.
Proof. cbn [runs_all]. destruct (runs fuel s st) as [[st'|]| |]; reflexivity. Qed.
(** C71: taking a program step by step comes to the same as running it: it ends in a state, misuses a pointer or reads something unset in
    one way exactly if it does so in the other. *)
Lemma c71_small_steps_pf : forall s st,
  (forall st', (exists fuel, runs fuel s st = Fine (Some st')) <-> (exists n, a_steps n [s] st = Fine ([], st'))) /\
  ((exists fuel, runs fuel s st = Misused) <-> (exists n, a_steps n [s] st = Misused)) /\
  ((exists fuel, runs fuel s st = Unset) <-> (exists n, a_steps n [s] st = Unset)).
Proof.
  intros s st. split; [intros st'|]; [|split]; (split; [intros [fuel H]|intros [n H]]).
  - apply (runs_steps fuel s st _ [] H). discriminate.
  - destruct (a_steps_back n [s] st (Fine (Some st'))) as [fuel R]; [now rewrite H|discriminate|]. exists fuel. now rewrite <- runs_all_one.
  - apply (runs_steps fuel s st _ [] H). discriminate.
  - destruct (a_steps_back n [s] st Misused) as [fuel R]; [now rewrite H|discriminate|]. exists fuel. now rewrite <- runs_all_one.
  - apply (runs_steps fuel s st _ [] H). discriminate.
  - destruct (a_steps_back n [s] st Unset) as [fuel R]; [now rewrite H|discriminate|]. exists fuel. now rewrite <- runs_all_one.
Qed.
Lemma accepted_fine s n : accepted s = true -> exists code st, a_steps n [s] p_state_start = Fine (code, st).
Proof.
  intros H. unfold accepted in H. destruct (check facts_start s) as [G|] eqn:C; [|discriminate H].
  destruct (c71_small_steps_pf s p_state_start) as (_ & M & U). destruct (a_steps n [s] p_state_start) as [[code st]| |] eqn:Q; [eauto| |].
  - destruct (proj2 M (ex_intro _ n Q)) as [fuel R]. destruct (check_ok s facts_start G C fuel p_state_start ok_start) as (r & X & _). congruence.
  - destruct (proj2 U (ex_intro _ n Q)) as [fuel R]. destruct (check_ok s facts_start G C fuel p_state_start ok_start) as (r & X & _). congruence.
Qed.
(** C71: threads running programs that the checker accepts have no undefined behaviour in any schedule. *)
Lemma c71_accepted_pf : forall P A E B envs Zs allocs pads programs m schedule, In A word_alignments -> box_ok A B ->
  (forall i j, fresh_blocks A B (allocs i j)) -> threads_placed A envs Zs m -> (forall i, stmt_within (Zs i) (programs i)) ->
  (forall i, accepted (programs i) = true) ->
  match sys_run P A E B envs allocs pads schedule (sys_start m programs) with
  | Ret sys => forall i, exists st, alone programs i (turns i schedule) = Fine (th_code (sy_thread sys i), st) /\ p_shows A E B (envs i) (Zs i) (now sys i) st
  | Panic => sys_out_of_memory P A E B envs allocs pads schedule (sys_start m programs)
  | UB => False
  end.
Proof.
  intros P A E B envs Zs allocs pads programs m schedule I Bk FB Pl W H.
  pose proof (c71_threads_pf P A E B envs Zs allocs pads programs m schedule I Bk FB Pl W (fun i => accepted_fine (programs i) _ (H i))) as G.
  destruct (sys_run P A E B envs allocs pads schedule (sys_start m programs)); auto. apply G.
Qed.
(** C71: when threads running programs that the checker accepts with nothing left have ended, all memory has been given back. *)
Lemma c71_accepted_clean_pf : forall P A E B envs Zs allocs pads programs m schedule sys, In A word_alignments -> box_ok A B ->
  (forall i j, fresh_blocks A B (allocs i j)) -> threads_placed A envs Zs m -> (forall i, stmt_within (Zs i) (programs i)) ->
  (forall i, accepted_clean (programs i) = true) ->
  sys_run P A E B envs allocs pads schedule (sys_start m programs) = Ret sys -> (forall i, th_code (sy_thread sys i) = [] \/ turns i schedule = O) ->
  forall y, sy_mem sys y = None <-> m y = None.
Proof.
  intros P A E B envs Zs allocs pads programs m schedule sys I Bk FB Pl W H R D.
  assert (H' : forall i, accepted (programs i) = true) by (intros i; specialize (H i); unfold accepted, accepted_clean in *; destruct (check facts_start (programs i)); [reflexivity|discriminate H]).
  pose proof (c71_accepted_pf P A E B envs Zs allocs pads programs m schedule I Bk FB Pl W H') as G. rewrite R in G.
  eapply (c71_no_leak_pf P A E B envs Zs allocs pads programs m schedule sys); eauto. intros i. destruct (G i) as (st & Q & _). eexists _, st. split; [exact Q|]. intros id.
  destruct (D i) as [Dn|Dn]; [|rewrite Dn in Q; cbn in Q; apply fine_inj in Q; apply (f_equal snd) in Q; cbn [snd] in Q; subst st; reflexivity].
  rewrite Dn in Q. specialize (H i). unfold accepted_clean in H. destruct (check facts_start (programs i)) as [F|] eqn:C; [|discriminate H].
  destruct (proj2 (proj1 (c71_small_steps_pf (programs i) p_state_start) st) (ex_intro _ _ Q)) as [fuel X].
  destruct (check_ok (programs i) facts_start F C fuel p_state_start ok_start) as (r & Y & O). rewrite X in Y. apply fine_inj in Y. subst r.
  destruct (hc_object (ps_heap st) id) as [o|] eqn:Z; [|reflexivity]. destruct (ok_all F _ (proj2 O) id o Z) as (g & L & _). destruct (k_own F); [discriminate L|discriminate H].
Qed.

(** ** One thread is the program of [MCProgram] *)
Fixpoint t_steps (P : profile) (A : N) (E : endian) (B : box_layout) (env : p_env) (allocs : nat -> mem -> option N) (pads : nat -> N -> N)
    (n : nat) (code : list c_stmt) (w : p_world) : res (list c_stmt * p_world) :=
  match n with O => Ret (code, w) | S n => '(code', w') <- t_step P A E B env allocs pads code w;; t_steps P A E B env allocs pads n code' w' end.
Fixpoint exec_all (P : profile) (A : N) (E : endian) (B : box_layout) (env : p_env) (allocs : nat -> mem -> option N) (pads : nat -> N -> N)
    (fuel : nat) (code : list c_stmt) (w : p_world) : res (option p_world) :=
  match code with
  | [] => Ret (Some w)
  | s :: rest => r <- exec P A E B env allocs pads fuel s w;; match r with Some w' => exec_all P A E B env allocs pads fuel rest w' | None => Ret None end
  end.
Lemma t_steps_add P A E B env allocs pads n k : forall code w, t_steps P A E B env allocs pads (n + k) code w =
  ('(code', w') <- t_steps P A E B env allocs pads n code w;; t_steps P A E B env allocs pads k code' w').
Proof. induction n as [|n IH]; intros code w; [reflexivity|]. cbn [t_steps Nat.add]. destruct (t_step P A E B env allocs pads code w) as [[code' w']| |]; cbn [bind]; auto. Qed.
Lemma exec_more P A E B env allocs pads fuel : forall s w r, exec P A E B env allocs pads fuel s w = r -> r <> Ret None -> exec P A E B env allocs pads (S fuel) s w = r.
Proof.
  induction fuel as [|fuel IH]; intros s w r H N; [cbn [exec] in H; now destruct N|].
  destruct s as [|o|x c|x a|x a b|s t|c s t|c s]; try exact H.
  - cbn [exec] in H. change (exec P A E B env allocs pads (S (S fuel)) (SSeq s t) w) with
      (r <- exec P A E B env allocs pads (S fuel) s w;; match r with Some w' => exec P A E B env allocs pads (S fuel) t w' | None => Ret None end).
    destruct (exec P A E B env allocs pads fuel s w) as [[w'|]| |] eqn:Q; cbn [bind] in H; [|now destruct N| |]; rewrite (IH _ _ _ Q) by discriminate; cbn [bind]; auto.
  - cbn [exec] in H. change (exec P A E B env allocs pads (S (S fuel)) (SIf c s t) w) with
      (b <- cond_value env w c;; exec P A E B env allocs pads (S fuel) (if b then s else t) w).
    destruct (cond_value env w c) as [b| |]; cbn [bind] in *; auto.
  - cbn [exec] in H. change (exec P A E B env allocs pads (S (S fuel)) (SWhile c s) w) with
      (g <- cond_value env w c;; if (g : bool) then r <- exec P A E B env allocs pads (S fuel) s w;;
         match r with Some w' => exec P A E B env allocs pads (S fuel) (SWhile c s) w' | None => Ret None end else Ret (Some w)).
    destruct (cond_value env w c) as [[]| |]; cbn [bind] in *; auto.
    destruct (exec P A E B env allocs pads fuel s w) as [[w'|]| |] eqn:Q; cbn [bind] in H; [|now destruct N| |]; rewrite (IH _ _ _ Q) by discriminate; cbn [bind]; auto.
Qed.
Lemma exec_all_more P A E B env allocs pads fuel code : forall w r, exec_all P A E B env allocs pads fuel code w = r -> r <> Ret None -> exec_all P A E B env allocs pads (S fuel) code w = r.
Proof.
  induction code as [|s rest IH]; intros w r H N; [exact H|]. cbn [exec_all] in *.
  destruct (exec P A E B env allocs pads fuel s w) as [[w'|]| |] eqn:Q; cbn [bind] in H; [|now destruct N| |]; rewrite (exec_more _ _ _ _ _ _ _ _ _ _ _ Q) by discriminate; cbn [bind]; auto.
Qed.
Lemma t_step_back P A E B env allocs pads fuel code w r :
  ('(code', w') <- t_step P A E B env allocs pads code w;; exec_all P A E B env allocs pads fuel code' w') = r -> r <> Ret None -> exec_all P A E B env allocs pads (S fuel) code w = r.
Proof.
  intros R N. assert (M := fun code w => exec_all_more P A E B env allocs pads fuel code w r).
  destruct code as [|[|o|x c|x a|x a b|s t|c s t|c s] rest]; cbn [t_step bind] in R.
  - exact R.
  - change (exec_all P A E B env allocs pads (S fuel) rest w = r). now apply M.
  - cbn [exec_all exec]. destruct (v_step P A E (p_objects env) o (pw_values w)); cbn [bind] in *; auto.
  - cbn [exec_all exec]. destruct (p_step P A E B env (allocs (pw_tick w)) (pads (pw_tick w)) c w) as [[h v]| |]; cbn [bind] in *; auto.
  - cbn [exec_all exec]. destruct (arg_value (p_objects env) (pw_values w) a) as [v| |]; cbn [bind] in *; auto.
  - cbn [exec_all exec]. destruct (number_value env w a); cbn [bind] in *; auto. destruct (number_value env w b); cbn [bind] in *; auto.
  - cbn [exec_all] in R. change (exec_all P A E B env allocs pads (S fuel) (SSeq s t :: rest) w) with
      (r <- (r <- exec P A E B env allocs pads fuel s w;; match r with Some w' => exec P A E B env allocs pads fuel t w' | None => Ret None end);;
       match r with Some w' => exec_all P A E B env allocs pads (S fuel) rest w' | None => Ret None end).
    destruct (exec P A E B env allocs pads fuel s w) as [[w1|]| |]; cbn [bind] in *; auto. destruct (exec P A E B env allocs pads fuel t w1) as [[w2|]| |]; cbn [bind] in *; auto.
  - change (exec_all P A E B env allocs pads (S fuel) (SIf c s t :: rest) w) with
      (r <- (b <- cond_value env w c;; exec P A E B env allocs pads fuel (if b then s else t) w);;
       match r with Some w' => exec_all P A E B env allocs pads (S fuel) rest w' | None => Ret None end).
    destruct (cond_value env w c) as [b| |]; cbn [bind] in *; auto. cbn [exec_all] in R. destruct (exec P A E B env allocs pads fuel (if b then s else t) w) as [[w2|]| |]; cbn [bind] in *; auto.
  - change (exec_all P A E B env allocs pads (S fuel) (SWhile c s :: rest) w) with
      (r <- (g <- cond_value env w c;; if (g : bool) then r <- exec P A E B env allocs pads fuel s w;;
         match r with Some w' => exec P A E B env allocs pads fuel (SWhile c s) w' | None => Ret None end else Ret (Some w));;
       match r with Some w' => exec_all P A E B env allocs pads (S fuel) rest w' | None => Ret None end).
    destruct (cond_value env w c) as [[]| |]; cbn [bind] in *; auto. cbn [exec_all] in R.
    destruct (exec P A E B env allocs pads fuel s w) as [[w1|]| |]; cbn [bind] in *; auto. destruct (exec P A E B env allocs pads fuel (SWhile c s) w1) as [[w2|]| |]; cbn [bind] in *; auto.
Qed.
Definition t_ended (a : res (list c_stmt * p_world)) : res (option p_world) :=
  match a with Ret ([], w) => Ret (Some w) | Ret (_ :: _, _) => Ret None | Panic => Panic | UB => UB end.
Lemma t_steps_back P A E B env allocs pads n : forall code w r, t_ended (t_steps P A E B env allocs pads n code w) = r -> r <> Ret None -> exists fuel, exec_all P A E B env allocs pads fuel code w = r.
Proof.
  induction n as [|n IH]; intros code w r H N; cbn [t_steps] in H.
  - cbn [t_ended] in H. destruct code as [|s rest]; [exists O; exact H|]. now destruct N.
  - destruct (t_step P A E B env allocs pads code w) as [[code' w']| |] eqn:Q; cbn [bind t_ended] in H.
    + destruct (IH _ _ _ H N) as [fuel R]. exists (S fuel). apply t_step_back; [|exact N]. now rewrite Q.
    + exists 1%nat. apply t_step_back; [|exact N]. now rewrite Q.
    + exists 1%nat. apply t_step_back; [|exact N]. now rewrite Q.
Qed.
Definition t_rest (r : res (option p_world)) (rest : list c_stmt) : res (list c_stmt * p_world) :=
  match r with Ret (Some w) => Ret (rest, w) | Ret None => UB | Panic => Panic | UB => UB end.
Lemma exec_steps P A E B env allocs pads fuel : forall s w r rest, exec P A E B env allocs pads fuel s w = r -> r <> Ret None -> exists n, t_steps P A E B env allocs pads n (s :: rest) w = t_rest r rest.
Proof.
  induction fuel as [|fuel IH]; intros s w r rest H N; [cbn [exec] in H; now destruct N|].
  destruct s as [|o|x c|x a|x a b|s t|c s t|c s]; cbn [exec] in H.
  - exists 1%nat. subst r. reflexivity.
  - exists 1%nat. subst r. cbn [t_steps t_step]. destruct (v_step P A E (p_objects env) o (pw_values w)); reflexivity.
  - exists 1%nat. subst r. cbn [t_steps t_step]. destruct (p_step P A E B env (allocs (pw_tick w)) (pads (pw_tick w)) c w) as [[h v]| |]; reflexivity.
  - exists 1%nat. subst r. cbn [t_steps t_step]. destruct (arg_value (p_objects env) (pw_values w) a); reflexivity.
  - exists 1%nat. subst r. cbn [t_steps t_step]. destruct (number_value env w a); cbn [bind]; [|reflexivity|reflexivity]. destruct (number_value env w b); reflexivity.
  - destruct (exec P A E B env allocs pads fuel s w) as [[w1|]| |] eqn:Q; cbn [bind] in H; [|now destruct N| |].
    + destruct (IH _ _ _ (t :: rest) Q) as [n Hn]; [discriminate|]. destruct (IH _ _ _ rest H N) as [k Hk]. exists (S (n + k)). cbn [t_steps t_step bind]. rewrite t_steps_add, Hn. exact Hk.
    + destruct (IH _ _ _ (t :: rest) Q) as [n Hn]; [discriminate|]. exists (S n). cbn [t_steps t_step bind]. rewrite Hn. now subst r.
    + destruct (IH _ _ _ (t :: rest) Q) as [n Hn]; [discriminate|]. exists (S n). cbn [t_steps t_step bind]. rewrite Hn. now subst r.
  - destruct (cond_value env w c) as [b| |] eqn:Q; cbn [bind] in H; [|exists 1%nat; cbn [t_steps t_step]; rewrite Q; now subst r|exists 1%nat; cbn [t_steps t_step]; rewrite Q; now subst r].
    destruct (IH _ _ _ rest H N) as [n Hn]; exists (S n); cbn [t_steps t_step]; rewrite Q; exact Hn.
  - destruct (cond_value env w c) as [b| |] eqn:Q; cbn [bind] in H; [|exists 1%nat; cbn [t_steps t_step]; rewrite Q; now subst r|exists 1%nat; cbn [t_steps t_step]; rewrite Q; now subst r].
    destruct b; [|exists 1%nat; cbn [t_steps t_step]; rewrite Q; now subst r].
    destruct (exec P A E B env allocs pads fuel s w) as [[w1|]| |] eqn:Q1; cbn [bind] in H; [|now destruct N| |].
    + destruct (IH _ _ _ (SWhile c s :: rest) Q1) as [n Hn]; [discriminate|]. destruct (IH _ _ _ rest H N) as [k Hk]. exists (S (n + k)). cbn [t_steps t_step]. rewrite Q. cbn [bind]. rewrite t_steps_add, Hn. exact Hk.
    + destruct (IH _ _ _ (SWhile c s :: rest) Q1) as [n Hn]; [discriminate|]. exists (S n). cbn [t_steps t_step]. rewrite Q. cbn [bind]. rewrite Hn. now subst r.
    + destruct (IH _ _ _ (SWhile c s :: rest) Q1) as [n Hn]; [discriminate|]. exists (S n). cbn [t_steps t_step]. rewrite Q. cbn [bind]. rewrite Hn. now subst r.
Qed.
Lemma with_shared_self w : with_shared (w_mem (pw_heap w)) w = w.
Proof. destruct w as [[? ? ? ?] ? ?]. reflexivity. Qed.
Lemma sys_run_one P A E B envs allocs pads i n : forall sys, sy_mem sys = w_mem (pw_heap (th_world (sy_thread sys i))) ->
  match t_steps P A E B (envs i) (allocs i) (pads i) n (th_code (sy_thread sys i)) (th_world (sy_thread sys i)) with
  | Ret (code, w) => exists sys', sys_run P A E B envs allocs pads (repeat i n) sys = Ret sys' /\ sy_thread sys' i = Thread code w
  | Panic => sys_run P A E B envs allocs pads (repeat i n) sys = Panic
  | UB => sys_run P A E B envs allocs pads (repeat i n) sys = UB
  end.
Proof.
  induction n as [|n IH]; intros sys M; cbn [t_steps repeat sys_run].
  - exists sys. split; [reflexivity|]. now destruct (sy_thread sys i).
  - unfold sys_step. rewrite M, with_shared_self. destruct (t_step P A E B (envs i) (allocs i) (pads i) _ _) as [[code w]| |]; cbn [bind]; [|reflexivity|reflexivity].
    set (sys1 := System (w_mem (pw_heap w)) (fun j => if Nat.eqb j i then Thread code w else sy_thread sys j)).
    assert (T : sy_thread sys1 i = Thread code w) by (unfold sys1; cbn [sy_thread]; now rewrite Nat.eqb_refl).
    specialize (IH sys1). rewrite T in IH. cbn [th_code th_world] in IH. apply IH. reflexivity.
Qed.
(** C71: a single thread does what the program of [C66] does. *)
Lemma c71_single_pf : forall P A E B envs allocs pads programs m i,
  let runs_to := fun r => exists fuel, exec P A E B (envs i) (allocs i) (pads i) fuel (programs i) (p_start m) = r in
  let system n := sys_run P A E B envs allocs pads (repeat i n) (sys_start m programs) in
  (forall w, runs_to (Ret (Some w)) <-> exists n sys, system n = Ret sys /\ sy_thread sys i = Thread [] w) /\
  (runs_to Panic <-> exists n, system n = Panic) /\ (runs_to UB <-> exists n, system n = UB).
Proof.
  intros P A E B envs allocs pads programs m i runs_to system.
  assert (S0 := fun n => sys_run_one P A E B envs allocs pads i n (sys_start m programs) eq_refl). cbn [sys_start sy_thread th_code th_world] in S0.
  assert (F : forall r, r <> Ret None -> runs_to r -> exists n, t_steps P A E B (envs i) (allocs i) (pads i) n [programs i] (p_start m) = t_rest r []).
  { intros r N [fuel H]. exact (exec_steps _ _ _ _ _ _ _ fuel _ _ r [] H N). }
  assert (G : forall r n, r <> Ret None -> t_ended (t_steps P A E B (envs i) (allocs i) (pads i) n [programs i] (p_start m)) = r -> runs_to r).
  { intros r n N H. destruct (t_steps_back _ _ _ _ _ _ _ _ _ _ _ H N) as [fuel R]. exists fuel. rewrite <- R. cbn [exec_all].
    destruct (exec P A E B (envs i) (allocs i) (pads i) fuel (programs i) (p_start m)) as [[w'|]| |]; reflexivity. }
  split; [intros w|]; [|split]; (split; intros H).
  - apply F in H; [|discriminate]. destruct H as [n H]. specialize (S0 n). rewrite H in S0. cbn [t_rest] in S0. destruct S0 as (sys & R & T). exists n, sys. auto.
  - destruct H as (n & sys & R & T). apply (G _ n); [discriminate|]. specialize (S0 n). unfold system in R. rewrite R in S0.
    destruct (t_steps P A E B (envs i) (allocs i) (pads i) n [programs i] (p_start m)) as [[code w']| |]; [|discriminate S0|discriminate S0].
    destruct S0 as (sys' & Q & T'). apply ret_inj in Q. subst sys'. rewrite T in T'. injection T' as <- <-. reflexivity.
  - apply F in H; [|discriminate]. destruct H as [n H]. specialize (S0 n). rewrite H in S0. exists n. exact S0.
  - destruct H as (n & R). apply (G _ n); [discriminate|]. specialize (S0 n). unfold system in R. rewrite R in S0.
    destruct (t_steps P A E B (envs i) (allocs i) (pads i) n [programs i] (p_start m)) as [[code w']| |]; [|reflexivity|discriminate S0]. destruct S0 as (sys' & Q & _). discriminate Q.
  - apply F in H; [|discriminate]. destruct H as [n H]. specialize (S0 n). rewrite H in S0. exists n. exact S0.
  - destruct H as (n & R). apply (G _ n); [discriminate|]. specialize (S0 n). unfold system in R. rewrite R in S0.
    destruct (t_steps P A E B (envs i) (allocs i) (pads i) n [programs i] (p_start m)) as [[code w']| |]; [|discriminate S0|reflexivity]. destruct S0 as (sys' & Q & _). discriminate Q.
Qed.
