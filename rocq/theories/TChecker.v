(** Implementors of [LegalityChecker] with a state, and with provided methods of their own. *)
From Verif Require Export SpecChecker TLegal LSample.
(*PROPHEAD
Property theorems C81: LegalityChecker implementors with a state
From Verif Require Import LSample LSampleK.
*)

Lemma status_split st : ps_eqb st PSInProgress = match st with PSInProgress => true | _ => false end.
Proof. now destruct st. Qed.
Lemma debug_assert_some P (A : Type) (x : res A) : (debug_assert P true;;; x) = x.
Proof. unfold debug_assert. now destruct P. Qed.

(** ** One call *)
(** C81: the provided methods ask for the status first, with the state they were given, and go on with the state it left; a finished
    game makes no move legal, whatever the other methods would say. *)
Lemma c81_status_first_pf : forall S (P : profile) (I : implementor S) p m s s1 st, replaces_nothing I -> i_status I p s = Ret (s1, st) ->
  if ps_eqb st PSInProgress then
    i_is_legal I p m s = i_is_legal_partial I (inner p) m s1 /\
    i_is_legal_lite I p m s = i_is_legal_partial_lite I (inner p) m s1 /\
    i_all_legal_moves I p s = i_all_legal_moves_partial I (inner p) s1
  else
    i_is_legal I p m s = Ret (s1, RErr GameFinished) /\
    i_is_legal_lite I p m s = Ret (s1, false) /\
    i_all_legal_moves I p s = Ret (s1, []) /\
    i_make_move P I p m s = Ret (s1, p, RErr GameFinished).
Proof.
  intros S P I p m s s1 st (H1 & H2 & H3 & H4) E. unfold i_make_move, i_is_legal, i_is_legal_lite, i_all_legal_moves. rewrite H1, H2, H3, H4, E. cbn [bind].
  destruct (ps_eqb st PSInProgress); cbn [negb bind]; auto.
Qed.
(** C81: [make_move] left in place asks [is_legal] once, leaves the state as that call left it, gives that answer, and changes the
    position only after an Ok. An own [is_legal] is the one that is asked. *)
Lemma c81_make_move_answer_pf : forall S P (I : implementor S) p m s s' p' r, o_make_move I = None -> i_make_move P I p m s = Ret (s', p', r) ->
  i_is_legal I p m s = Ret (s', r) /\ (r <> ROk -> p' = p) /\ (r = ROk -> exists o, pos_make_move P p m = Ret (p', o) /\ (debug_assertions P = true -> o = Some tt)).
Proof.
  intros S P I p m s s' p' r H. unfold i_make_move. rewrite H. destruct (i_is_legal I p m s) as [[s1 [|e]]| |]; cbn [bind]; try discriminate.
  - destruct (pos_make_move P p m) as [[q o]| |] eqn:M; cbn [bind]; try discriminate. intros E.
    assert (E' : s1 = s' /\ q = p' /\ ROk = r /\ (debug_assertions P = true -> o = Some tt)).
    { unfold debug_assert in E. destruct o as [[]|], P; cbn [is_some bind debug_assertions] in *; try discriminate; injection E as -> -> <-; repeat split; easy. }
    destruct E' as (-> & -> & <- & O). split; auto. split; [congruence|]. intros _. eauto.
  - intros [= <- <- <-]. split; auto. split; auto. congruence.
Qed.
(** C81: all other calls leave the position alone. *)
Lemma c81_queries_pf : forall S P (I : implementor S) q p s s' p' a, (forall m, q <> LMake m) -> ask P I q p s = Ret (s', p', a) -> p' = p.
Proof.
  intros S P I q p s s' p' a N. destruct q; cbn [ask]; try (exfalso; now eapply N);
    unfold as_answer; match goal with |- context [bind ?x _] => destruct x as [[? ?]| |] end; cbn [bind]; try discriminate; congruence.
Qed.
(** C81: an implementor that calls a move legal that cannot be made: a panic with debug assertions, a wrong Ok without. *)
Lemma c81_broken_promise_pf : forall S P (I : implementor S) p m s s', o_make_move I = None -> i_is_legal I p m s = Ret (s', ROk) ->
  pos_make_move P p m = Ret (p, None) ->
  i_make_move P I p m s = if debug_assertions P then Panic else Ret (s', p, ROk).
Proof. intros S P I p m s s' H E M. unfold i_make_move. rewrite H, E. cbn [bind]. rewrite M. destruct P; reflexivity. Qed.

(** C81: a provided method that is replaced is replaced for good: nothing is asked before it, and the [make_move] that is left in place
    asks the own [is_legal]. *)
Lemma c81_own_methods_pf : forall S P (I : implementor S) p m s,
  (forall own, o_is_legal I = Some own -> i_is_legal I p m s = own p m s /\
     (o_make_move I = None ->
      match own p m s with
      | Ret (s', RErr e) => i_make_move P I p m s = Ret (s', p, RErr e)
      | Ret (s', ROk) => forall p', pos_make_move P p m = Ret (p', Some tt) -> i_make_move P I p m s = Ret (s', p', ROk)
      | Panic => i_make_move P I p m s = Panic
      | UB => i_make_move P I p m s = UB
      end)) /\
  (forall own, o_is_legal_lite I = Some own -> i_is_legal_lite I p m s = own p m s) /\
  (forall own, o_all_legal_moves I = Some own -> i_all_legal_moves I p s = own p s) /\
  (forall own, o_make_move I = Some own -> i_make_move P I p m s = own p m s).
Proof.
  intros S P I p m s. repeat split; intros; unfold i_make_move, i_is_legal, i_is_legal_lite, i_all_legal_moves; rewrite ?H, ?H0; auto.
  destruct (own p m s) as [[s' [|e]]| |]; cbn [bind]; auto. intros p' E. rewrite E. cbn [bind is_some]. apply debug_assert_some.
Qed.

(** ** Sessions *)
Lemma honest_step S P (I : implementor S) q p s : i_answers P I -> i_honest P I -> o_make_move I = None -> reachable P (inner p) -> valid_lq q ->
  exists s' p' a, ask P I q p s = Ret (s', p', a) /\ initial_position p' = initial_position p /\
    ((forall l qs, made (q :: qs) (a :: l) = made qs l) /\ p' = p \/
     exists m, q = LMake m /\ a = AResult ROk /\ moves p' = moves p ++ [m] /\ make_move P m (inner p) = Ret (inner p', Some tt)).
Proof.
  intros (A1 & A2) Hon HM R V. destruct (A1 p R) as (B1 & B2 & B3). destruct (A2 (inner p) R) as (C1 & C2 & C3 & C4 & C5 & C6).
  destruct q; cbn [ask valid_lq] in *;
    try (match goal with |- context [as_answer ?f p (?m s)] => assert (An : answers m) by
           (first [apply B1|apply B2|now apply B3|apply C1|apply C2|now apply C3|now apply C4|apply C5; apply V|now apply C6]);
         destruct (An s) as (s' & a & E); rewrite E; exists s', p, (f a); split; [reflexivity|split; [reflexivity|left; split; reflexivity]] end).
  unfold i_make_move. rewrite HM. destruct (proj1 (B3 m V) s) as (s' & r & E). rewrite E. cbn [bind]. destruct r as [|e].
  - destruct (Hon p m s s' R V E) as (q & Hq). rewrite Hq. cbn [bind is_some]. exists s', q, (AResult ROk). rewrite debug_assert_some. split; [reflexivity|].
    unfold pos_make_move in Hq. destruct (make_move P m (pos_inner p)) as [[x o]| |] eqn:M; cbn [bind] in Hq; try discriminate.
    destruct o as [[]|]; try discriminate. injection Hq as <-. split; [reflexivity|]. right. exists m. repeat split; auto.
  - exists s', p, (AResult (RErr e)). split; [reflexivity|]. split; [reflexivity|]. left. split; reflexivity.
Qed.
(** C81: any calls, in any order, on an implementor that answers and keeps its promise: no panic; the initial position stays; the
    record holds exactly the moves that [make_move] answered with Ok, and replaying them leads to the position reached. *)
Lemma c81_session_pf : forall S P (I : implementor S) s0 qs s, i_answers P I -> i_honest P I -> o_make_move I = None ->
  reachable P s0 -> Forall valid_lq qs ->
  exists s' p l, session P I qs (arbitrary_position s0) s = Ret (s', p, l) /\ length l = length qs /\
    initial_position p = s0 /\ moves p = made qs l /\
    run_ops P s0 (map OpMove (moves p)) = Ret (inner p, repeat true (length (moves p))).
Proof.
  intros S P I s0 qs s An Hon HM R0 V. pose proof (reachable_wf P s0 R0) as W0.
  assert (G : forall qs, Forall valid_lq qs -> forall p s, Forall valid_move (moves p) ->
    run_ops P s0 (map OpMove (moves p)) = Ret (inner p, repeat true (length (moves p))) ->
    exists s' p' l, session P I qs p s = Ret (s', p', l) /\ length l = length qs /\
      initial_position p' = initial_position p /\ moves p' = moves p ++ made qs l /\
      run_ops P s0 (map OpMove (moves p')) = Ret (inner p', repeat true (length (moves p')))).
  { clear qs V s. induction qs as [|q qs IH]; intros V p s Vp Hp.
    - exists s, p, []. cbn [made]. rewrite app_nil_r. auto.
    - inversion_clear V as [|? ? V1 V2].
      assert (R : reachable P (inner p)).
      { destruct R0 as (i & os & bs & I0 & Vo & Hr). exists i, (os ++ map OpMove (moves p)), (bs ++ repeat true (length (moves p))). split; auto.
        split; [apply Forall_app; split; auto; now apply moves_valid|].
        assert (Wi : wf i) by (apply (reachable_wf P); exists i, [], []; auto).
        rewrite run_ops_ok in *; auto; [|now apply moves_valid|apply Forall_app; split; auto; now apply moves_valid].
        injection Hr as Hr. injection Hp as Hp. now rewrite do_ops_app, Hr, Hp. }
      destruct (honest_step S P I q p s An Hon HM R V1) as (s1 & p1 & a & E & Ini & D). cbn [session]. rewrite E. cbn [bind].
      destruct D as [[D ->]|(m & -> & -> & D2 & D3)].
      + destruct (IH V2 p s1 Vp Hp) as (s2 & p2 & l & A1 & A2 & A3 & A4 & A5). exists s2, p2, (a :: l). rewrite A1. cbn [bind].
        split; [reflexivity|]. split; [cbn; now rewrite A2|]. split; [congruence|]. rewrite D. auto.
      + cbn [valid_lq] in V1. destruct (IH V2 p1 s1) as (s2 & p2 & l & A1 & A2 & A3 & A4 & A5).
        * rewrite D2. apply Forall_app. auto.
        * rewrite D2, map_app. rewrite run_ops_ok in * by (rewrite ?D2; auto; try apply moves_valid; try apply Forall_app; auto).
          rewrite run_ops_ok; auto; [|rewrite <- map_app; apply moves_valid, Forall_app; auto].
          injection Hp as Hp. rewrite do_ops_app, Hp. cbn [map do_ops do_op]. unfold try_move.
          rewrite make_move_ok in D3 by (auto; now apply (reachable_wf P)). destruct (do_move (inner p) m) as [s'|]; [|discriminate].
          injection D3 as ->. rewrite app_length, repeat_app. reflexivity.
        * exists s2, p2, (AResult ROk :: l). rewrite A1. cbn [bind]. split; [reflexivity|]. split; [cbn; now rewrite A2|]. split; [congruence|]. split; auto.
          rewrite A4, D2, <- app_assoc. reflexivity. }
  destruct (G qs V (arbitrary_position s0) s (Forall_nil _) eq_refl) as (s' & p & l & A1 & A2 & A3 & A4 & A5). exists s', p, l. auto.
Qed.

(** ** Which calls are made *)
Lemma noted_ret S A (c : call) (m : sm S A) s l : noted c m (s, l) = '(s', a) <- m s;; Ret ((s', l ++ [c]), a).
Proof. reflexivity. Qed.
(** C81: the provided methods call the implementor exactly as follows: [status] once, and then, only while the game is in progress,
    the method for [inner()] once; [make_move] makes the calls of [is_legal], no more. Nothing else is called. *)
Lemma c81_calls_pf : forall S P (I : implementor S) q p s l s' p' a, replaces_nothing I -> ask P I q p s = Ret (s', p', a) ->
  exists st, ask P (watched I) q p (s, l) = Ret ((s', l ++ calls_of q p st), p', a) /\
    (In (CStatus p) (calls_of q p st) -> exists s1, i_status I p s = Ret (s1, st)).
Proof.
  intros S P I q p s l s' p' a (H1 & H2 & H3 & H4) E.
  destruct q; cbn [ask calls_of] in *; unfold i_make_move, i_is_legal, i_is_legal_lite, i_all_legal_moves in *;
    rewrite ?H1, ?H2, ?H3, ?H4 in E;
    cbn [watched o_is_legal o_is_legal_lite o_all_legal_moves o_make_move i_status i_status_partial i_is_legal_partial i_is_legal_partial_lite
         i_all_legal_moves_partial i_normal_from_candidates i_normal_to_candidates i_drop_candidates] in *; rewrite ?noted_ret;
  lazymatch goal with
  | |- context [CStatus p :: match _ with _ => _ end] =>
      destruct (i_status I p s) as [[s1 st]| |] eqn:St; cbn [bind as_answer] in *; try discriminate; exists st; rewrite status_split in *;
      (split; [|intros _; eauto]); destruct st; cbn [negb bind] in *; try (injection E as <- <- <-; reflexivity)
  | |- context [[CStatus p]] => unfold as_answer in *; destruct (i_status I p s) as [[s1 st]| |] eqn:St; cbn [bind] in *; try discriminate; exists st; (split; [|eauto]); injection E as <- <- <-; reflexivity
  | |- _ => unfold as_answer in *; exists PSInProgress; (split; [|intros [X|[]]; discriminate X]);
      match type of E with context [bind ?x _] => destruct x as [[? ?]| |] end; cbn [bind] in *; try discriminate; injection E as <- <- <-; reflexivity
  end.
  all: unfold as_answer in *; rewrite ?noted_ret.
  1-3: match type of E with context [bind ?x _] => destruct x as [[? ?]| |] end; cbn [bind] in *; try discriminate; rewrite <- app_assoc; injection E as <- <- <-; reflexivity.
  destruct (i_is_legal_partial I (inner p) m s1) as [[s2 r]| |]; cbn [bind] in *; try discriminate. rewrite <- app_assoc. cbn [app].
  destruct r as [|e]; cbn [bind] in *; [|injection E as <- <- <-; reflexivity].
  destruct (pos_make_move P p m) as [[q o]| |]; cbn [bind] in *; try discriminate.
  destruct (debug_assert P (is_some o)) as [[]| |]; cbn [bind] in *; try discriminate. injection E as <- <- <-. reflexivity.
Qed.

(** ** Answers that do not depend on the state *)
Lemma gives_as {A S} (Inv : S -> Prop) (m : sm S A) (r : res A) (f : A -> la) p s : gives Inv m r -> Inv s ->
  match r with
  | Ret a => exists s', Inv s' /\ as_answer f p (m s) = Ret (s', p, f a)
  | Panic => as_answer f p (m s) = Panic
  | UB => as_answer f p (m s) = UB
  end.
Proof.
  intros G Is. specialize (G s Is). destruct r as [a| |]; unfold as_answer; [|now rewrite G|now rewrite G].
  destruct G as (s' & Is' & E). rewrite E. cbn [bind]. eauto.
Qed.
Lemma gives_guard {A S} (Inv : S -> Prop) (m : sm S position_status) (r : res position_status) (d : A) (n : sm S A) (rn : res A) :
  gives Inv m r -> gives Inv n rn ->
  gives Inv (fun s => '(s, st) <- m s;; if negb (ps_eqb st PSInProgress) then Ret (s, d) else n s)
    (st <- r;; if negb (ps_eqb st PSInProgress) then Ret d else rn).
Proof.
  intros G K s Is. specialize (G s Is). destruct r as [a| |]; cbn [bind]; [|now rewrite G|now rewrite G].
  destruct G as (s' & Is' & E). rewrite E. cbn [bind]. destruct (negb (ps_eqb a PSInProgress)); [eauto|exact (K s' Is')].
Qed.
Definition ask_gives {S} (Inv : S -> Prop) (x : S -> res (S * position * la)) (r : res (position * la)) : Prop :=
  forall s, Inv s -> match r with Ret (p, a) => exists s', Inv s' /\ x s = Ret (s', p, a) | Panic => x s = Panic | UB => x s = UB end.
Lemma gives_ask {A S} (Inv : S -> Prop) (m : sm S A) (r : res A) (f : A -> la) p : gives Inv m r ->
  ask_gives Inv (fun s => as_answer f p (m s)) (a <- r;; Ret (p, f a)).
Proof. intros G s Is. pose proof (gives_as Inv m r f p s G Is) as X. destruct r; cbn [bind]; exact X. Qed.
Lemma ask_as S P (Inv : S -> Prop) (I : implementor S) L q p : replaces_nothing I -> answers_as Inv I L -> ask_gives Inv (ask P I q p) (ask_pure P L q p).
Proof.
  intros (H1 & H2 & H3 & H4) (A1 & A2 & A3 & A4 & A5 & A6 & A7 & A8).
  assert (Leg : forall m, gives Inv (i_is_legal I p m) (lc_is_legal L p m)).
  { intros m. unfold i_is_legal, lc_is_legal. rewrite H1. apply gives_guard; auto. }
  assert (Lite : forall m, gives Inv (i_is_legal_lite I p m) (lc_is_legal_lite L p m)).
  { intros m. unfold i_is_legal_lite, lc_is_legal_lite. rewrite H2. apply gives_guard; auto. }
  assert (All : gives Inv (i_all_legal_moves I p) (lc_all_legal_moves L p)).
  { unfold i_all_legal_moves, lc_all_legal_moves. rewrite H3. apply gives_guard; auto. }
  destruct q; cbn [ask ask_pure]; try (apply gives_ask; auto).
  intros s Is. cbn [ask]. unfold i_make_move, lc_make_move. rewrite H4. specialize (Leg m s Is). destruct (lc_is_legal L p m) as [r| |]; cbn [bind]; [|now rewrite Leg|now rewrite Leg].
  destruct Leg as (s' & Is' & E). rewrite E. cbn [bind]. destruct r as [|e]; cbn [bind]; [|eauto].
  destruct (pos_make_move P p m) as [[q o]| |]; cbn [bind]; auto. destruct (debug_assert P (is_some o)) as [[]| |]; cbn [bind]; eauto.
Qed.
(** C81: an implementor whose state never shows in its answers (a cache, a counter) is, for its user, one without state: the same
    answers, the same positions, the same panics in every session. *)
Lemma c81_cache_pf : forall S P (Inv : S -> Prop) (I : implementor S) L qs p s, replaces_nothing I -> answers_as Inv I L -> Inv s ->
  match session_pure P L qs p with
  | Ret (p', l) => exists s', Inv s' /\ session P I qs p s = Ret (s', p', l)
  | Panic => session P I qs p s = Panic
  | UB => session P I qs p s = UB
  end.
Proof.
  intros S P Inv I L qs p s H A. revert p s. induction qs as [|q qs IH]; intros p s Is; cbn [session session_pure]; [eauto|].
  pose proof (ask_as S P Inv I L q p H A s Is) as E. destruct (ask_pure P L q p) as [[p1 a]| |]; cbn [bind]; [|now rewrite E|now rewrite E].
  destruct E as (s1 & I1 & E). rewrite E. cbn [bind]. specialize (IH p1 s1 I1). destruct (session_pure P L qs p1) as [[p2 l]| |]; cbn [bind].
  - destruct IH as (s2 & I2 & E2). rewrite E2. cbn [bind]. eauto.
  - now rewrite IH.
  - now rewrite IH.
Qed.
(** C81: the implementors of the other theorems are those without state. *)
Lemma c81_stateless_pf : forall P L p m,
  i_is_legal (stateless L) p m tt = (r <- lc_is_legal L p m;; Ret (tt, r)) /\
  i_is_legal_lite (stateless L) p m tt = (r <- lc_is_legal_lite L p m;; Ret (tt, r)) /\
  i_all_legal_moves (stateless L) p tt = (r <- lc_all_legal_moves L p;; Ret (tt, r)) /\
  i_make_move P (stateless L) p m tt = ('(p', r) <- lc_make_move P L p m;; Ret (tt, p', r)).
Proof.
  intros P L p m. unfold i_make_move, lc_make_move, i_is_legal, i_is_legal_lite, i_all_legal_moves, lc_is_legal, lc_is_legal_lite, lc_all_legal_moves.
  cbn [stateless o_is_legal o_is_legal_lite o_all_legal_moves o_make_move i_status i_is_legal_partial i_is_legal_partial_lite i_all_legal_moves_partial].
  destruct (lc_status L p) as [st| |]; cbn [bind]; auto. destruct (negb (ps_eqb st PSInProgress)); cbn [bind]; auto. do 3 (split; [reflexivity|]).
  destruct (lc_is_legal_partial L (inner p) m) as [[|e]| |]; cbn [bind]; auto. destruct (pos_make_move P p m) as [[q o]| |]; cbn [bind]; auto.
  destruct (debug_assert P (is_some o)) as [[]| |]; cbn [bind]; auto.
Qed.

(** ** What is not promised *)
(** the checker [referee] with a state: it says no to every second question *)
Definition fickle (P : profile) : implementor bool :=
  Implementor (fun _ b => Ret (b, PSInProgress)) (fun _ b => Ret (b, PSInProgress))
    (fun x m b => '(_, o) <- make_move P m x;; Ret (negb b, if b && is_some o then ROk else RErr IncorrectMove))
    (fun x m b => '(_, o) <- make_move P m x;; Ret (negb b, b && is_some o))
    (fun _ b => Ret (b, [])) (fun _ _ b => Ret (b, bb_empty)) (fun _ _ _ b => Ret (b, bb_empty)) (fun _ _ b => Ret (b, bb_empty)) None None None None.
(** a checker whose own [make_move] says Ok and starts the game again *)
Definition restarting (P : profile) : implementor unit :=
  let I := stateless (referee P) in
  Implementor (i_status I) (i_status_partial I) (i_is_legal_partial I) (i_is_legal_partial_lite I) (i_all_legal_moves_partial I)
    (i_normal_from_candidates I) (i_normal_to_candidates I) (i_drop_candidates I) None None None
    (Some (fun p m s => Ret (s, arbitrary_position (initial_position p), ROk))).
Ltac answer := first [let s := fresh in intros s; eexists _, _; reflexivity].
Lemma fickle_ok P : i_answers P (fickle P) /\ i_honest P (fickle P).
Proof.
  assert (M : forall x m, reachable P x -> valid_move m -> make_move P m x = Ret (match do_move x m with Some y => (y, Some tt) | None => (x, None) end)).
  { intros x m R V. rewrite make_move_ok by (auto; now apply (reachable_wf P)). now destruct (do_move x m). }
  assert (L : forall x m, reachable P x -> valid_move m -> answers (i_is_legal_partial (fickle P) x m) /\ answers (i_is_legal_partial_lite (fickle P) x m)).
  { intros x m R V. cbn [fickle i_is_legal_partial i_is_legal_partial_lite]. rewrite (M x m R V).
    split; intros b; cbn [bind]; destruct (do_move x m) as [y|]; eexists _, _; reflexivity. }
  split; [split|].
  - intros p R. split; [answer|]. split; [answer|]. intros m V. exact (L (inner p) m R V).
  - intros x R. split; [answer|]. split; [answer|]. split; [intros m V; exact (L x m R V)|]. split; [intros; answer|]. split; intros; answer.
  - intros p m b b' R V E. unfold i_is_legal in E. cbn [fickle o_is_legal i_status i_is_legal_partial bind negb ps_eqb] in E.
    change (ps_eqb PSInProgress PSInProgress) with true in E. cbn [negb] in E. rewrite (M (inner p) m R V) in E.
    unfold pos_make_move. change (pos_inner p) with (inner p). rewrite (M (inner p) m R V).
    destruct (do_move (inner p) m) as [y|]; cbn [bind is_some] in *; [eauto|]. rewrite andb_false_r in E. discriminate.
Qed.
Lemma restarting_ok P : i_answers P (restarting P) /\ i_honest P (restarting P).
Proof.
  assert (M : forall x m, reachable P x -> valid_move m -> make_move P m x = Ret (match do_move x m with Some y => (y, Some tt) | None => (x, None) end)).
  { intros x m R V. rewrite make_move_ok by (auto; now apply (reachable_wf P)). now destruct (do_move x m). }
  assert (L : forall x m, reachable P x -> valid_move m -> answers (i_is_legal_partial (restarting P) x m) /\ answers (i_is_legal_partial_lite (restarting P) x m)).
  { intros x m R V. cbn [restarting stateless referee lc_is_legal_partial lc_is_legal_partial_lite i_is_legal_partial i_is_legal_partial_lite]. rewrite (M x m R V).
    split; intros b; cbn [bind]; destruct (do_move x m) as [y|]; eexists _, _; reflexivity. }
  split; [split|].
  - intros p R. split; [answer|]. split.
    { intros s. unfold i_all_legal_moves. cbn [restarting stateless referee o_all_legal_moves i_status lc_status i_all_legal_moves_partial lc_all_legal_moves_partial bind].
      destruct (negb (ps_eqb _ PSInProgress)); eexists _, _; reflexivity. }
    intros m V. destruct (L (inner p) m R V) as [L1 L2].
    split; intros s; unfold i_is_legal, i_is_legal_lite; cbn [restarting stateless o_is_legal o_is_legal_lite i_status bind];
      cbn [referee lc_status bind]; destruct (negb (ps_eqb _ PSInProgress)); [eexists _, _; reflexivity|apply L1|eexists _, _; reflexivity|apply L2].
  - intros x R. split; [answer|]. split; [answer|]. split; [intros m V; exact (L x m R V)|]. split; [intros; answer|]. split; intros; answer.
  - intros p m s s' R V E. unfold i_is_legal in E. cbn [restarting stateless o_is_legal i_status bind] in E. cbn [referee lc_status bind] in E.
    destruct (negb (ps_eqb _ PSInProgress)); [discriminate|]. cbn [restarting stateless referee i_is_legal_partial lc_is_legal_partial] in E. rewrite (M (inner p) m R V) in E.
    unfold pos_make_move. change (pos_inner p) with (inner p). rewrite (M (inner p) m R V).
    destruct (do_move (inner p) m) as [y|]; cbn [bind is_some] in *; [eauto|]. discriminate.
Qed.
(** C81: "a move that [is_legal] has just called legal is one that [make_move] makes" is false of implementors with a state, even of
    those that answer, keep their promise and replace nothing. *)
Lemma c81_two_questions_refuted_pf : exists S (I : implementor S) p m s s1 s2, (forall P, reachable P (inner p)) /\ valid_move m /\ replaces_nothing I /\
  i_answers Debug I /\ i_honest Debug I /\
  i_is_legal I p m s = Ret (s1, ROk) /\ i_make_move Debug I p m s1 = Ret (s2, p, RErr IncorrectMove).
Proof.
  exists bool, (fickle Debug), (arbitrary_position the_startpos), (Normal (Square 61) (Square 60) false), true, false, true.
  split; [intros P; apply start_reachable|]. split; [repeat split; discriminate|]. split; [repeat split|]. split; [apply fickle_ok|]. split; [apply fickle_ok|].
  split; vm_compute; reflexivity.
Qed.
(** C81: and with an own [make_move] the record need not hold the moves answered with Ok. *)
Lemma c81_own_make_move_refuted_pf : exists (I : implementor unit) s0 qs p l, reachable Debug s0 /\ Forall valid_lq qs /\ i_answers Debug I /\ i_honest Debug I /\
  session Debug I qs (arbitrary_position s0) tt = Ret (tt, p, l) /\ length (made qs l) = 2%nat /\ moves p = [].
Proof.
  exists (restarting Debug), the_startpos, [LMake (Normal (Square 61) (Square 60) false); LMake (Normal (Square 21) (Square 22) false)].
  eexists _, _. split; [apply start_reachable|]. split; [repeat constructor; discriminate|]. split; [apply restarting_ok|]. split; [apply restarting_ok|].
  split; [reflexivity|]. split; reflexivity.
Qed.
