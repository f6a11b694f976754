(** Proofs of the property theorems on [LegalityChecker] (restated in Prop_Legal.v). *)
From Verif Require Export SpecLegal TGame.
(*PROPHEAD
Property theorems C45: LegalityChecker
From Verif Require Import LSample.
*)

(** C45: when the game is over, no move is legal and nothing happens, for every implementor. *)
Lemma c45_finished_pf : forall P L p m st, lc_status L p = Ret st -> st <> PSInProgress ->
  lc_is_legal L p m = Ret (RErr GameFinished) /\
  lc_is_legal_lite L p m = Ret false /\
  lc_all_legal_moves L p = Ret [] /\
  lc_make_move P L p m = Ret (p, RErr GameFinished).
Proof.
  intros P L p m st E H. unfold lc_make_move, lc_is_legal, lc_is_legal_lite, lc_all_legal_moves. rewrite E. cbn [bind].
  assert (N : ps_eqb st PSInProgress = false) by (destruct st; try reflexivity; congruence). rewrite N. auto.
Qed.
(** C45: while it is in progress, the implementor's partial versions decide, on [inner()]. *)
Lemma c45_in_progress_pf : forall L p m, lc_status L p = Ret PSInProgress ->
  lc_is_legal L p m = lc_is_legal_partial L (inner p) m /\
  lc_is_legal_lite L p m = lc_is_legal_partial_lite L (inner p) m /\
  lc_all_legal_moves L p = lc_all_legal_moves_partial L (inner p).
Proof. intros L p m E. unfold lc_is_legal, lc_is_legal_lite, lc_all_legal_moves. rewrite E. auto. Qed.
(** C45: an implementor whose [status] or partial version panics makes the provided methods panic, and nothing else does. *)
Lemma c45_panics_pf : forall L p m,
  (lc_is_legal L p m = Panic <->
     lc_status L p = Panic \/ (lc_status L p = Ret PSInProgress /\ lc_is_legal_partial L (inner p) m = Panic)) /\
  (lc_is_legal_lite L p m = Panic <->
     lc_status L p = Panic \/ (lc_status L p = Ret PSInProgress /\ lc_is_legal_partial_lite L (inner p) m = Panic)) /\
  (lc_all_legal_moves L p = Panic <->
     lc_status L p = Panic \/ (lc_status L p = Ret PSInProgress /\ lc_all_legal_moves_partial L (inner p) = Panic)).
Proof.
  intros L p m. unfold lc_is_legal, lc_is_legal_lite, lc_all_legal_moves.
  destruct (lc_status L p) as [[]| |]; cbn [bind ps_eqb ps_as_u8]; cbn; intuition discriminate.
Qed.
(** C45: [make_move] answers what [is_legal] answers; after an error the position is the old one. *)
Lemma c45_make_move_answer_pf : forall P L p m p' r, lc_make_move P L p m = Ret (p', r) ->
  lc_is_legal L p m = Ret r /\ (r <> ROk -> p' = p).
Proof.
  intros P L p m p' r. unfold lc_make_move. destruct (lc_is_legal L p m) as [[|e]| |]; cbn [bind]; try discriminate.
  - destruct (pos_make_move P p m) as [[q o]| |]; cbn [bind]; try discriminate. unfold debug_assert. destruct P, (is_some o); cbn [bind]; try discriminate;
      intros [= <- <-]; (split; [reflexivity|congruence]).
  - intros [= <- <-]. auto.
Qed.
(** C45: if a legal move succeeds, as the implementor must guarantee, [make_move] answers as [is_legal] does and an Ok advances
    the position by exactly that move. *)
Lemma c45_make_move_pf : forall P L p m r, reachable P (inner p) -> valid_move m -> lc_is_legal L p m = Ret r ->
  (r = ROk -> exists q, pos_make_move P p m = Ret (q, Some tt)) ->
  exists p', lc_make_move P L p m = Ret (p', r) /\
    match r with
    | ROk => initial_position p' = initial_position p /\ moves p' = moves p ++ [m] /\
        make_move P m (inner p) = Ret (inner p', Some tt) /\
        forall a, sees P (inner p) a -> exists a', sees P (inner p') a' /\ makes_sense a m /\ effect a m a'
    | RErr _ => p' = p
    end.
Proof.
  intros P L p m r R V E H. unfold lc_make_move. rewrite E. cbn [bind]. destruct r as [|e].
  - destruct (H eq_refl) as [q Hq]. rewrite Hq. cbn [bind is_some]. exists q. split; [destruct P; reflexivity|].
    unfold pos_make_move in Hq. destruct (make_move P m (pos_inner p)) as [[s' o]| |] eqn:M; cbn [bind] in Hq; try discriminate.
    destruct o as [[]|]; try discriminate. injection Hq as <-. cbn [initial_position moves inner pos_initial pos_moves pos_inner]. split; auto. split; auto.
    split; [exact M|]. intros a S. destruct (c23_effect_pf P (inner p) a m s' R S V M) as (a' & S' & Ef). exists a'. split; auto. split; auto.
    destruct (c22_accepts_pf P (inner p) a m R S V) as (s2 & o & M2 & [A _]). unfold inner in M2. rewrite M in M2. injection M2 as <- <-. now apply A.
  - now exists p.
Qed.
(** C45: what happens to an implementor that breaks its promise: a panic with debug assertions, a wrong Ok without. *)
Lemma c45_broken_promise_pf : forall P L p m, lc_is_legal L p m = Ret ROk ->
  pos_make_move P p m = Ret (p, None) ->
  lc_make_move P L p m = if debug_assertions P then Panic else Ret (p, ROk).
Proof. intros P L p m E H. unfold lc_make_move. rewrite E. cbn [bind]. rewrite H. destruct P; reflexivity. Qed.

(** C45: a whole game played through an honest checker never panics; the record holds exactly the moves answered with Ok, and
    replaying them leads to the position reached. *)
Lemma c45_game_pf : forall P L s0 ms, honest P L -> reachable P s0 -> Forall valid_move ms ->
  exists p rs, lc_play P L (arbitrary_position s0) ms = Ret (p, rs) /\ length rs = length ms /\
    initial_position p = s0 /\ moves p = accepted_moves ms (map is_ok rs) /\
    run_ops P s0 (map OpMove (moves p)) = Ret (inner p, repeat true (length (moves p))).
Proof.
  intros P L s0 ms Hon R0 V. pose proof (reachable_wf P s0 R0) as W0.
  assert (G : forall ms, Forall valid_move ms -> forall p, Forall valid_move (moves p) ->
    run_ops P s0 (map OpMove (moves p)) = Ret (inner p, repeat true (length (moves p))) ->
    exists p' rs, lc_play P L p ms = Ret (p', rs) /\ length rs = length ms /\
      initial_position p' = initial_position p /\ moves p' = moves p ++ accepted_moves ms (map is_ok rs) /\
      run_ops P s0 (map OpMove (moves p')) = Ret (inner p', repeat true (length (moves p')))).
  { clear ms V. induction ms as [|m ms IH]; intros V p Vp Hp.
    - exists p, []. rewrite app_nil_r. auto.
    - inversion_clear V as [|? ? V1 V2].
      assert (R : reachable P (inner p)).
      { destruct R0 as (i & os & bs & I0 & Vo & Hr). exists i, (os ++ map OpMove (moves p)), (bs ++ repeat true (length (moves p))). split; auto.
        split; [apply Forall_app; split; auto; now apply moves_valid|].
        assert (Wi : wf i) by (apply (reachable_wf P); exists i, [], []; auto).
        rewrite run_ops_ok in *; auto; [|now apply moves_valid|apply Forall_app; split; auto; now apply moves_valid].
        injection Hr as Hr. injection Hp as Hp. now rewrite do_ops_app, Hr, Hp. }
      destruct (Hon p m R V1) as (r & E & Hr). destruct (c45_make_move_pf P L p m r R V1 E Hr) as (p1 & M & D). cbn [lc_play]. rewrite M. cbn [bind].
      destruct r as [|e].
      + destruct D as (D1 & D2 & D3 & _). destruct (IH V2 p1) as (p2 & rs & A1 & A2 & A3 & A4 & A5).
        * rewrite D2. apply Forall_app. auto.
        * rewrite D2, map_app. rewrite run_ops_ok in * by (rewrite ?D2; auto; try apply moves_valid; try apply Forall_app; auto).
          rewrite run_ops_ok; auto; [|rewrite <- map_app; apply moves_valid, Forall_app; auto].
          injection Hp as Hp. rewrite do_ops_app, Hp. cbn [map do_ops do_op]. unfold try_move.
          rewrite make_move_ok in D3 by (auto; now apply (reachable_wf P)). destruct (do_move (inner p) m) as [s'|]; [|discriminate].
          injection D3 as ->. rewrite app_length, repeat_app. reflexivity.
        * exists p2, (ROk :: rs). rewrite A1. cbn [bind]. split; [reflexivity|]. split; [cbn; now rewrite A2|]. split; [congruence|]. split; auto.
          rewrite A4, D2, <- app_assoc. reflexivity.
      + subst p1. destruct (IH V2 p Vp Hp) as (p2 & rs & A1 & A2 & A3 & A4 & A5). exists p2, (RErr e :: rs). rewrite A1. cbn [bind].
        split; [reflexivity|]. split; [cbn; now rewrite A2|]. split; [congruence|]. split; auto. }
  destruct (G ms V (arbitrary_position s0) (Forall_nil _) eq_refl) as (p & rs & A1 & A2 & A3 & A4 & A5).
  exists p, rs. auto.
Qed.

(** A simple honest implementor for the examples: the game ends at ply 5, and every move that makes sense is legal *)
Definition referee (P : profile) : legality_checker :=
  LegalityChecker (fun p => Ret (if pos_ply p <? 5 then PSInProgress else PSDraw)) (fun _ => Ret PSInProgress)
    (fun s m => '(_, o) <- make_move P m s;; Ret (if is_some o then ROk else RErr IncorrectMove))
    (fun s m => '(_, o) <- make_move P m s;; Ret (is_some o))
    (fun s => Ret []) (fun _ _ => Ret bb_empty) (fun _ _ _ => Ret bb_empty) (fun _ _ => Ret bb_empty).
Lemma referee_honest P : honest P (referee P).
Proof.
  intros p m R V. pose proof (make_move_ok P (inner p) m (reachable_wf P _ R) V) as M.
  unfold pos_make_move. change (pos_inner p) with (inner p). unfold lc_is_legal, referee. cbn [lc_status lc_is_legal_partial bind]. rewrite M.
  destruct (pos_ply p <? 5); [change (negb (ps_eqb PSInProgress PSInProgress)) with false|change (negb (ps_eqb PSDraw PSInProgress)) with true]; cbv iota;
    [|eexists; split; [reflexivity|discriminate]].
  destruct (do_move (inner p) m); cbn [bind is_some]; eexists; (split; [reflexivity|]); [eauto|discriminate].
Qed.
