(** Proofs of the property theorems on [Position] and [Game] (restated in Prop_Game.v). *)
From Verif Require Export TPosition.
(*PROPHEAD
Property theorems C31-C32: Position and Game
From Verif Require Import LSample.
*)

Lemma pos_call_ok P p x : wf (pos_inner p) -> valid_call x ->
  match x with
  | PMove m => '(p', o) <- pos_make_move P p m;; Ret (p', is_some o)
  | PCompact c => pos_make_compact_move P p c
  end =
  Ret (match do_move (pos_inner p) (call_move x) with
       | Some s' => (Position (pos_initial p) s' (pos_moves p ++ [call_move x]), true)
       | None => (p, false)
       end).
Proof.
  intros W V.
  assert (G : forall m, valid_move m -> ('(p', o) <- pos_make_move P p m;; Ret (p', is_some o)) =
    Ret (match do_move (pos_inner p) m with
         | Some s' => (Position (pos_initial p) s' (pos_moves p ++ [m]), true) | None => (p, false) end)).
  { intros m Vm. unfold pos_make_move. rewrite make_move_ok by auto. destruct (do_move (pos_inner p) m); cbn [bind]; [reflexivity|]. now destruct p. }
  destruct x as [m|c]; cbn [valid_call call_move] in *; auto.
  unfold pos_make_compact_move. rewrite move_of_cm_unpack by auto. cbn [bind]. apply G. now apply valid_compact_unpack.
Qed.
Lemma created_facts P p s : created P p s -> reachable P s /\ p = arbitrary_position s.
Proof.
  assert (RS : reachable P the_startpos). { exists the_startpos, [], []. split; [right; apply startpos_ok|]. split; auto. }
  intros [s' R|p' s' E E'|p' s' E E']; auto; unfold pos_startpos, pos_default in E; rewrite startpos_ok in *; cbn [bind] in E;
    injection E as <-; injection E' as <-; auto.
Qed.

(** C31: playing on a [Position]: the initial position stays, the moves are the accepted ones, in order, the inner position
    is the one the same calls produce on a [PartialPosition], and replaying the recorded moves reproduces it with every move
    accepted. *)
Lemma c31_replay_pf : forall P p0 s0 xs, created P p0 s0 -> Forall valid_call xs ->
  exists p bs, pos_run P p0 xs = Ret (p, bs) /\
    initial_position p = s0 /\
    moves p = accepted_moves (map call_move xs) bs /\
    run_ops P s0 (map (fun x => OpMove (call_move x)) xs) = Ret (inner p, bs) /\
    run_ops P (initial_position p) (map OpMove (moves p)) = Ret (inner p, repeat true (length (moves p))).
Proof.
  intros P p0 s0 xs C V. apply created_facts in C as [R ->]. pose proof (reachable_wf P s0 R) as W0.
  assert (Vm : Forall valid_move (map call_move xs)).
  { apply Forall_map. eapply Forall_impl; [|exact V]. intros [m|c]; simpl; auto. intros Vc. now apply valid_compact_unpack. }
  assert (G : forall xs, Forall valid_call xs -> Forall valid_move (map call_move xs) ->
    forall p, wf (pos_inner p) -> Forall valid_move (pos_moves p) ->
      do_ops s0 (map OpMove (pos_moves p)) = (pos_inner p, repeat true (length (pos_moves p))) ->
    exists p' bs, pos_run P p xs = Ret (p', bs) /\ pos_initial p' = pos_initial p /\
      pos_moves p' = pos_moves p ++ accepted_moves (map call_move xs) bs /\
      do_ops (pos_inner p) (map (fun x => OpMove (call_move x)) xs) = (pos_inner p', bs) /\
      Forall valid_move (pos_moves p') /\
      do_ops s0 (map OpMove (pos_moves p')) = (pos_inner p', repeat true (length (pos_moves p')))).
  { clear xs V Vm. induction xs as [|x xs IH]; intros V Vm p W Vp H.
    - exists p, []. cbn. rewrite app_nil_r. auto 6.
    - inversion_clear V as [|? ? V1 V2]. inversion_clear Vm as [|? ? Vm1 Vm2]. cbn [pos_run]. rewrite pos_call_ok by auto. cbn [bind map do_ops do_op].
      unfold try_move. destruct (do_move (pos_inner p) (call_move x)) as [s1|] eqn:E.
      + destruct (IH V2 Vm2 (Position (pos_initial p) s1 (pos_moves p ++ [call_move x]))) as (p' & bs & A1 & A2 & A3 & A4 & A5 & A6).
        * cbn [pos_inner]. eapply do_move_wf; eauto.
        * cbn [pos_moves]. apply Forall_app. auto.
        * cbn [pos_moves pos_inner]. rewrite map_app, do_ops_app, H. cbn [map do_ops do_op]. unfold try_move. rewrite E.
          rewrite app_length, repeat_app. reflexivity.
        * exists p', (true :: bs). rewrite A1. cbn [bind pos_initial pos_inner pos_moves] in *. rewrite A4. split; auto. split; auto.
          split; [|auto]. rewrite A3. unfold accepted_moves. cbn [combine filter snd map fst]. now rewrite <- app_assoc.
      + destruct (IH V2 Vm2 p W Vp H) as (p' & bs & A1 & A2 & A3 & A4 & A5 & A6). exists p', (false :: bs). rewrite A1. cbn [bind]. rewrite A4.
        split; auto. }
  destruct (G xs V Vm (arbitrary_position s0) W0 (Forall_nil _) eq_refl) as (p & bs & A1 & A2 & A3 & A4 & A5 & A6).
  exists p, bs. split; auto. split; auto. split; auto. split.
  - rewrite run_ops_ok; auto; [unfold inner; rewrite <- A4; reflexivity|]. rewrite <- (map_map call_move OpMove). now apply moves_valid.
  - unfold initial_position, moves, inner. rewrite A2. cbn [pos_initial arbitrary_position]. rewrite run_ops_ok by auto using moves_valid. rewrite <- A6. reflexivity.
Qed.

(** C31: [startpos], [default] and [arbitrary_position] all start with no moves on the given position. *)
Lemma c31_created_pf : forall P s0, reachable P s0 ->
  created P (arbitrary_position s0) s0 /\
  inner (arbitrary_position s0) = s0 /\ initial_position (arbitrary_position s0) = s0 /\ moves (arbitrary_position s0) = [] /\
  exists s, pp_startpos P = Ret s /\ pos_startpos P = Ret (arbitrary_position s) /\ pos_default P = Ret (arbitrary_position s).
Proof.
  intros P s0 R. split; [now constructor|]. do 3 (split; [reflexivity|]). exists the_startpos. unfold pos_startpos, pos_default.
  rewrite startpos_ok. auto.
Qed.

(** C31: every observer of [Position] is the observer of [inner()]. *)
Lemma c31_observers_pf : forall P p,
  pos_side_to_move p = side_to_move (inner p) /\
  pos_ply p = ply (inner p) /\
  (forall c, pos_hand_of_a_player P p c = hand_of_a_player P (inner p) c) /\
  (forall x, pos_hand P p x = pp_hand P (inner p) x) /\
  (forall sq, pos_piece_at P p sq = piece_at P (inner p) sq) /\
  pos_occupied_bitboard p = occupied_bitboard (inner p) /\
  pos_vacant_bitboard p = vacant_bitboard (inner p) /\
  (forall c, pos_player_bitboard P p c = player_bitboard P (inner p) c) /\
  (forall x, pos_piece_bitboard P p x = piece_bitboard P (inner p) x) /\
  pos_last_move P p = last_move P (inner p) /\
  pos_last_compact_move p = last_compact_move (inner p) /\
  pos_to_sfen_owned P p = to_sfen_owned P (inner p).
Proof. intros P p. do 11 (split; [reflexivity|]). reflexivity. Qed.

(** C31, boundary of the property: the deprecated editing methods of [Position] break it. After
    [Position::piece_set] the recorded history no longer leads to [inner()]. *)
Lemma c31_deprecated_edit_breaks_replay_pf : forall P, exists p0 p,
  pos_startpos P = Ret p0 /\ pos_piece_set P p0 (square_at 5 5) (Some (piece_of Pawn Black)) = Ret p /\
  exists s bs, run_ops P (initial_position p) (map OpMove (moves p)) = Ret (s, bs) /\
    piece_at P s (square_at 5 5) = Ret None /\ pos_piece_at P p (square_at 5 5) = Ret (Some (piece_of Pawn Black)).
Proof.
  intros P. exists (arbitrary_position the_startpos).
  exists (Position the_startpos (put the_startpos (square_at 5 5) (Some (piece_of Pawn Black))) []).
  split; [unfold pos_startpos; now rewrite startpos_ok|]. split.
  - unfold pos_piece_set. cbn [arbitrary_position pos_inner]. rewrite piece_set_ok; [reflexivity|apply startpos_wf|split; discriminate|apply piece_of_valid].
  - exists the_startpos, []. split; [reflexivity|]. split; destruct P; vm_compute; reflexivity.
Qed.

(** C32: the resolution is the last value set, and the position is never touched. *)
Lemma c32_resolution_pf : forall A (g : game_of A) xs,
  game_position (game_run g xs) = game_position g /\
  game_resolution_of (game_run g xs) =
    match rev xs with
    | [] => game_resolution_of g
    | GResolve r :: _ => Ret (Some r)
    | GUnresolve :: _ => Ret None
    end.
Proof.
  intros A g xs. unfold game_run. induction xs as [|x xs [I1 I2]] using rev_ind; [auto|].
  rewrite fold_left_app, rev_app_distr. cbn [fold_left rev app]. split.
  - destruct x; exact I1.
  - destruct x as [r|]; [destruct r|]; reflexivity.
Qed.

(** C32: new games are unresolved and at the starting position. *)
Lemma c32_default_pf : forall P, exists s, pp_startpos P = Ret s /\
  (exists g, game_default P = Ret g /\ game_position g = arbitrary_position s /\ game_resolution_of g = Ret None) /\
  (exists g, partial_game_default P = Ret g /\ game_position g = s /\ game_resolution_of g = Ret None).
Proof.
  intros P. exists the_startpos. split; [apply startpos_ok|]. unfold game_default, partial_game_default, pos_default. rewrite startpos_ok.
  split; eexists; (split; [reflexivity|split; reflexivity]).
Qed.

(** C32: the C getter: 0 if unresolved, the number of the resolution otherwise. *)
Lemma c32_c_resolution_pf : forall A (g : game_of A) r,
  ogr_repr (Game_resolution (game_unresolve g)) = 0 /\
  ogr_repr (Game_resolution (game_resolve g r)) = gr_as_u8 r /\ gr_as_u8 r <> 0 /\
  (forall r', gr_as_u8 r' = gr_as_u8 r -> r' = r).
Proof. intros A g r. split; [reflexivity|]. split; [destruct r; reflexivity|]. split; [destruct r; discriminate|]. intros r' H; destruct r, r'; (discriminate || reflexivity). Qed.

(** C31: the deprecated editing methods of [Position] edit the inner position and nothing else. *)
Lemma c31_deprecated_edits_pf : forall P p, reachable P (inner p) ->
  (forall sq x, valid_op (OpPieceSet sq x) -> exists p' s,
     pos_piece_set P p sq x = Ret p' /\ run_ops P (inner p) [OpPieceSet sq x] = Ret (s, [true]) /\
     inner p' = s /\ initial_position p' = initial_position p /\ moves p' = moves p) /\
  (forall c h, valid_hand h -> exists p' s,
     pos_hand_store P p c h = Ret p' /\ run_ops P (inner p) [OpHand c h] = Ret (s, [true]) /\
     inner p' = s /\ initial_position p' = initial_position p /\ moves p' = moves p).
Proof.
  intros P p R. pose proof (reachable_wf P _ R) as W. split.
  - intros sq x V. pose proof (run_ops_ok P (inner p) [OpPieceSet sq x] W (Forall_cons _ V (Forall_nil _))) as E.
    cbn [run_ops run_op] in *. unfold pos_piece_set, inner, initial_position, moves in *. destruct (piece_set P (pos_inner p) sq x) as [s| |]; try discriminate. cbn [bind] in *.
    exists (Position (pos_initial p) s (pos_moves p)), s. repeat split.
  - intros c h V. unfold pos_hand_store, inner, initial_position, moves in *. rewrite hand_store_ok by auto. cbn [bind].
    eexists. eexists. split; [reflexivity|]. split; [|repeat split]. cbn [run_ops run_op]. rewrite hand_store_ok by auto. reflexivity.
Qed.
