(** Positions: the representation invariant, and every function on positions as a total function. *)
From Verif Require Export LBitboard LHand LMove MPosition SpecPos.

Notation cnum c := (N.to_nat (color_number c)).
Notation knum k := (N.to_nat (kind_number k - 1)).
Notation snum q := (N.to_nat (sq_repr q - 1)).

Definition cell (s : partial_position) (sq : square) : option piece :=
  op_into (nth (snum sq) (pp_board s) (OptionPiece 0)).
Definition hand_at (s : partial_position) (c : color) : hand := nth (cnum c) (pp_hands s) hand_new.
Definition player_at (s : partial_position) (c : color) : bitboard := nth (cnum c) (pp_player_bb s) bb_empty.
Definition kind_at (s : partial_position) (k : piece_kind) : bitboard := nth (knum k) (pp_piece_bb s) bb_empty.
Definition king_at (s : partial_position) (c : color) : option square :=
  os_into (nth (cnum c) (pp_king_square s) (OptionSquare 0)).

Definition valid_o {A} (V : A -> Prop) (o : option A) : Prop := match o with Some x => V x | None => True end.
Definition cell_ok (o : option_piece) : Prop := valid_o valid_piece (op_into o).
Definition king_ok (o : option_square) : Prop := valid_o valid_square (os_into o).
Definition has_color (c : color) (o : option piece) : bool :=
  match o with Some p => same_color (color_of p) c | None => false end.
Definition has_kind (k : piece_kind) (o : option piece) : bool :=
  match o with Some p => same_kind (kind_of p) k | None => false end.

Record wf (s : partial_position) : Prop := {
  wf_ply : pp_ply s < 65536;
  wf_hands_len : length (pp_hands s) = 2%nat;
  wf_hands : Forall valid_hand (pp_hands s);
  wf_board_len : length (pp_board s) = 81%nat;
  wf_board : Forall cell_ok (pp_board s);
  wf_player_len : length (pp_player_bb s) = 2%nat;
  wf_player_valid : Forall valid_bb (pp_player_bb s);
  wf_player : forall c sq, valid_square sq -> member (player_at s c) sq = has_color c (cell s sq);
  wf_kind_len : length (pp_piece_bb s) = 14%nat;
  wf_kind_valid : Forall valid_bb (pp_piece_bb s);
  wf_kind : forall k sq, valid_square sq -> member (kind_at s k) sq = has_kind k (cell s sq);
  wf_last : valid_o valid_compact (ocm_into (pp_last_move s));
  wf_king_len : length (pp_king_square s) = 2%nat;
  wf_king : Forall king_ok (pp_king_square s)
}.

(** ** Small facts *)
Lemma same_square_eq s t : same_square s t = true <-> s = t.
Proof. unfold same_square. rewrite N.eqb_eq. split; [apply square_inj|congruence]. Qed.
Lemma same_square_refl s : same_square s s = true.
Proof. now apply same_square_eq. Qed.
Lemma same_square_sym s t : same_square s t = same_square t s.
Proof. apply N.eqb_sym. Qed.
Lemma same_square_spec s t : reflect (s = t) (same_square s t).
Proof. apply iff_reflect. symmetry. apply same_square_eq. Qed.
Lemma same_color_eq c d : same_color c d = true <-> c = d.
Proof. destruct c, d; simpl; split; congruence. Qed.
Lemma same_color_spec c d : reflect (c = d) (same_color c d).
Proof. apply iff_reflect. symmetry. apply same_color_eq. Qed.
Lemma same_color_eqb c d : same_color c d = color_eqb c d.
Proof. now destruct c, d. Qed.
Lemma same_kind_eq k l : same_kind k l = true <-> k = l.
Proof. unfold same_kind. rewrite N.eqb_eq. split; [apply kind_number_inj|congruence]. Qed.
Lemma same_kind_refl k : same_kind k k = true.
Proof. now apply same_kind_eq. Qed.
Lemma same_kind_spec k l : reflect (k = l) (same_kind k l).
Proof. apply iff_reflect. symmetry. apply same_kind_eq. Qed.
Lemma can_be_in_hand_eq k : can_be_in_hand k = is_hand_piece k.
Proof. now destruct k. Qed.
Lemma can_be_in_hand_iff k : can_be_in_hand k = true <-> In k hand_kinds.
Proof. rewrite can_be_in_hand_eq. apply is_hand_piece_ok. Qed.
Lemma promoted_eq k : promoted k = pk_promote k.
Proof. now destruct k. Qed.
Lemma the_piece_parts p : valid_piece p -> the_piece (parts_of p) = p.
Proof. apply piece_of_parts. Qed.
Lemma parts_of_the x : parts_of (the_piece x) = x.
Proof. destruct x as [k c]. unfold parts_of, the_piece. simpl. now rewrite kind_of_of, color_of_of. Qed.
Lemma cnum_lt c : (cnum c < 2)%nat.
Proof. destruct c; vm_compute; lia. Qed.
Lemma cnum_inj c d : cnum c = cnum d -> c = d.
Proof. destruct c, d; intros H; try reflexivity; vm_compute in H; discriminate. Qed.
Lemma knum_lt k : (knum k < 14)%nat.
Proof. pose proof (kind_number_range k). lia. Qed.
Lemma knum_inj k l : knum k = knum l -> k = l.
Proof. pose proof (kind_number_range k). pose proof (kind_number_range l). intros. apply kind_number_inj. lia. Qed.
Lemma snum_lt q : valid_square q -> (snum q < 81)%nat.
Proof. unfold valid_square. lia. Qed.
Lemma snum_inj q r : valid_square q -> valid_square r -> snum q = snum r -> q = r.
Proof. unfold valid_square. intros. apply square_inj. lia. Qed.

Lemma cell_valid s sq : wf s -> valid_o valid_piece (cell s sq).
Proof. intros W. unfold cell. apply (nth_Forall cell_ok); [apply W|exact I]. Qed.
Lemma hand_at_valid s c : wf s -> valid_hand (hand_at s c).
Proof. intros W. unfold hand_at. apply nth_Forall; [apply W|apply hand_new_valid]. Qed.
Lemma player_at_valid s c : wf s -> valid_bb (player_at s c).
Proof. intros W. unfold player_at. apply nth_Forall; [apply W|apply bb_empty_valid]. Qed.
Lemma kind_at_valid s k : wf s -> valid_bb (kind_at s k).
Proof. intros W. unfold kind_at. apply nth_Forall; [apply W|apply bb_empty_valid]. Qed.
Lemma king_at_valid s c : wf s -> valid_o valid_square (king_at s c).
Proof. intros W. unfold king_at. apply (nth_Forall king_ok); [apply W|exact I]. Qed.

(** ** Observers *)
Lemma piece_at_ok P s sq : wf s -> valid_square sq -> piece_at P s sq = Ret (cell s sq).
Proof.
  intros W V. unfold piece_at, PartialPosition_piece_at. rewrite sq_index_ok by auto. cbn [bind].
  rewrite sub_w_ok by (unfold valid_square in V; lia). cbn [bind].
  rewrite (arr_get_ok _ _ (OptionPiece 0)) by (rewrite wf_board_len by auto; now apply snum_lt). reflexivity.
Qed.
Lemma hand_index_ok P c : hand_index P c = Ret (color_number c).
Proof. destruct P, c; reflexivity. Qed.
Lemma hand_of_a_player_ok P s c : wf s -> hand_of_a_player P s c = Ret (hand_at s c).
Proof.
  intros W. unfold hand_of_a_player. rewrite hand_index_ok. cbn [bind].
  rewrite (arr_get_ok _ _ hand_new) by (rewrite wf_hands_len by auto; apply cnum_lt). reflexivity.
Qed.
Lemma pp_hand_ok P s p : wf s -> valid_piece p ->
  pp_hand P s p = Ret (if is_hand_piece (kind_of p) then Some (in_hand (hand_at s (color_of p)) (kind_of p)) else None).
Proof.
  intros W V. unfold pp_hand. rewrite piece_color_ok by auto. cbn [bind]. rewrite hand_of_a_player_ok by auto. cbn [bind].
  rewrite piece_piece_kind_ok by auto. cbn [bind]. apply hand_count_ok. now apply hand_at_valid.
Qed.
Lemma player_bitboard_ok P s c : wf s -> player_bitboard P s c = Ret (player_at s c).
Proof.
  intros W. unfold player_bitboard. rewrite color_array_index_ok. cbn [bind].
  apply arr_index_ok. rewrite wf_player_len by auto. apply cnum_lt.
Qed.
Lemma piece_kind_bitboard_ok P s k : wf s -> piece_kind_bitboard P s k = Ret (kind_at s k).
Proof.
  intros W. unfold piece_kind_bitboard. rewrite pk_array_index_ok. cbn [bind].
  apply arr_index_ok. rewrite wf_kind_len by auto. apply knum_lt.
Qed.
Lemma piece_bitboard_ok P s p : wf s -> valid_piece p ->
  piece_bitboard P s p = Ret (bb_and (kind_at s (kind_of p)) (player_at s (color_of p))).
Proof.
  intros W V. unfold piece_bitboard. rewrite piece_to_parts_ok by auto. cbn [bind].
  rewrite pk_array_index_ok. cbn [bind]. rewrite (arr_index_ok _ _ bb_empty) by (rewrite wf_kind_len by auto; apply knum_lt).
  cbn [bind]. rewrite color_array_index_ok. cbn [bind].
  rewrite (arr_index_ok _ _ bb_empty) by (rewrite wf_player_len by auto; apply cnum_lt). reflexivity.
Qed.
Lemma occupied_bitboard_ok s : wf s -> occupied_bitboard s = Ret (bb_or (player_at s Black) (player_at s White)).
Proof.
  intros W. unfold occupied_bitboard. rewrite !(arr_index_ok _ _ bb_empty) by (rewrite wf_player_len by auto; vm_compute; lia).
  reflexivity.
Qed.
Lemma vacant_bitboard_ok s : wf s -> vacant_bitboard s = Ret (bb_not (bb_or (player_at s Black) (player_at s White))).
Proof. intros W. unfold vacant_bitboard. now rewrite occupied_bitboard_ok. Qed.
Lemma king_position_ok P s c : wf s -> king_position P s c = Ret (king_at s c).
Proof.
  intros W. unfold king_position. rewrite color_array_index_ok. cbn [bind].
  rewrite (arr_index_ok _ _ (OptionSquare 0)) by (rewrite wf_king_len by auto; apply cnum_lt). reflexivity.
Qed.

(** the last move, decoded *)
Lemma unpack_packed m : valid_move m -> unpack (CompactMove (packed m)) = m.
Proof.
  assert (B : forall x y z, y < 128 -> z < 2 -> N.testbit (256 * x + 128 * z + y) 7 = (z =? 1)).
  { intros x y z Hy Hz. rewrite N.testbit_eqb. change (2 ^ 7) with 128.
    replace ((256 * x + 128 * z + y) / 128) with (2 * x + z) by lia.
    replace ((2 * x + z) mod 2) with z by lia. reflexivity. }
  unfold unpack. destruct m as [f t pr|p t]; cbn [packed valid_move cm_repr]; unfold valid_square, valid_piece; intros [H1 H2].
  - replace ((if pr then 32768 else 0) + sq_repr f * 256 + sq_repr t) with
      (256 * ((if pr then 128 else 0) + sq_repr f) + 128 * 0 + sq_repr t) by (destruct pr; lia).
    rewrite B by lia. change (0 =? 1) with false. cbn iota. f_equal.
    + apply square_inj. cbn [sq_repr]. destruct pr; lia.
    + apply square_inj. cbn [sq_repr]. lia.
    + destruct pr; lia.
  - replace (piece_repr p * 256 + 128 + sq_repr t) with (256 * piece_repr p + 128 * 1 + sq_repr t) by lia.
    rewrite B by lia. change (1 =? 1) with true. cbn iota. f_equal.
    + apply piece_inj. cbn [piece_repr]. lia.
    + apply square_inj. cbn [sq_repr]. lia.
Qed.
Lemma valid_compact_unpack c : valid_compact c -> valid_move (unpack c) /\ c = CompactMove (packed (unpack c)).
Proof. intros H. destruct (valid_compact_move c H) as (m & V & ->). now rewrite unpack_packed. Qed.
Lemma move_of_cm_unpack P c : valid_compact c -> move_of_cm P c = Ret (unpack c).
Proof. intros H. destruct (valid_compact_unpack c H) as [V E]. rewrite E at 1. now apply move_of_cm_ok. Qed.
Definition last_at (s : partial_position) : option move := option_map unpack (ocm_into (pp_last_move s)).
Lemma last_move_ok P s : wf s -> last_move P s = Ret (last_at s).
Proof.
  intros W. unfold last_move, last_at, last_compact_move. pose proof (wf_last s W) as L.
  destruct (ocm_into (pp_last_move s)) as [c|]; simpl in *; auto. now rewrite move_of_cm_unpack.
Qed.

(** ** [piece_set] as a function *)
Definition upd_players (l : list bitboard) (sq : square) (p : option piece) : list bitboard :=
  let l := list_set l (N.to_nat 0) (bb_andnot (single sq) (nth (N.to_nat 0) l bb_empty)) in
  let l := list_set l (N.to_nat 1) (bb_andnot (single sq) (nth (N.to_nat 1) l bb_empty)) in
  match p with
  | Some q => list_set l (cnum (color_of q)) (bb_or (nth (cnum (color_of q)) l bb_empty) (single sq))
  | None => l
  end.
Definition upd_kinds (l : list bitboard) (sq : square) (old p : option piece) : list bitboard :=
  let l := match old with
           | Some q => list_set l (knum (kind_of q)) (bb_andnot (single sq) (nth (knum (kind_of q)) l bb_empty))
           | None => l
           end in
  match p with
  | Some q => list_set l (knum (kind_of q)) (bb_or (nth (knum (kind_of q)) l bb_empty) (single sq))
  | None => l
  end.
Definition upd_kings (l : list option_square) (sq : square) (p : option piece) : list option_square :=
  match p with
  | Some q => if same_kind (kind_of q) King then list_set l (cnum (color_of q)) (os_from (Some sq)) else l
  | None => l
  end.
Definition put (s : partial_position) (sq : square) (p : option piece) : partial_position :=
  PartialPosition (pp_side s) (pp_ply s) (pp_hands s) (list_set (pp_board s) (snum sq) (op_from p))
    (upd_players (pp_player_bb s) sq p) (upd_kinds (pp_piece_bb s) sq (cell s sq) p) (pp_last_move s)
    (upd_kings (pp_king_square s) sq p).

Lemma const_BK P : piece_const P "B_K" = Ret (piece_of King Black).
Proof. destruct P; vm_compute; reflexivity. Qed.
Lemma const_WK P : piece_const P "W_K" = Ret (piece_of King White).
Proof. destruct P; vm_compute; reflexivity. Qed.
Lemma eqb_king q c : valid_piece q -> piece_eqb q (piece_of King c) = same_kind (kind_of q) King && same_color (color_of q) c.
Proof. intros V. rewrite <- (piece_of_parts q V) at 1. destruct (kind_of q), (color_of q), c; reflexivity. Qed.

Ltac pp_proj :=
  unfold with_side, with_ply, with_hands, with_board, with_player_bb, with_piece_bb, with_last_move, with_king_square in *;
  cbn [pp_side pp_ply pp_hands pp_board pp_player_bb pp_piece_bb pp_last_move pp_king_square] in *.

Lemma piece_set_ok P s sq p : wf s -> valid_square sq -> valid_o valid_piece p -> piece_set P s sq p = Ret (put s sq p).
Proof.
  intros W V Vp. unfold piece_set. rewrite sq_index_ok by auto. cbn [bind].
  rewrite sub_w_ok by (unfold valid_square in V; lia). cbn [bind].
  rewrite piece_at_ok by auto. cbn [bind].
  rewrite arr_store_unchecked_ok by (rewrite wf_board_len by auto; now apply snum_lt). cbn [bind].
  rewrite bb_single_ok by auto. cbn [bind].
  unfold put, upd_players, upd_kinds, upd_kings.
  pose proof (wf_player_len _ W) as L2. pose proof (wf_kind_len _ W) as L14. pose proof (wf_king_len _ W) as LK.
  pose proof (cell_valid _ sq W) as Vc. set (old := cell s sq) in *. clearbody old. clear W.
  destruct s as [side pl hands board pbb kbb last kings]. pp_proj.
  assert (Z : (N.to_nat 0 < 2)%nat) by (vm_compute; lia). assert (O : (N.to_nat 1 < 2)%nat) by (vm_compute; lia).
  rewrite (arr_index_ok pbb 0 bb_empty) by lia. cbn [bind]. rewrite arr_store_ok by lia. cbn [bind]. pp_proj.
  rewrite (arr_index_ok _ 1 bb_empty) by (rewrite list_set_length; lia). cbn [bind].
  rewrite arr_store_ok by (rewrite list_set_length; lia). cbn [bind]. pp_proj.
  set (l1 := list_set pbb (N.to_nat 0) _). set (l2 := list_set l1 (N.to_nat 1) _).
  assert (L : length l2 = 2%nat) by (unfold l2, l1; now rewrite !list_set_length). clearbody l2. clear l1.
  set (bd := list_set board _ _). clearbody bd.
  assert (E1 : forall (T : Type) (k : partial_position -> res T),
    bind (match p with
          | Some q => '(_, c) <- piece_to_parts q;;
             match c with
             | Black => b <- arr_index l2 0;; bbs <- arr_store l2 0 (bb_or b (single sq));;
                        Ret (PartialPosition side pl hands bd bbs kbb last kings)
             | White => b <- arr_index l2 1;; bbs <- arr_store l2 1 (bb_or b (single sq));;
                        Ret (PartialPosition side pl hands bd bbs kbb last kings)
             end
          | None => Ret (PartialPosition side pl hands bd l2 kbb last kings)
          end) k =
    k (PartialPosition side pl hands bd
         (match p with
          | Some q => list_set l2 (cnum (color_of q)) (bb_or (nth (cnum (color_of q)) l2 bb_empty) (single sq))
          | None => l2 end) kbb last kings)).
  { intros T k. destruct p as [q|]; [|reflexivity]. simpl in Vp. rewrite piece_to_parts_ok by auto. cbn [bind].
    destruct (color_of q); unfold color_number; rewrite (arr_index_ok _ _ bb_empty) by lia; cbn [bind]; rewrite arr_store_ok by lia; reflexivity. }
  rewrite E1. clear E1.
  set (l3 := match p with Some q => list_set l2 _ _ | None => l2 end). clearbody l3.
  assert (E2 : forall (T : Type) (k : partial_position -> res T),
    bind (match old with
          | Some q => ki <- piece_piece_kind q;; ki <- pk_array_index P ki;; b <- arr_index kbb ki;;
                      bbs <- arr_store kbb ki (bb_andnot (single sq) b);;
                      Ret (PartialPosition side pl hands bd l3 bbs last kings)
          | None => Ret (PartialPosition side pl hands bd l3 kbb last kings)
          end) k =
    k (PartialPosition side pl hands bd l3
         (match old with
          | Some q => list_set kbb (knum (kind_of q)) (bb_andnot (single sq) (nth (knum (kind_of q)) kbb bb_empty))
          | None => kbb end) last kings)).
  { intros T k. destruct old as [q|]; [|reflexivity]. simpl in Vc. rewrite piece_piece_kind_ok by auto. cbn [bind].
    rewrite pk_array_index_ok. cbn [bind]. pose proof (knum_lt (kind_of q)).
    rewrite (arr_index_ok _ _ bb_empty) by lia. cbn [bind]. rewrite arr_store_ok by lia. reflexivity. }
  pp_proj. rewrite E2. clear E2.
  set (l4 := match old with Some q => list_set kbb _ _ | None => kbb end).
  assert (L4 : length l4 = 14%nat) by (unfold l4; destruct old; now rewrite ?list_set_length). clearbody l4.
  destruct p as [q|]; [|reflexivity]. simpl in Vp. rewrite piece_piece_kind_ok by auto. cbn [bind].
  rewrite pk_array_index_ok. cbn [bind]. pp_proj. pose proof (knum_lt (kind_of q)).
  rewrite (arr_index_ok _ _ bb_empty) by lia. cbn [bind]. rewrite arr_store_ok by lia. cbn [bind].
  rewrite const_BK, const_WK. cbn [bind]. rewrite !eqb_king by auto. pp_proj.
  destruct (same_kind (kind_of q) King); [|reflexivity].
  destruct (color_of q); cbn [same_color andb bind]; unfold color_number; pp_proj; rewrite arr_store_ok by lia; cbn [bind]; reflexivity.
Qed.

(** ** [put] *)
Lemma list_set_nth {A} (l : list A) i j x d : (i < length l)%nat -> nth j (list_set l i x) d = if Nat.eqb i j then x else nth j l d.
Proof.
  intros H. destruct (Nat.eqb_spec i j) as [->|N]; [now apply list_set_nth_same|now apply list_set_nth_other].
Qed.
Lemma snum_eqb q r : valid_square q -> valid_square r -> Nat.eqb (snum q) (snum r) = same_square q r.
Proof.
  intros Hq Hr. destruct (same_square_spec q r) as [->|N]; [apply Nat.eqb_refl|]. apply Nat.eqb_neq. contradict N. now apply snum_inj.
Qed.
Lemma cnum_eqb c d : Nat.eqb (cnum c) (cnum d) = same_color c d.
Proof. now destruct c, d. Qed.
Lemma knum_eqb k l : Nat.eqb (knum k) (knum l) = same_kind k l.
Proof.
  destruct (same_kind_spec k l) as [->|N]; [apply Nat.eqb_refl|]. apply Nat.eqb_neq. contradict N. now apply knum_inj.
Qed.
Lemma sq_eqb_same s t : sq_eqb s t = same_square s t.
Proof. reflexivity. Qed.

Lemma cell_put s sq p t : wf s -> valid_square sq -> valid_square t -> valid_o valid_piece p ->
  cell (put s sq p) t = if same_square t sq then p else cell s t.
Proof.
  intros W V Vt Vp. unfold cell, put. pp_proj. rewrite list_set_nth by (rewrite wf_board_len by auto; now apply snum_lt).
  rewrite snum_eqb by auto. rewrite same_square_sym. destruct (same_square t sq); auto. now apply op_round.
Qed.
Lemma player_at_put s sq p c : wf s -> valid_square sq ->
  player_at (put s sq p) c =
  let b := bb_andnot (single sq) (player_at s c) in if has_color c p then bb_or b (single sq) else b.
Proof.
  intros W V. unfold player_at, put, upd_players. pp_proj. pose proof (wf_player_len s W) as L. set (l := pp_player_bb s) in *.
  assert (L1 : forall x, length (list_set l (N.to_nat 0) x) = 2%nat) by (intros; now rewrite list_set_length).
  assert (L2 : forall x y, length (list_set (list_set l (N.to_nat 0) x) (N.to_nat 1) y) = 2%nat) by (intros; now rewrite !list_set_length).
  assert (E : forall d, nth (cnum d) (list_set (list_set l (N.to_nat 0) (bb_andnot (single sq) (nth (N.to_nat 0) l bb_empty))) (N.to_nat 1)
     (bb_andnot (single sq) (nth (N.to_nat 1) (list_set l (N.to_nat 0) (bb_andnot (single sq) (nth (N.to_nat 0) l bb_empty))) bb_empty))) bb_empty =
     bb_andnot (single sq) (nth (cnum d) l bb_empty)).
  { intros d. rewrite list_set_nth by (rewrite L1; vm_compute; lia). rewrite !list_set_nth by (rewrite L; vm_compute; lia).
    destruct d; reflexivity. }
  destruct p as [q|]; cbn [has_color]; [|apply E].
  rewrite list_set_nth by (rewrite L2; apply cnum_lt). rewrite !E, cnum_eqb.
  destruct (same_color_spec (color_of q) c) as [<-|N]; auto.
Qed.
Lemma kind_at_put s sq p k : wf s -> valid_square sq ->
  kind_at (put s sq p) k =
  let b := if has_kind k (cell s sq) then bb_andnot (single sq) (kind_at s k) else kind_at s k in
  if has_kind k p then bb_or b (single sq) else b.
Proof.
  intros W V. unfold kind_at, put, upd_kinds. pp_proj. pose proof (wf_kind_len s W) as L. set (l := pp_piece_bb s) in *.
  set (l1 := match cell s sq with Some q => list_set l _ _ | None => l end).
  assert (L1 : length l1 = 14%nat) by (unfold l1; destruct (cell s sq); now rewrite ?list_set_length).
  assert (E : forall j, nth (knum j) l1 bb_empty = if has_kind j (cell s sq) then bb_andnot (single sq) (nth (knum j) l bb_empty) else nth (knum j) l bb_empty).
  { intros j. unfold l1. destruct (cell s sq) as [q|]; cbn [has_kind]; auto.
    rewrite list_set_nth by (rewrite L; apply knum_lt). rewrite knum_eqb.
    destruct (same_kind_spec (kind_of q) j) as [<-|N]; auto. }
  destruct p as [q|]; cbn [has_kind]; [|apply E].
  rewrite list_set_nth by (rewrite L1; apply knum_lt). rewrite !E, knum_eqb.
  destruct (same_kind_spec (kind_of q) k) as [<-|N]; auto.
Qed.
Lemma king_at_put s sq p c : wf s -> valid_square sq ->
  king_at (put s sq p) c =
  match p with
  | Some q => if same_kind (kind_of q) King && same_color (color_of q) c then Some sq else king_at s c
  | None => king_at s c
  end.
Proof.
  intros W V. unfold king_at, put, upd_kings. pp_proj. destruct p as [q|]; auto. destruct (same_kind (kind_of q) King); auto.
  rewrite list_set_nth by (rewrite wf_king_len by auto; apply cnum_lt). rewrite cnum_eqb.
  destruct (same_color (color_of q) c); auto. simpl andb. cbn iota. now apply os_round.
Qed.
Lemma put_wf s sq p : wf s -> valid_square sq -> valid_o valid_piece p -> wf (put s sq p).
Proof.
  intros W V Vp.
  assert (VP : forall c, valid_bb (player_at (put s sq p) c)).
  { intros c. rewrite player_at_put by auto. cbn zeta. pose proof (player_at_valid s c W).
    destruct (has_color c p); [apply or_valid; auto using single_valid|]; now apply andnot_valid. }
  assert (VK : forall k, valid_bb (kind_at (put s sq p) k)).
  { intros k. rewrite kind_at_put by auto. cbn zeta. pose proof (kind_at_valid s k W).
    destruct (has_kind k (cell s sq)), (has_kind k p); auto using or_valid, single_valid, andnot_valid. }
  assert (LP : length (pp_player_bb (put s sq p)) = 2%nat).
  { unfold put, upd_players. pp_proj. destruct p; rewrite !list_set_length; apply (wf_player_len s W). }
  assert (LK : length (pp_piece_bb (put s sq p)) = 14%nat).
  { unfold put, upd_kinds. pp_proj. destruct p, (cell s sq); rewrite ?list_set_length; apply (wf_kind_len s W). }
  constructor; auto; try (unfold put; pp_proj; apply W).
  - unfold put; pp_proj. rewrite list_set_length. apply W.
  - unfold put; pp_proj. apply list_set_Forall; [apply W|]. unfold cell_ok. now rewrite op_round.
  - apply Forall_forall. intros b Hb. apply (In_nth _ _ bb_empty) in Hb as (n & Hn & <-). rewrite LP in Hn.
    destruct n as [|[|]]; [apply (VP Black)|apply (VP White)|lia].
  - intros c t Vt. rewrite player_at_put, cell_put by auto. cbn zeta.
    pose proof (wf_player s W c t Vt) as M. destruct (same_square_spec t sq) as [->|N].
    + destruct (has_color c p); rewrite ?member_or, member_andnot, member_single, sq_eqb_refl by auto; simpl; auto using orb_true_r.
    + assert (sq_eqb sq t = false) as F by (apply not_true_is_false; rewrite sq_eqb_eq; congruence).
      destruct (has_color c p); rewrite ?member_or, member_andnot, member_single, F by auto; simpl; rewrite ?orb_false_r; auto.
  - apply Forall_forall. intros b Hb. apply (In_nth _ _ bb_empty) in Hb as (n & Hn & <-). rewrite LK in Hn.
    destruct (pk_from_u8_unchecked_range (N.of_nat n + 1)) as (k & _ & E); [lia|]. specialize (VK k). unfold kind_at in VK.
    rewrite E in VK. now replace (N.to_nat (N.of_nat n + 1 - 1)) with n in VK by lia.
  - intros k t Vt. rewrite kind_at_put, cell_put by auto. cbn zeta.
    pose proof (wf_kind s W k t Vt) as M. pose proof (wf_kind s W k sq V) as Ms. destruct (same_square_spec t sq) as [->|N].
    + destruct (has_kind k (cell s sq)) eqn:E, (has_kind k p); rewrite ?member_or, ?member_andnot, ?member_single, ?sq_eqb_refl by auto; simpl; auto using orb_true_r.
    + assert (sq_eqb sq t = false) as F by (apply not_true_is_false; rewrite sq_eqb_eq; congruence).
      destruct (has_kind k (cell s sq)) eqn:E, (has_kind k p); rewrite ?member_or, ?member_andnot, ?member_single, ?F by auto; simpl; rewrite ?orb_false_r; auto.
  - unfold put, upd_kings; pp_proj. destruct p as [q|]; [destruct (same_kind (kind_of q) King)|]; rewrite ?list_set_length; apply W.
  - unfold put, upd_kings; pp_proj. destruct p as [q|]; [destruct (same_kind (kind_of q) King)|]; try apply W.
    apply list_set_Forall; [apply W|]. unfold king_ok. now rewrite os_round.
Qed.

(** ** Hands *)
Definition set_hand (s : partial_position) (c : color) (h : hand) : partial_position :=
  with_hands s (list_set (pp_hands s) (cnum c) h).
Lemma hand_store_ok P s c h : wf s -> hand_of_a_player_store P s c h = Ret (set_hand s c h).
Proof.
  intros W. unfold hand_of_a_player_store. rewrite hand_index_ok. cbn [bind].
  rewrite arr_store_unchecked_ok by (rewrite wf_hands_len by auto; apply cnum_lt). reflexivity.
Qed.
Lemma set_hand_wf s c h : wf s -> valid_hand h -> wf (set_hand s c h).
Proof.
  intros W V. destruct s. constructor; try apply W; unfold set_hand; pp_proj.
  - rewrite list_set_length. apply (wf_hands_len _ W).
  - apply list_set_Forall; auto. apply (wf_hands _ W).
Qed.
Lemma hand_at_set s c h d : wf s -> hand_at (set_hand s c h) d = if same_color c d then h else hand_at s d.
Proof.
  intros W. unfold hand_at, set_hand. pp_proj. rewrite list_set_nth by (rewrite wf_hands_len by auto; apply cnum_lt).
  now rewrite cnum_eqb.
Qed.

(** ** [make_move] as a function *)
Definition finish (s : partial_position) (m : move) : partial_position :=
  PartialPosition (opponent (pp_side s)) ((pp_ply s + 1) mod 65536) (pp_hands s) (pp_board s) (pp_player_bb s)
    (pp_piece_bb s) (ocm_from (Some (CompactMove (packed m)))) (pp_king_square s).
Definition do_move (s : partial_position) (m : move) : option partial_position :=
  match m with
  | Normal f t pr =>
      match cell s f with
      | Some p =>
          if same_color (color_of p) (pp_side s) then
            match (if pr then option_map (fun k => piece_of k (color_of p)) (promoted (kind_of p)) else Some p) with
            | Some q =>
                match cell s t with
                | None => Some (finish (put (put s f None) t (Some q)) m)
                | Some e =>
                    let c := color_of p in let k := base_kind (kind_of e) in
                    if same_color (color_of e) (opponent c) && can_be_in_hand k
                    then Some (finish (put (put (set_hand s c (hand_put (hand_at s c) k ((in_hand (hand_at s c) k + 1) mod 256))) f None)
                                           t (Some q)) m)
                    else None
                end
            | None => None
            end
          else None
      | None => None
      end
  | Drop p t =>
      let c := color_of p in let k := kind_of p in
      if same_color c (pp_side s) && can_be_in_hand k && (0 <? in_hand (hand_at s c) k) then
        match cell s t with
        | None => Some (finish (put (set_hand s c (hand_put (hand_at s c) k (in_hand (hand_at s c) k - 1))) t (Some p)) m)
        | Some _ => None
        end
      else None
  end.

Lemma wrap_ply n : wrapping_add_w 16 n 1 = (n + 1) mod 65536.
Proof. reflexivity. Qed.

Lemma make_move_ok P s m : wf s -> valid_move m ->
  make_move P m s = Ret (match do_move s m with Some s' => (s', Some tt) | None => (s, None) end).
Proof.
  intros W V.
  assert (F : forall s1, (cm <~ plift (cm_of_move P m);
      _ <~ pupd (fun s => Ret (with_last_move s (ocm_from (Some cm))));
      _ <~ pupd (fun s => c <- color_flip (pp_side s);; Ret (with_side s c));
      _ <~ pupd (fun s => Ret (with_ply s (wrapping_add_w 16 (pp_ply s) 1)));
      pret tt) s1 = Ret (finish s1 m, Some tt)).
  { intros s1. unfold pbind, plift, pupd, pret. rewrite cm_of_move_ok by auto. cbn [bind]. rewrite color_flip_ok. cbn [bind]. reflexivity. }
  unfold make_move. unfold pbind at 1, pread at 1. cbn [bind].
  set (k := fun _ : unit => _). change (forall s1, k tt s1 = Ret (finish s1 m, Some tt)) in F. clearbody k.
  destruct m as [f t pr|p t]; destruct V as [V1 V2].
  - unfold pbind, pread, plift. rewrite piece_at_ok by auto. cbn [bind do_move].
    pose proof (cell_valid s f W) as Vp. destruct (cell s f) as [p|]; [|reflexivity]. simpl in Vp.
    cbn [ptry pret bind]. unfold pret. cbn [bind]. rewrite piece_color_ok by auto. cbn [bind].
    rewrite <- same_color_eqb. destruct (same_color (color_of p) (pp_side s)); [|reflexivity]. cbn [negb].
    assert (T : forall (T : Type) (k' : partial_position * option piece -> res T),
      bind ((if pr then fun s0 => r <- (a <- piece_promote P p;; Ret (s0, Some a));; match r with (s', Some a) => ptry a s' | (s', None) => Ret (s', None) end
             else fun s0 => Ret (s0, Some p)) s) k' =
      k' (s, if pr then option_map (fun k => piece_of k (color_of p)) (promoted (kind_of p)) else Some p)).
    { intros T k'. destruct pr; [|reflexivity]. rewrite promoted_eq, piece_promote_ok by auto. cbn [bind].
      destruct (pk_promote (kind_of p)); reflexivity. }
    rewrite T. clear T.
    assert (Vq : valid_o valid_piece (if pr then option_map (fun k => piece_of k (color_of p)) (promoted (kind_of p)) else Some p)).
    { destruct pr; auto. destruct (promoted (kind_of p)); simpl; auto. apply piece_of_valid. }
    destruct (if pr then _ else _) as [q|]; [|reflexivity]. simpl in Vq.
    rewrite piece_at_ok by auto. cbn [bind]. pose proof (cell_valid s t W) as Ve.
    destruct (cell s t) as [e|].
    + simpl in Ve. rewrite !piece_color_ok by auto. cbn [bind]. cbn zeta.
      replace (color_eqb (color_of p) (color_of e)) with (negb (same_color (color_of e) (opponent (color_of p))))
        by (destruct (color_of p), (color_of e); reflexivity).
      destruct (same_color (color_of e) (opponent (color_of p))); cbn [negb andb]; [|reflexivity].
      rewrite piece_piece_kind_ok by auto. cbn [bind]. rewrite hand_of_a_player_ok by auto. cbn [bind].
      rewrite <- base_kind_unpromote. pose proof (hand_at_valid s (color_of p) W) as Vh.
      rewrite hand_added_ok by auto. cbn [bind]. rewrite can_be_in_hand_eq.
      destruct (is_hand_piece (base_kind (kind_of e))) eqn:HP; cbn [ptry]; [|reflexivity]. unfold pret, pupd. cbn [bind].
      apply is_hand_piece_ok in HP. rewrite hand_store_ok by auto. cbn [bind].
      assert (W' : wf (set_hand s (color_of p) (hand_put (hand_at s (color_of p)) (base_kind (kind_of e)) ((in_hand (hand_at s (color_of p)) (base_kind (kind_of e)) + 1) mod 256)))).
      { apply set_hand_wf; auto. apply hand_put_valid; auto. lia. }
      rewrite piece_set_ok by (auto; exact I). cbn [bind].
      rewrite piece_set_ok by (auto using put_wf; try exact I; apply put_wf; auto; exact I). cbn [bind]. apply F.
    + unfold pret, pupd. cbn [bind]. rewrite piece_set_ok by (auto; exact I). cbn [bind].
      rewrite piece_set_ok by (auto; apply put_wf; auto; exact I). cbn [bind]. apply F.
  - unfold pbind, pread, plift. rewrite piece_color_ok by auto. cbn [bind do_move].
    rewrite <- same_color_eqb. cbn zeta. destruct (same_color (color_of p) (pp_side s)); [|reflexivity]. cbn [negb andb].
    rewrite piece_unpromote_ok by auto. cbn [bind].
    rewrite can_be_in_hand_eq.
    destruct (pk_unpromote (kind_of p)) eqn:U; cbn [option_map].
    { replace (is_hand_piece (kind_of p)) with false by (destruct (kind_of p); try discriminate U; reflexivity). reflexivity. }
    rewrite piece_at_ok by auto. cbn [bind].
    destruct (cell s t) as [e|].
    { destruct (is_hand_piece (kind_of p) && _); reflexivity. }
    rewrite piece_piece_kind_ok by auto. cbn [bind]. rewrite hand_of_a_player_ok by auto. cbn [bind].
    pose proof (hand_at_valid s (color_of p) W) as Vh. rewrite hand_removed_ok by auto. cbn [bind].
    destruct (is_hand_piece (kind_of p)) eqn:HP; [|reflexivity].
    destruct (0 <? in_hand (hand_at s (color_of p)) (kind_of p)) eqn:Z; [|reflexivity]. cbn [andb ptry]. unfold pret, pupd. cbn [bind].
    apply is_hand_piece_ok in HP. rewrite hand_store_ok by auto. cbn [bind]. pose proof (in_hand_lt (hand_at s (color_of p)) (kind_of p) Vh).
    rewrite piece_set_ok; [cbn [bind]; apply F| |auto|auto].
    apply set_hand_wf; auto. apply hand_put_valid; auto. lia.
Qed.
