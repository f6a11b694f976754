(** Proofs of the property theorems on pieces and option types (restated in Prop_Piece.v). *)
From Verif Require Export LPiece LSquare LMove MResolution.
(*PROPHEAD
Property theorems C05-C07: pieces, promotion, C-compatible option types
*)

(** C05: [to_parts] inverts [Piece::new], and so do [piece_kind] and [color]. *)
Lemma c05_new_to_parts_pf : forall P k c,
  exists p, piece_new P k c = Ret p /\ valid_piece p /\ piece_to_parts p = Ret (k, c) /\
            piece_piece_kind p = Ret k /\ piece_color p = Ret c.
Proof.
  intros. exists (piece_of k c). pose proof (piece_of_valid k c).
  rewrite piece_new_ok, piece_to_parts_ok, piece_piece_kind_ok, piece_color_ok by auto.
  rewrite kind_of_of, color_of_of. auto.
Qed.

(** C05: [Piece::new] inverts [to_parts]: every piece is a (kind, color) pair, and only one. *)
Lemma c05_to_parts_new_pf : forall P p, valid_piece p ->
  exists k c, piece_to_parts p = Ret (k, c) /\ piece_new P k c = Ret p /\
    forall k' c', piece_new P k' c' = Ret p -> k' = k /\ c' = c.
Proof.
  intros P p H. exists (kind_of p), (color_of p).
  rewrite piece_to_parts_ok, piece_new_ok, piece_of_parts by auto. do 2 (split; auto).
  intros k' c'. rewrite piece_new_ok. intros [= <-]. now rewrite kind_of_of, color_of_of.
Qed.

(** C05: [as_u8] is 1..=14 for Black and 17..=30 for White, in the order of kinds, hence injective;
    [from_u8_unchecked] inverts it. *)
Lemma c05_as_u8_pf : forall P k c,
  exists p, piece_new P k c = Ret p /\
    piece_as_u8 p = pk_as_u8 k + (match c with Black => 0 | White => 16 end) /\
    (match c with Black => 1 <= piece_as_u8 p <= 14 | White => 17 <= piece_as_u8 p <= 30 end) /\
    piece_from_u8_unchecked (piece_as_u8 p) = Ret p.
Proof.
  intros. exists (piece_of k c). rewrite piece_new_ok. split; auto.
  unfold piece_as_u8. rewrite piece_from_u8_ok by apply piece_of_valid.
  split; [destruct k, c; reflexivity|]. split; auto. destruct k, c; simpl; lia.
Qed.

(** C05: [as_u8] and [==] identify the piece. *)
Lemma c05_as_u8_injective_pf : forall p q, valid_piece p -> valid_piece q ->
  (piece_as_u8 p = piece_as_u8 q <-> p = q) /\ (piece_eqb p q = true <-> p = q) /\
  (p = q <-> piece_to_parts p = piece_to_parts q).
Proof.
  intros p q Hp Hq. split; [|split].
  - split; [apply piece_inj|congruence].
  - apply piece_eqb_eq.
  - split; [congruence|]. rewrite !piece_to_parts_ok by auto. intros [= E1 E2].
    now rewrite <- (piece_of_parts p), <- (piece_of_parts q), E1, E2.
Qed.

(** C05: [Piece::all] lists the 28 pieces, each exactly once. *)
Lemma c05_all_pieces_pf : forall P, exists l, piece_all P = Ret l /\ NoDup l /\ length l = 28%nat /\
  forall p, In p l <-> valid_piece p.
Proof. exact piece_all_ok. Qed.

(** C05: [array_index] is below [NUM] and injective. *)
Lemma c05_array_index_pf : forall P p, valid_piece p ->
  exists i, piece_array_index P p = Ret i /\ i < PIECE_NUM /\
    forall q, valid_piece q -> piece_array_index P q = Ret i -> q = p.
Proof.
  intros P p H. exists (piece_repr p - 1). rewrite piece_array_index_ok by auto.
  split; [auto|]. unfold PIECE_NUM, valid_piece in *. split; [lia|].
  intros q Hq. rewrite piece_array_index_ok by auto. intros [= E]. apply piece_inj. lia.
Qed.

(** C06: promotion of kinds is the promotion of shogi, and [unpromote] is its inverse. *)
Lemma c06_kind_promotion_pf : forall k l,
  (pk_promote k = Some l <-> promotes_to k l) /\ (pk_unpromote l = Some k <-> promotes_to k l).
Proof. intros. split; [apply pk_promote_spec|apply pk_unpromote_spec]. Qed.

(** C06: exactly six kinds promote; a promoted kind does not promote again, and an unpromoted one does not unpromote. *)
Lemma c06_promotable_kinds_pf : forall k,
  (pk_promote k <> None <-> In k [Pawn; Lance; Knight; Silver; Bishop; Rook]) /\
  (pk_unpromote k <> None <-> In k [ProPawn; ProLance; ProKnight; ProSilver; ProBishop; ProRook]).
Proof. intros k. split; destruct k; simpl; split; intros H; try discriminate; try tauto; intuition discriminate. Qed.

(** C06: promotion of pieces acts on the kind and keeps the color. *)
Lemma c06_piece_promotion_pf : forall P k c,
  exists p, piece_new P k c = Ret p /\
    (forall l, promotes_to k l ->
       exists q, piece_new P l c = Ret q /\ piece_promote P p = Ret (Some q) /\ piece_unpromote P q = Ret (Some p)) /\
    ((forall l, ~ promotes_to k l) -> piece_promote P p = Ret None) /\
    ((forall l, ~ promotes_to l k) -> piece_unpromote P p = Ret None).
Proof.
  intros. exists (piece_of k c). rewrite piece_new_ok, piece_promote_ok, piece_unpromote_ok by apply piece_of_valid.
  rewrite kind_of_of, color_of_of. split; auto. repeat split.
  - intros l H. exists (piece_of l c). rewrite piece_new_ok, piece_unpromote_ok by apply piece_of_valid.
    rewrite kind_of_of, color_of_of. destruct H; auto.
  - intros H. destruct (pk_promote k) as [l|] eqn:E; auto. apply pk_promote_spec in E. now apply H in E.
  - intros H. destruct (pk_unpromote k) as [l|] eqn:E; auto. apply pk_unpromote_spec in E. now apply H in E.
Qed.

(** C05: [option_array_index] of kinds is a bijection onto 0..[OPTION_NUM], and [array_index] one onto 0..[NUM]. *)
Lemma c05_option_array_index_pf :
  (forall o, pk_option_array_index o < PIECE_KIND_OPTION_NUM) /\
  (forall o o', pk_option_array_index o = pk_option_array_index o' -> o = o') /\
  (forall n, n < PIECE_KIND_OPTION_NUM -> exists o, pk_option_array_index o = n) /\
  pk_option_array_index None = 0 /\
  (forall P k, pk_array_index P k = Ret (pk_option_array_index (Some k) - 1) /\ pk_option_array_index (Some k) - 1 < PIECE_KIND_NUM) /\
  (forall n, n < PIECE_KIND_NUM -> exists k, forall P, pk_array_index P k = Ret n).
Proof.
  split; [intros [[]|]; reflexivity|]. split; [intros [[]|] [[]|]; (discriminate || reflexivity)|]. split.
  { intros n H. assert (D : forallb (fun n => match find (fun o => pk_option_array_index o =? n) (None :: map Some pk_all) with Some _ => true | None => false end)
      (map N.of_nat (seq 0 15)) = true) by (vm_compute; reflexivity).
    rewrite forallb_forall in D. specialize (D n). destruct (find _ _) as [o|] eqn:F.
    - apply find_some in F as [_ F]. apply N.eqb_eq in F. eauto.
    - discriminate D. apply in_map_iff. exists (N.to_nat n). unfold PIECE_KIND_OPTION_NUM in H. split; [lia|]. apply in_seq. lia. }
  split; [reflexivity|]. split; [intros P []; destruct P; split; reflexivity|].
  intros n H. assert (D : forallb (fun n => match find (fun k => pk_as_u8 k - 1 =? n) pk_all with Some _ => true | None => false end)
      (map N.of_nat (seq 0 14)) = true) by (vm_compute; reflexivity).
  rewrite forallb_forall in D. specialize (D n). destruct (find _ _) as [k|] eqn:F.
  - apply find_some in F as [_ F]. apply N.eqb_eq in F. exists k. intros P. rewrite pk_array_index_ok, <- pk_as_u8_number. now f_equal.
  - discriminate D. apply in_map_iff. exists (N.to_nat n). unfold PIECE_KIND_NUM in H. split; [lia|]. apply in_seq. lia.
Qed.

(** C05: the C constructor. *)
Lemma c05_c_new_pf : forall P k c, exists p, Piece_new P k c = Ret p /\ valid_piece p /\
  piece_to_parts p = Ret (k, c) /\ piece_piece_kind p = Ret k /\ piece_color p = Ret c.
Proof.
  intros P k c. exists (piece_of k c). pose proof (piece_of_valid k c) as V. unfold Piece_new. rewrite piece_new_ok, piece_to_parts_ok, piece_piece_kind_ok, piece_color_ok by auto.
  rewrite kind_of_of, color_of_of. auto.
Qed.

(** C06: the C functions on kinds: the number of the promoted (unpromoted) kind, 0 if there is none. *)
Lemma c06_c_kind_pf : forall k,
  (forall l, promotes_to k l -> opk_repr (PieceKind_promote k) = pk_as_u8 l /\ opk_into (PieceKind_promote k) = Ret (Some l)) /\
  (forall l, promotes_to l k -> opk_repr (PieceKind_unpromote k) = pk_as_u8 l /\ opk_into (PieceKind_unpromote k) = Ret (Some l)) /\
  ((forall l, ~ promotes_to k l) -> opk_repr (PieceKind_promote k) = 0) /\
  ((forall l, ~ promotes_to l k) -> opk_repr (PieceKind_unpromote k) = 0).
Proof.
  intros k. unfold PieceKind_promote, PieceKind_unpromote. repeat split.
  - destruct H; reflexivity.
  - destruct H; reflexivity.
  - destruct H; reflexivity.
  - destruct H; reflexivity.
  - intros H. destruct (pk_promote k) as [l|] eqn:E; [|reflexivity]. apply pk_promote_spec in E. now apply H in E.
  - intros H. destruct (pk_unpromote k) as [l|] eqn:E; [|reflexivity]. apply pk_unpromote_spec in E. now apply H in E.
Qed.

(** C06: the C functions on pieces. *)
Lemma c06_c_piece_pf : forall P k c p, piece_new P k c = Ret p ->
  (forall l, promotes_to k l -> exists q, piece_new P l c = Ret q /\
     Piece_promote P p = Ret (op_from (Some q)) /\ Piece_unpromote P q = Ret (op_from (Some p))) /\
  ((forall l, ~ promotes_to k l) -> exists o, Piece_promote P p = Ret o /\ op_repr o = 0) /\
  ((forall l, ~ promotes_to l k) -> exists o, Piece_unpromote P p = Ret o /\ op_repr o = 0).
Proof.
  intros P k c p E. destruct (c06_piece_promotion_pf P k c) as (p' & E' & A & B & C). rewrite E in E'. injection E' as <-.
  unfold Piece_promote, Piece_unpromote. repeat split.
  - intros l H. destruct (A l H) as (q & E1 & E2 & E3). exists q. rewrite E2, E3. auto.
  - intros H. rewrite (B H). eexists. split; reflexivity.
  - intros H. rewrite (C H). eexists. split; reflexivity.
Qed.

(** C07: [OptionPiece] and [OptionPieceKind]. *)
Lemma c07_option_piece_round_trip_pf : forall o : option piece,
  (forall p, o = Some p -> valid_piece p) ->
  op_into (op_from o) = o /\ (op_repr (op_from o) = 0 <-> o = None) /\
  (forall o', (forall p, o' = Some p -> valid_piece p) -> op_repr (op_from o') = op_repr (op_from o) -> o' = o).
Proof.
  assert (R : forall o, (forall p, o = Some p -> valid_piece p) -> op_into (op_from o) = o)
    by (intros o H; apply op_round; destruct o; auto).
  intros o H. split; [auto|]. split.
  - destruct o as [p|]; simpl; [|tauto]. specialize (H p eq_refl). unfold valid_piece in H. split; [lia|discriminate].
  - intros o' H' E. rewrite <- (R o), <- (R o') by auto. f_equal. now apply op_inj.
Qed.

(** C07: [OptionPieceKind]; [PieceKind::from_u8] accepts exactly 1..=14. *)
Lemma c07_option_piece_kind_pf : forall (o o' : option piece_kind) v,
  opk_into (opk_from o) = Ret o /\ (opk_repr (opk_from o) = 0 <-> o = None) /\
  (opk_repr (opk_from o) = opk_repr (opk_from o') -> o = o') /\
  (1 <= v <= 14 -> exists k, pk_from_u8 v = Ret (Some k) /\ pk_as_u8 k = v /\
                             PieceKind_from_u8 v = Ret (opk_from (Some k))) /\
  (~ (1 <= v <= 14) -> pk_from_u8 v = Ret None /\ PieceKind_from_u8 v = Ret (opk_from None)).
Proof.
  intros o o' v. repeat split.
  - destruct o as [[]|]; reflexivity.
  - destruct o as [[]|]; [discriminate..|auto].
  - now intros ->.
  - intros E. destruct o as [k|], o' as [k'|]; simpl in E; auto.
    + f_equal. apply kind_number_inj. now rewrite <- !pk_as_u8_number.
    + rewrite pk_as_u8_number in E. pose proof (kind_number_range k); lia.
    + rewrite pk_as_u8_number in E. pose proof (kind_number_range k'); lia.
  - intros H. destruct (pk_from_u8_unchecked_range v H) as (k & E1 & E2).
    exists k. unfold PieceKind_from_u8, pk_from_u8. apply in_range_iff in H. rewrite H, E1, pk_as_u8_number. auto.
  - unfold pk_from_u8. destruct (in_range 1 14 v) eqn:E; auto. apply in_range_iff in E. tauto.
  - unfold PieceKind_from_u8, pk_from_u8. destruct (in_range 1 14 v) eqn:E; auto. apply in_range_iff in E. tauto.
Qed.

(** C07: [OptionCompactMove]. *)
Lemma c07_option_compact_move_round_trip_pf : forall o : option compact_move,
  (forall c, o = Some c -> valid_compact c) ->
  ocm_into (ocm_from o) = o /\ (ocm_repr (ocm_from o) = 0 <-> o = None) /\
  (forall o', (forall c, o' = Some c -> valid_compact c) -> ocm_repr (ocm_from o') = ocm_repr (ocm_from o) -> o' = o).
Proof.
  assert (R : forall o, (forall c, o = Some c -> valid_compact c) -> ocm_into (ocm_from o) = o)
    by (intros o H; apply ocm_round; destruct o; auto).
  intros o H. split; [auto|]. split.
  - destruct o as [c|]; simpl; [|tauto]. destruct (H c eq_refl) as (m & V & E).
    pose proof (packed_nonzero m V). split; [congruence|discriminate].
  - intros o' H' E. rewrite <- (R o), <- (R o') by auto. f_equal. now apply ocm_inj.
Qed.

(** C07: [OptionGameResolution]; the default is [None]. *)
Lemma c07_option_game_resolution_round_trip_pf : forall o o' : option game_resolution,
  ogr_into (ogr_from o) = Ret o /\ (ogr_repr (ogr_from o) = 0 <-> o = None) /\
  (ogr_repr (ogr_from o) = ogr_repr (ogr_from o') -> o = o') /\ ogr_into ogr_default = Ret None.
Proof.
  intros o o'. split; [destruct o as [[]|]; reflexivity|]. split; [destruct o as [[]|]; simpl; split; (discriminate || reflexivity)|].
  split; [|reflexivity]. destruct o as [[]|], o' as [[]|]; simpl; intros E; (discriminate || reflexivity).
Qed.

(** C07: [ResultUnitIllegalMoveKind], through [Option] and through [Result]; [IllegalMoveKind::from_u8] accepts exactly 1..=7. *)
Lemma c07_result_illegal_move_kind_pf : forall (r r' : result illegal_move_kind) (o o' : option illegal_move_kind) v,
  rui_into_result (rui_from_result r) = Ret r /\ (rui_repr (rui_from_result r) = 0 <-> r = ROk) /\
  (rui_repr (rui_from_result r) = rui_repr (rui_from_result r') -> r = r') /\
  rui_into_option (rui_from_option o) = Ret o /\ (rui_repr (rui_from_option o) = 0 <-> o = None) /\
  (rui_repr (rui_from_option o) = rui_repr (rui_from_option o') -> o = o') /\
  rui_into_result rui_default = Ret ROk /\
  (1 <= v <= 7 -> exists k, imk_from_u8 v = Ret (Some k) /\ imk_as_u8 k = v) /\
  (~ (1 <= v <= 7) -> imk_from_u8 v = Ret None).
Proof.
  intros r r' o o' v.
  split; [destruct r as [|[]]; reflexivity|].
  split; [destruct r as [|[]]; simpl; split; (discriminate || reflexivity)|].
  split; [destruct r as [|[]], r' as [|[]]; simpl; intros E; (discriminate || reflexivity)|].
  split; [destruct o as [[]|]; reflexivity|].
  split; [destruct o as [[]|]; simpl; split; (discriminate || reflexivity)|].
  split; [destruct o as [[]|], o' as [[]|]; simpl; intros E; (discriminate || reflexivity)|].
  split; [reflexivity|]. split.
  - intros H. assert (In v (range 1 8)) as I by (apply range_In; lia). vm_compute in I.
    repeat (destruct I as [<-|I]; [eexists; split; reflexivity|]). destruct I.
  - intros H. unfold imk_from_u8. destruct (in_range 1 7 v) eqn:E; auto. apply in_range_iff in E. tauto.
Qed.
