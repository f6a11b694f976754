(** Every row of the interface table returns normally on valid arguments. *)
From Verif Require Import Machine MColor MPieceKind MPiece MSquare MMove MHand MBitboard MResolution MPosition MOrdHash SpecBase SpecBoard SpecPos SpecSfen SpecApi.
From Verif Require Import LBase LBits LPiece LSquare LHand LMove LBitboard LShift LPosition LRefine LExt LWriter LSfen.
From Coq Require Import Lia.

(** the three functions that pop, and the argument on which they panic in a build with debug assertions *)
Definition stray (ts : list ty) : dens ts -> Prop :=
  match ts with TBB :: _ => fun x => bb0 (fst x) = 2 ^ 63 | _ => fun _ => False end.
Definition row (lax : bool) (P : profile) (a : api) : Prop :=
  forall args, oks lax P (a_args a) args -> a_pre a lax args = true ->
  (exists v, a_fun a P args = Ret v /\ vok lax P (a_ret a) v) \/
  (lax = true /\ debug_assertions P = true /\ a_fun a P args = Panic /\ pops a /\ stray (a_args a) args).

Lemma row_fn0 lax P n r f : (exists v, f P = Ret v /\ vok lax P r v) -> row lax P (fn0 n r f).
Proof. intros H args _ _. left. exact H. Qed.
Lemma row_fn1 lax P n t r f : (forall x, vok lax P t x -> exists v, f P x = Ret v /\ vok lax P r v) -> row lax P (fn1 n t r f).
Proof. intros H args O _. left. apply H, O. Qed.
Lemma row_fn2 lax P n t u r f : (forall x y, vok lax P t x -> vok lax P u y -> exists v, f P x y = Ret v /\ vok lax P r v) -> row lax P (fn2 n t u r f).
Proof. intros H args O _. left. apply H; apply O. Qed.
Lemma row_fn3 lax P n t u w r f : (forall x y z, vok lax P t x -> vok lax P u y -> vok lax P w z -> exists v, f P x y z = Ret v /\ vok lax P r v) -> row lax P (fn3 n t u w r f).
Proof. intros H args O _. left. apply H; apply O. Qed.
Lemma row_un1 lax P n t r p f : (forall x, vok lax P t x -> p lax x = true -> exists v, f P x = Ret v /\ vok lax P r v) -> row lax P (un1 n t r p f).
Proof. intros H args O Q. left. apply H; [apply O|exact Q]. Qed.
Lemma row_un2 lax P n t u r p f : (forall x y, vok lax P t x -> vok lax P u y -> p lax x y = true -> exists v, f P x y = Ret v /\ vok lax P r v) -> row lax P (un2 n t u r p f).
Proof. intros H args O Q. left. apply H; [apply O|apply O|exact Q]. Qed.

Ltac rows :=
  repeat (apply Forall_cons; [first [apply row_fn0|apply row_fn1|apply row_fn2|apply row_fn3|apply row_un1|apply row_un2|idtac]; cbn [vok]|]);
  [..|apply Forall_nil].
Ltac triv := try (intros; eexists; split; [reflexivity|first [exact I|match goal with |- match ?o with _ => _ end => now destruct o end]]).
(** a function known to return [v] *)
Ltac returns := eexists; split; [reflexivity|].


Lemma owned P (f : printer) t : prints f t -> exists v, to_usi_owned P (f _ string_sink) = Ret v /\ True.
Proof.
  intros H. apply prints_string in H. unfold to_usi_owned, string_sink. rewrite H. cbn [bind]. exists t. split; auto. now destruct P.
Qed.

Lemma rows_color lax P : Forall (row lax P) api_color.
Proof.
  unfold api_color. rows; triv.
  - intros c _. rewrite color_flip_ok. returns. exact I.
  - intros c _. rewrite color_array_index_ok. returns. destruct c; reflexivity.
  - returns. repeat constructor.
  - intros c _. apply (owned P (fun W K => color_to_usi K c) _ (prints_color c)).
Qed.

Lemma rows_kind lax P : Forall (row lax P) api_piece_kind.
Proof.
  unfold api_piece_kind. rows; triv.
  - intros n _. unfold pk_from_u8. destruct (in_range 1 14 n) eqn:E; [|returns; exact I].
    unfold in_range in E. destruct (pk_from_u8_unchecked_range n ltac:(lia)) as (k & -> & _). returns. exact I.
  - intros n _. unfold PieceKind_from_u8, pk_from_u8. destruct (in_range 1 14 n) eqn:E; [|returns; cbn; lia].
    unfold in_range in E. destruct (pk_from_u8_unchecked_range n ltac:(lia)) as (k & -> & _). returns. cbn. destruct k; cbn; lia.
  - intros n _ E. unfold in_range in E. destruct (pk_from_u8_unchecked_range n ltac:(lia)) as (k & -> & _). returns. exact I.
  - intros k _. returns. destruct k; cbn; lia.
  - intros k _. returns. destruct k; cbn; lia.
  - intros k _. rewrite pk_array_index_ok. returns. destruct k; reflexivity.
  - intros [k|] _; returns; [destruct k|]; reflexivity.
  - returns. repeat constructor.
  - intros k _. apply (owned P (fun W K => pk_to_usi P K k) _ (prints_kind P k)).
  - intros [k|] _; returns; [destruct k; cbn|cbn]; lia.
  - intros [n] H. cbn [opk_repr] in H. unfold opk_into. cbn [opk_repr]. destruct (N.eqb_spec n 0); [returns; exact I|].
    destruct (pk_from_u8_unchecked_range n ltac:(lia)) as (k & -> & _). returns. exact I.
Qed.

Lemma rows_piece lax P : Forall (row lax P) api_piece.
Proof.
  unfold api_piece. rows; triv.
  - intros k c _ _. rewrite piece_new_ok. returns. apply piece_of_valid.
  - intros k c _ _. unfold Piece_new. rewrite piece_new_ok. returns. apply piece_of_valid.
  - intros p V. rewrite piece_to_parts_ok by auto. returns. split; exact I.
  - intros p V. rewrite piece_piece_kind_ok by auto. returns. exact I.
  - intros p V. rewrite piece_color_ok by auto. returns. exact I.
  - intros p V. returns. unfold piece_as_u8, valid_piece in *. lia.
  - intros p V. rewrite piece_promote_ok by auto. returns. destruct (pk_promote _); cbn; auto using piece_of_valid.
  - intros p V. rewrite piece_unpromote_ok by auto. returns. destruct (pk_unpromote _); cbn; auto using piece_of_valid.
  - intros p V. unfold Piece_promote. rewrite piece_promote_ok by auto. cbn [bind]. returns. destruct (pk_promote _); cbn; auto. right. apply piece_of_valid.
  - intros p V. unfold Piece_unpromote. rewrite piece_unpromote_ok by auto. cbn [bind]. returns. destruct (pk_unpromote _); cbn; auto. right. apply piece_of_valid.
  - intros p V. rewrite piece_array_index_ok by auto. returns. unfold valid_piece in V. change (2 ^ 64) with 18446744073709551616. lia.
  - destruct (piece_all_ok P) as (l & -> & _ & _ & H). returns. apply Forall_forall. apply H.
  - intros p V. apply (owned P (fun W K => piece_to_usi P K p) _ (prints_piece P p V)).
  - intros [p|] V; returns; cbn; try (destruct p); auto.
  - intros [n] V. cbn [op_repr] in V. returns. unfold op_into, nonzero_new. cbn [op_repr]. destruct (N.eqb_spec n 0); auto. destruct V; tauto.
Qed.

Lemma valid_square_u8 s : valid_square s -> sq_repr s < 256.
Proof. unfold valid_square. lia. Qed.
Lemma on_board_dec f r : on_board f r \/ ~ on_board f r.
Proof. unfold on_board. lia. Qed.

Lemma rows_square lax P : Forall (row lax P) api_square.
Proof.
  assert (N1 : forall f r, f < 256 -> r < 256 -> exists o, sq_new P f r = Ret o /\ match o with Some s => valid_square s | None => True end).
  { intros f r F R. destruct (on_board_dec f r) as [B|B]; [rewrite sq_new_some by auto|rewrite sq_new_none by auto]; returns; [now apply square_at_valid|exact I]. }
  assert (N2 : forall f r c, f < 256 -> r < 256 -> exists o, sq_new_relative P f r c = Ret o /\ match o with Some s => valid_square s | None => True end).
  { intros f r c F R. destruct (on_board_dec f r) as [B|B]; [rewrite sq_new_relative_some by auto|rewrite sq_new_relative_none by auto]; returns; [|exact I].
    destruct c; [now apply square_at_valid|now apply rotate_valid, square_at_valid]. }
  assert (OS : forall o, match o with Some s => valid_square s | None => True end -> os_repr (os_from o) <= 81).
  { intros [s|]; cbn; unfold valid_square; lia. }
  assert (FR : forall s c, valid_square s -> exists v w, sq_relative_rank P s c = Ret v /\ v < 256 /\ sq_relative_file P s c = Ret w /\ w < 256).
  { intros s c V. pose proof (coords_on_board s V) as [F R]. unfold sq_relative_rank, sq_relative_file.
    rewrite sq_file_ok, sq_rank_ok by auto. cbn [bind]. destruct c; cbn [bind].
    - do 2 eexists. repeat split; try reflexivity; lia.
    - rewrite !sub_w_ok by lia. do 2 eexists. repeat split; try reflexivity; lia. }
  unfold api_square. rows; triv.
  - intros f r F R. apply N1; auto.
  - intros f r F R. unfold Square_new. destruct (N1 f r F R) as (o & -> & V). returns. now apply OS.
  - intros f r c F R _. apply N2; auto.
  - intros f r c F R _. unfold Square_new_relative. destruct (N2 f r c F R) as (o & -> & V). returns. now apply OS.
  - intros s V. rewrite sq_file_ok by auto. returns. pose proof (coords_on_board s V) as [F R]. lia.
  - intros s V. rewrite sq_rank_ok by auto. returns. pose proof (coords_on_board s V) as [F R]. lia.
  - intros s V. rewrite sq_index_ok by auto. returns. now apply valid_square_u8.
  - intros s c V _. destruct (FR s c V) as (v & w & -> & ? & _). returns. auto.
  - intros s c V _. destruct (FR s c V) as (v & w & _ & _ & -> & ?). returns. auto.
  - intros s V. rewrite sq_flip_ok by auto. returns. now apply rotate_valid.
  - intros n H. returns. rewrite sq_from_u8_ok by auto. destruct (in_range 1 81 n) eqn:E; auto. unfold in_range in E. unfold valid_square. cbn. lia.
  - intros n _ E. unfold in_range in E. rewrite sq_from_u8_unchecked_ok by lia. returns. unfold valid_square. cbn. lia.
  - intros s df dr V F R. destruct (sq_shift_ok P s df dr V F R) as [A B].
    assert (D : z_on_board (Z.of_N (file_of s) + df) (Z.of_N (rank_of s) + dr) \/ ~ z_on_board (Z.of_N (file_of s) + df) (Z.of_N (rank_of s) + dr)) by (unfold z_on_board; lia).
    destruct D as [D|D]; [rewrite A by auto|rewrite B by auto]; returns; [|exact I]. apply square_at_valid. unfold z_on_board in D. unfold on_board. lia.
  - intros s V. rewrite sq_array_index_ok by auto. returns. unfold valid_square in V. change (2 ^ 64) with 18446744073709551616. lia.
  - rewrite sq_all_ok. returns. apply Forall_forall. intros s. apply valid_square_In.
  - intros s V. apply (owned P (fun W K => sq_to_usi P K s) _ (prints_square P s V)).
  - intros o V. returns. now apply OS.
  - intros [n] V. cbn [os_repr] in V. returns. unfold os_into, nonzero_new. cbn [os_repr]. destruct (N.eqb_spec n 0); auto. unfold valid_square. cbn. lia.
Qed.

Lemma rows_mv lax P : Forall (row lax P) api_mv.
Proof.
  assert (C : forall c, valid_compact c -> exists m, valid_move m /\ c = CompactMove (packed m)) by apply valid_compact_move.
  assert (VC : forall m, valid_move m -> valid_compact (CompactMove (packed m))) by (intros m V; exists m; auto).
  assert (VT : forall m, valid_move m -> valid_square (mv_to m)) by (intros [f t b|p t] V; apply V).
  assert (VF : forall m, valid_move m -> match mv_from m with Some s => valid_square s | None => True end) by (intros [f t b|p t] V; cbn; auto; apply V).
  unfold api_mv. rows; triv.
  - intros f t b V1 V2 _. returns. split; auto.
  - intros p t V1 V2. returns. split; auto.
  - intros m V. returns. now apply VF.
  - intros m V. returns. now apply VT.
  - intros m V. rewrite cm_of_move_ok by auto. returns. auto.
  - intros c V. destruct (C c V) as (m & Vm & ->). rewrite move_of_cm_ok by auto. returns. auto.
  - intros f t b V1 V2 _. rewrite cm_normal_eq, cm_of_move_ok by (split; auto). returns. apply VC. split; auto.
  - intros p t V1 V2. rewrite cm_drop_eq, cm_of_move_ok by (split; auto). returns. apply VC. split; auto.
  - intros c V. destruct (C c V) as (m & Vm & ->). destruct (cm_all P m Vm) as (_ & _ & -> & _). returns. now apply VF.
  - intros c V. destruct (C c V) as (m & Vm & ->). unfold CompactMove_from. destruct (cm_all P m Vm) as (_ & _ & -> & _). returns.
    specialize (VF m Vm). destruct (mv_from m); cbn; unfold valid_square in *; lia.
  - intros c V. destruct (C c V) as (m & Vm & ->). destruct (cm_all P m Vm) as (_ & _ & _ & -> & _). returns. now apply VT.
  - intros m V. apply (owned P (fun W K => move_to_usi P K m) _ (prints_move P m V)).
  - intros c V. apply (owned P (fun W K => cm_to_usi P K c) _ (prints_compact P c V)).
  - intros [c|] V; returns; cbn; try (destruct c); auto.
  - intros [n] V. cbn [ocm_repr] in V. returns. unfold ocm_into, nonzero_new. cbn [ocm_repr]. destruct (N.eqb_spec n 0); auto. destruct V; tauto.
Qed.

Lemma rows_hand lax P : Forall (row lax P) api_hand.
Proof.
  assert (A : forall h k, valid_hand h -> exists o, hand_added P h k = Ret o /\ match o with Some h => valid_hand h | None => True end).
  { intros h k V. rewrite hand_added_ok by auto. returns. destruct (is_hand_piece k) eqn:E; auto. apply hand_put_valid; auto; [now apply is_hand_piece_ok|lia]. }
  assert (R : forall h k, valid_hand h -> exists o, hand_removed P h k = Ret o /\ match o with Some h => valid_hand h | None => True end).
  { intros h k V. rewrite hand_removed_ok by auto. returns. destruct (is_hand_piece k) eqn:E; cbn [andb]; auto. destruct (0 <? in_hand h k); auto.
    apply hand_put_valid; auto; [now apply is_hand_piece_ok|]. pose proof (in_hand_lt h k V). lia. }
  assert (K : forall h k, valid_hand h -> exists o, hand_count P h k = Ret o /\ match o with Some n => n < 256 | None => True end).
  { intros h k V. rewrite hand_count_ok by auto. returns. destruct (is_hand_piece k); auto. now apply in_hand_lt. }
  unfold api_hand. rows; triv.
  - returns. apply hand_new_valid.
  - returns. apply hand_new_valid.
  - intros h k V _. now apply A.
  - intros h k V _. now apply R.
  - intros h k V _. now apply K.
  - intros h k V _. unfold Hand_add. destruct (A h k V) as ([h'|] & -> & V'); returns; cbn; auto.
  - intros h k V _. unfold Hand_remove. destruct (R h k V) as ([h'|] & -> & V'); returns; cbn; auto.
  - intros h k V _. unfold Hand_count. destruct (K h k V) as ([n|] & -> & V'); returns; cbn; auto; lia.
  - exists hand_kinds. split; [reflexivity|repeat constructor].
  - intros a b V W. apply (owned P (fun W K => hands_to_usi P K [a; b]) _ (prints_hands P a b V W)).
Qed.

Lemma rows_resolution lax P : Forall (row lax P) api_game_resolution.
Proof.
  assert (G : forall n, 1 <= n <= 5 -> exists g, gr_from_u8_unchecked n = Ret g).
  { intros n H. assert (n = 1 \/ n = 2 \/ n = 3 \/ n = 4 \/ n = 5) as E by lia. repeat destruct E as [->|E]; subst; eexists; reflexivity. }
  assert (K : forall n, 1 <= n <= 7 -> exists g, imk_from_u8_unchecked n = Ret g).
  { intros n H. assert (n = 1 \/ n = 2 \/ n = 3 \/ n = 4 \/ n = 5 \/ n = 6 \/ n = 7) as E by lia. repeat destruct E as [->|E]; subst; eexists; reflexivity. }
  unfold api_game_resolution. rows; triv.
  - intros n _ E. unfold in_range in E. destruct (G n) as [g ->]; [lia|]. returns. exact I.
  - returns. unfold valid_resolution. cbn. lia.
  - intros [g|] _; returns; [destruct g|]; unfold valid_resolution; cbn; lia.
  - intros [n] V. unfold valid_resolution in V. cbn in V. unfold ogr_into. cbn [ogr_repr]. destruct (N.eqb_spec n 0); [returns; exact I|].
    destruct (G n) as [g ->]; [lia|]. returns. exact I.
  - intros n _. unfold imk_from_u8. destruct (in_range 1 7 n) eqn:E; [|returns; exact I]. unfold in_range in E. destruct (K n) as [g ->]; [lia|]. returns. exact I.
  - intros n _ E. unfold in_range in E. destruct (K n) as [g ->]; [lia|]. returns. exact I.
  - returns. cbn. lia.
  - intros [g|] _; returns; [destruct g|]; cbn; lia.
  - intros [n] V. cbn in V. unfold rui_into_option. cbn [rui_repr]. destruct (N.eqb_spec n 0); [returns; exact I|].
    destruct (K n) as [g ->]; [lia|]. returns. exact I.
  - intros [|g] _; returns; [|destruct g]; cbn; lia.
  - intros [n] V. cbn in V. unfold rui_into_result. cbn [rui_repr]. destruct (N.eqb_spec n 0); [returns; exact I|].
    destruct (K n) as [g ->]; [lia|]. returns. exact I.
Qed.

(** ** Bitboards *)
Notation width lax := (if lax : bool then 64 else 63).
Lemma vb_bits lax b : valid_bitboard lax b <->
  (forall i, width lax <= i -> N.testbit (bb0 b) i = false) /\ (forall i, 18 <= i -> N.testbit (bb1 b) i = false).
Proof. unfold valid_bitboard. now rewrite !lt_pow2_bits. Qed.
Lemma vb_strict lax b : valid_bb b -> valid_bitboard lax b.
Proof. unfold valid_bb, valid_bitboard. intros [A B]. split; auto. destruct lax; auto. now apply pow63_64. Qed.
Lemma vb_lax lax b : valid_bitboard lax b -> bb0 b < 2 ^ 64 /\ bb1 b < 2 ^ 18.
Proof. intros [A B]. split; auto. destruct lax; auto. now apply pow63_64. Qed.
Lemma vb_u64 lax b : valid_bitboard lax b -> bb0 b < 2 ^ 64 /\ bb1 b < 2 ^ 64.
Proof. intros V. apply vb_lax in V as [A B]. split; auto. now apply pow18_64. Qed.
Lemma vb_high b : bb1 b < 2 ^ 18 -> forall i, 18 <= i -> N.testbit (bb1 b) i = false.
Proof. intros H. now apply lt_pow2_bits. Qed.
Lemma vb_or lax a b : valid_bitboard lax a -> valid_bitboard lax b -> valid_bitboard lax (bb_or a b).
Proof. rewrite !vb_bits. intros [A0 A1] [B0 B1]. cbn. split; intros i Hi; rewrite N.lor_spec; [rewrite A0, B0|rewrite A1, B1]; auto. Qed.
Lemma vb_and lax a b : valid_bitboard lax a -> valid_bitboard lax b -> valid_bitboard lax (bb_and a b).
Proof. rewrite !vb_bits. intros [A0 A1] [B0 B1]. cbn. split; intros i Hi; rewrite N.land_spec; [rewrite A0, B0|rewrite A1, B1]; auto. Qed.
Lemma vb_xor lax a b : valid_bitboard lax a -> valid_bitboard lax b -> valid_bitboard lax (bb_xor a b).
Proof. rewrite !vb_bits. intros [A0 A1] [B0 B1]. cbn. split; intros i Hi; rewrite N.lxor_spec; [rewrite A0, B0|rewrite A1, B1]; auto. Qed.
Lemma vb_andnot lax a b : valid_bitboard lax b -> valid_bitboard lax (bb_andnot a b).
Proof. rewrite !vb_bits. intros [B0 B1]. cbn. split; intros i Hi; rewrite N.land_spec; [rewrite B0|rewrite B1]; auto using andb_false_r. Qed.
Lemma vb_count P b : bb0 b < 2 ^ 64 -> bb1 b < 2 ^ 64 -> exists n, bb_count P b = Ret n /\ n < 256.
Proof.
  intros _ _. unfold bb_count. 
  assert (C : forall x, count_ones64 x <= 64).
  { intros x. unfold count_ones64. pose proof (filter_length_le' (N.testbit x) (range 0 64)) as L. rewrite range_length in L. lia. }
  pose proof (C (bb0 b)). pose proof (C (bb1 b)). rewrite add_w_ok by (change (2 ^ 32) with 4294967296; lia). cbn [bind].
  eexists. split; [reflexivity|]. unfold cast_w, modulus. change (2 ^ 8) with 256. lia.
Qed.
Lemma flip_lax P b : exists b', bb_flip P b = Ret b' /\ valid_bb b'.
Proof.
  unfold bb_flip. rewrite shr_w_ok, !shl_w_ok by lia. cbn [bind]. eexists. split; [reflexivity|].
  rewrite valid_bb_bits. cbn [bb0 bb1]. split; intros i Hi; rewrite reverse_bits_spec.
  - destruct (N.ltb_spec i 64); auto. replace i with 63 by lia. rewrite N.land_spec, not_w_bits. simpl andb.
    change (63 - 63) with 0. simpl. apply andb_false_r.
  - destruct (N.ltb_spec i 64); auto. rewrite shl_bits. replace (46 <=? 63 - i) with false by lia. now rewrite andb_false_r.
Qed.
Lemma shift_down_lax P b d : bb1 b < 2 ^ 18 -> d <= 9 -> exists b', bb_shift_down P b d = Ret b' /\ valid_bb b'.
Proof.
  intros V Hd. pose proof (vb_high b V) as V1. destruct (down_mask_ok d Hd) as [M1 M2].
  unfold bb_shift_down. rewrite debug_assert_true by lia. cbn [bind]. fold top.
  rewrite sub_w_ok by lia. cbn [bind]. rewrite shr_w_ok by lia. cbn [bind]. rewrite sub_w_ok by auto. cbn [bind].
  rewrite !shl_w_ok by lia. cbn [bind]. eexists. split; [reflexivity|].
  apply valid_bb_bits. cbn [bb0 bb1]. split; intros i Hi; rewrite N.land_spec.
  - rewrite (bits_high (down_mask d) 63) by auto. apply andb_false_r.
  - rewrite shl_bits, !cast_bits. destruct (N.ltb_spec i 32); [|reflexivity]. simpl andb.
    rewrite down_mask_bits by lia. destruct (N.leb_spec d (i mod 9)); [|apply andb_false_r].
    rewrite (V1 (i - d)) by lia. now rewrite andb_false_r, andb_false_r.
Qed.
Lemma shift_up_lax P b d : bb1 b < 2 ^ 18 -> d <= 9 -> exists b', bb_shift_up P b d = Ret b' /\ valid_bb b'.
Proof.
  intros V Hd. pose proof (vb_high b V) as V1. destruct (up_mask_ok d Hd) as (M0 & M1 & M2).
  unfold bb_shift_up. rewrite debug_assert_true by lia. cbn [bind]. fold bottom.
  rewrite sub_w_ok by lia. cbn [bind]. rewrite shl_w_ok by lia. cbn [bind]. rewrite N.mod_small by auto.
  rewrite sub_w_ok by auto. cbn [bind].
  rewrite !shr_w_ok by lia. cbn [bind]. eexists. split; [reflexivity|].
  apply valid_bb_bits. cbn [bb0 bb1]. split; intros i Hi; rewrite N.land_spec.
  - rewrite (bits_high (up_mask d) 63) by auto. apply andb_false_r.
  - rewrite shr_bits, cast_bits. rewrite (V1 (i + d)) by lia. now rewrite andb_false_r.
Qed.
Lemma shift_left_lax P b d : d <= 9 -> exists b', bb_shift_left P b d = Ret b' /\ valid_bb b'.
Proof.
  intros Hd. unfold bb_shift_left. rewrite debug_assert_true by lia. cbn [bind].
  destruct (N.leb_spec d 1); [|destruct (N.leb_spec d 7)]; rewrite mul_w_ok by side; cbn [bind].
  1,2: rewrite !shl_w_ok by lia; cbn [bind]; rewrite sub_w_ok by lia; cbn [bind]; rewrite shr_w_ok by lia; cbn [bind].
  3: rewrite sub_w_ok by lia; cbn [bind]; rewrite !shl_w_ok by lia; cbn [bind].
  all: eexists; split; [reflexivity|]; apply valid_bb_bits; cbn [bb0 bb1]; split; intros i Hi;
    rewrite ?N.land_spec, ?mask0_bits, ?mask1_bits, ?N.bits_0; try reflexivity;
    match goal with |- _ && (i <? ?n) = false => replace (i <? n) with false by lia; apply andb_false_r end.
Qed.
Lemma shift_right_lax P b d : bb0 b < 2 ^ 64 -> bb1 b < 2 ^ 18 -> d <= 9 ->
  exists b', bb_shift_right P b d = Ret b' /\ bb0 b' < 2 ^ 64 /\ bb1 b' < 2 ^ 18.
Proof.
  intros V W Hd. pose proof (vb_high b W) as V1. pose proof (proj1 (lt_pow2_bits _ _) V) as V0.
  unfold bb_shift_right. rewrite debug_assert_true by lia. cbn [bind].
  destruct (N.leb_spec d 1); [|destruct (N.leb_spec d 7)]; rewrite mul_w_ok by side; cbn [bind].
  - rewrite !shr_w_ok by lia. cbn [bind]. rewrite sub_w_ok by lia. cbn [bind]. rewrite shl_w_ok by lia. cbn [bind].
    eexists. split; [reflexivity|]. rewrite !lt_pow2_bits. cbn [bb0 bb1]. split; intros i Hi; rewrite ?N.lor_spec, ?shl_bits, shr_bits.
    + rewrite V0 by lia. now replace (i <? 64) with false by lia.
    + apply V1. lia.
  - rewrite !shr_w_ok by lia. cbn [bind]. rewrite sub_w_ok by lia. cbn [bind]. rewrite shl_w_ok by lia. cbn [bind].
    eexists. split; [reflexivity|]. rewrite !lt_pow2_bits. cbn [bb0 bb1]. split; intros i Hi; rewrite ?N.lor_spec, ?shl_bits, ?shr_bits, ?N.bits_0; auto.
    rewrite V0 by lia. now replace (i <? 64) with false by lia.
  - rewrite sub_w_ok by lia. cbn [bind]. rewrite !shr_w_ok by lia. cbn [bind].
    eexists. split; [reflexivity|]. rewrite !lt_pow2_bits. cbn [bb0 bb1]. split; intros i Hi; rewrite ?shr_bits, ?N.bits_0; auto. apply V1. lia.
Qed.
Lemma pop_lax P b : bb0 b < 2 ^ 64 -> bb1 b < 2 ^ 18 ->
  (exists b' o, bb_pop P b = Ret (b', o) /\ (forall i, N.testbit (bb0 b) i = false -> N.testbit (bb0 b') i = false) /\ bb1 b' < 2 ^ 18 /\
    match o with Some s => valid_square s | None => True end) \/
  (debug_assertions P = true /\ bb_pop P b = Panic /\ bb0 b = 2 ^ 63).
Proof.
  intros U0 W. pose proof (pow18_64 _ W) as U1. pose proof (vb_high b W) as V1.
  unfold bb_pop. rewrite to_u128_ok by auto. cbn [bind].
  remember (bb1 b * 2 ^ 64 + bb0 b) as r eqn:Er.
  assert (Rb : forall i, N.testbit r i = if i <? 64 then N.testbit (bb0 b) i else N.testbit (bb1 b) (i - 64))
    by (intros i; rewrite Er; now apply u128_bits).
  destruct r as [|p].
  { change (0 =? 0) with true. cbv iota. left. exists b, None. repeat split; auto. }
  replace (N.pos p =? 0) with false by reflexivity.
  rewrite trailing_zeros_ptz. pose proof (ptz_set p) as Z1. pose proof (ptz_below p) as Z2. rewrite Rb in Z1.
  assert (Zb : ptz p < 82).
  { destruct (N.lt_ge_cases (ptz p) 82); auto. replace (ptz p <? 64) with false in Z1 by lia. rewrite V1 in Z1 by lia. discriminate. }
  set (s := Square (if ptz p <? 63 then ptz p + 1 else ptz p)).
  assert (Vs : valid_square s) by (unfold valid_square, s; cbn [sq_repr]; destruct (N.ltb_spec (ptz p) 63); lia).
  assert (E1 : (if ptz p <? 63 then v <- add_w P 8 (cast_w 8 (ptz p)) 1;; sq_from_u8_unchecked v
                else sq_from_u8_unchecked (cast_w 8 (ptz p))) = Ret s).
  { unfold cast_w, modulus. change (2 ^ 8) with 256. rewrite N.mod_small by lia.
    unfold s. destruct (N.ltb_spec (ptz p) 63).
    - rewrite add_w_ok by (change (2 ^ 8) with 256; lia). cbn [bind]. apply sq_from_u8_unchecked_ok. lia.
    - apply sq_from_u8_unchecked_ok. lia. }
  rewrite E1. cbn [bind].
  assert (R128 : N.pos p < 2 ^ 128).
  { rewrite Er. change (2 ^ 128) with (2 ^ 64 * 2 ^ 64). set (m := 2 ^ 64) in *. nia. }
  assert (WS : wrapping_sub_w 128 (N.pos p) 1 = N.pos p - 1).
  { unfold wrapping_sub_w, modulus. replace (N.pos p + 2 ^ 128 - 1) with (N.pos p - 1 + 1 * 2 ^ 128) by lia.
    rewrite N.mod_add by (apply N.pow_nonzero; lia). rewrite N.mod_small; auto. lia. }
  assert (D : ((if debug_assertions P then (c <- bb_contains P b s;; debug_assert P c) else Ret tt) = Ret tt) \/ (debug_assertions P = true /\ ptz p = 63)).
  { destruct (debug_assertions P) eqn:DA; auto. rewrite bb_contains_ok by auto. cbn [bind]. unfold debug_assert. rewrite DA.
    destruct (N.eq_dec (ptz p) 63) as [E|E]; auto. left. replace (member b s) with true; auto.
    symmetry. unfold member, s; cbn [sq_repr]. destruct (N.ltb_spec (ptz p) 63).
    - replace (ptz p + 1 <=? 63) with true by lia. replace (ptz p <? 64) with true in Z1 by lia.
      now replace (ptz p + 1 - 1) with (ptz p) by lia.
    - replace (ptz p <=? 63) with false by lia. now replace (ptz p <? 64) with false in Z1 by lia. }
  destruct D as [-> | [DA E]].
  - left. cbn [bind]. rewrite WS, from_u128_ok. cbn [bind]. do 2 eexists. split; [reflexivity|]. cbn [bb0 bb1]. repeat split.
    + intros i Hi. destruct (N.lt_ge_cases i 64); [|now apply N.mod_pow2_bits_high].
      rewrite N.mod_pow2_bits_low, N.land_spec, Rb by auto. now replace (i <? 64) with true by lia; rewrite Hi.
    + apply lt_pow2_bits. intros i Hi. destruct (N.lt_ge_cases i 64); [|now apply N.mod_pow2_bits_high].
      rewrite N.mod_pow2_bits_low by auto. rewrite N.div_pow2_bits, N.land_spec, Rb by auto.
      replace (i + 64 <? 64) with false by lia. replace (i + 64 - 64) with i by lia. now rewrite V1.
    + exact (proj1 Vs).
    + exact (proj2 Vs).
  - assert (B : bb0 b = 2 ^ 63).
    { apply (bits_ext _ _ 64); auto; [reflexivity|]. intros i Hi. change (2 ^ 63) with (N.shiftl 1 63). rewrite bit_single.
      destruct (N.eqb_spec i 63) as [->|].
      - rewrite E in Z1. exact Z1.
      - specialize (Z2 i ltac:(lia)). rewrite Rb in Z2. now replace (i <? 64) with true in Z2 by lia. }
    right. repeat split; auto. unfold debug_assert. rewrite DA, bb_contains_ok by auto. cbn [bind].
    replace (member b s) with false; auto. symmetry. unfold member, s. rewrite E. cbn [sq_repr].
    change (63 <? 63) with false. cbv iota. change (63 <=? 63) with true. cbv iota. rewrite B.
    change (2 ^ 63) with (N.shiftl 1 63). apply bit_single.
Qed.
Lemma pop_row lax P b : valid_bitboard lax b ->
  (exists b' o, bb_pop P b = Ret (b', o) /\ valid_bitboard lax b' /\ match o with Some s => valid_square s | None => True end) \/
  (lax = true /\ debug_assertions P = true /\ bb_pop P b = Panic /\ bb0 b = 2 ^ 63).
Proof.
  intros V. destruct (vb_lax lax b V) as [U W]. destruct (pop_lax P b U W) as [(b' & o & E & L & H & S)|(E1 & E2 & E3)].
  - left. exists b', o. repeat split; auto. apply vb_bits in V as [V0 _]. apply lt_pow2_bits. intros i Hi. apply L. now apply V0.
  - right. repeat split; auto. destruct lax; auto. destruct V as [V _]. rewrite E3 in V. discriminate V.
Qed.

(** byte-swapped *)
Lemma bs_eta b : bs0 b < 2 ^ 64 -> bs1 b < 2 ^ 64 -> bb_swap_bytes (bs_swap_bytes b) = b.
Proof. intros A B. unfold bb_swap_bytes, bs_swap_bytes. cbn. rewrite !swap_bytes_involutive by auto. now destruct b. Qed.
Definition vbs lax b := bs0 b < 2 ^ 64 /\ bs1 b < 2 ^ 64 /\ valid_bitboard lax (bs_swap_bytes b).
Lemma vbs_swap lax b : valid_bitboard lax b -> vbs lax (bb_swap_bytes b).
Proof.
  intros V. destruct (vb_u64 _ _ V). unfold vbs, bb_swap_bytes, bs_swap_bytes. cbn [bs0 bs1].
  split; [apply swap_bytes_u64|]. split; [apply swap_bytes_u64|]. rewrite !swap_bytes_involutive by auto. now destruct b.
Qed.
Lemma vbs_ex lax c : vbs lax c -> exists b, valid_bitboard lax b /\ c = bb_swap_bytes b.
Proof. intros (A & B & V). exists (bs_swap_bytes c). split; auto. symmetry. now apply bs_eta. Qed.


Lemma row_pop1 lax P : row lax P (fn1 "Bitboard::pop" TBB (TPair TBB (TOpt TSquare)) bb_pop).
Proof.
  intros [b []] [V _] _. cbn in V. destruct (pop_row lax P b V) as [(b' & o & E & V' & S)|(E1 & E2 & E3 & E4)].
  - left. exists (b', o). split; [exact E|]. split; auto.
  - right. repeat split; auto. now left.
Qed.
Lemma row_pop2 lax P : row lax P (fn1 "Bitboard_pop" TBB (TPair TBB TOSquare) Bitboard_pop).
Proof.
  intros [b []] [V _] _. cbn in V. destruct (pop_row lax P b V) as [(b' & o & E & V' & S)|(E1 & E2 & E3 & E4)].
  - left. exists (b', os_from o). split; [unfold fn1, Bitboard_pop; cbn [a_fun fst]; now rewrite E|]. split; auto. cbn. destruct o as [[s]|]; cbn; [apply S|lia].
  - right. repeat split; auto; [unfold fn1, Bitboard_pop; cbn [a_fun fst]; now rewrite E3|]. right. now left.
Qed.
Lemma row_pop3 lax P : row lax P (fn1 "Bitboard: Iterator::next" TBB (TPair TBB (TOpt TSquare)) bb_next).
Proof.
  intros [b []] [V _] _. cbn in V. destruct (pop_row lax P b V) as [(b' & o & E & V' & S)|(E1 & E2 & E3 & E4)].
  - left. exists (b', o). split; [exact E|]. split; auto.
  - right. repeat split; auto. right. right. now left.
Qed.
Lemma words_ok lax w0 w1 : bitboard_words lax w0 w1 = true -> valid_bitboard lax (Bitboard w0 w1).
Proof. unfold bitboard_words, valid_bitboard. rewrite andb_true_iff, !N.ltb_lt. auto. Qed.
Lemma div_u128 a : a < 2 ^ 128 -> a / 2 ^ 64 < 2 ^ 64.
Proof. intros H. apply N.div_lt_upper_bound; [discriminate|exact H]. Qed.
Lemma u128_lt x y : x < 2 ^ 64 -> y < 2 ^ 64 -> y * 2 ^ 64 + x < 2 ^ 128.
Proof. change (2 ^ 128) with (2 ^ 64 * 2 ^ 64). set (m := 2 ^ 64). nia. Qed.
Lemma clean_ok lax P b d : valid_bitboard lax b -> d <= 9 -> lax || shift_right_clean b d = true ->
  exists b', bb_shift_right P b d = Ret b' /\ valid_bitboard lax b'.
Proof.
  intros V Hd C. destruct lax.
  - destruct V as [V W]. exact (shift_right_lax P b d V W Hd).
  - cbn [orb] in C. destruct (shift_right_ok P b d V Hd) as (b' & E & X & _). exists b'. split; auto. apply X. clear X.
    rewrite !member_at by (unfold on_board; lia). change (8 <=? 7) with false. change (9 <=? 7) with false. cbv iota.
    change (9 * (8 - 8) + (1 - 1)) with 0. change (9 * (9 - 8) + (1 - 1)) with 9.
    unfold shift_right_clean in C. apply andb_true_iff in C as [C1 C2]. apply negb_true_iff in C1, C2.
    split; intros [-> T].
    + rewrite T in C1. discriminate.
    + rewrite T in C2. discriminate.
Qed.

Lemma rows_bitboard lax P : Forall (row lax P) api_bitboard.
Proof.
  unfold api_bitboard.
  repeat (apply Forall_cons; [first [apply row_pop1|apply row_pop2|apply row_pop3|apply row_fn0|apply row_fn1|apply row_fn2|apply row_un1|apply row_un2]; cbn [vok]|]);
    [..|apply Forall_nil]; triv.
  - returns. apply vb_strict, bb_empty_valid.
  - intros s V. rewrite bb_single_ok by auto. returns. now apply vb_strict, single_valid.
  - intros b V. destruct (vb_u64 _ _ V). now apply vb_count.
  - intros b s _ V. rewrite bb_contains_ok by auto. returns. exact I.
  - intros b _. destruct (flip_lax P b) as (b' & -> & V). returns. now apply vb_strict.
  - intros b _. returns. split; reflexivity.
  - intros b V. destruct (vb_u64 _ _ V). rewrite to_u128_ok by auto. returns. now apply u128_lt.
  - intros a L W. rewrite from_u128_ok. returns. apply words_ok in W. rewrite (N.mod_small (a / 2 ^ 64)) by now apply div_u128. exact W.
  - intros f p _ _ W. apply andb_true_iff in W as [W1 W2]. apply in_range_iff in W1. apply N.ltb_lt in W2.
    destruct (from_file_ok P f p W1 W2) as (b & -> & V & _). returns. now apply vb_strict.
  - intros b f V _ W. apply in_range_iff in W. destruct (get_file_ok P b f W) as (p & -> & L & _). returns. lia.
  - intros a b V W. returns. now apply vb_or.
  - intros a b V W. returns. now apply vb_and.
  - intros a b V W. returns. now apply vb_xor.
  - intros a b V W. returns. now apply vb_andnot.
  - intros b s V W. unfold bb_or_square. rewrite bb_single_ok by auto. cbn [bind]. returns. apply vb_or; auto. now apply vb_strict, single_valid.
  - intros b s V W. unfold bb_and_square. rewrite bb_single_ok by auto. cbn [bind]. returns. apply vb_and; auto. now apply vb_strict, single_valid.
  - intros b s V W. unfold bb_xor_square. rewrite bb_single_ok by auto. cbn [bind]. returns. apply vb_xor; auto. now apply vb_strict, single_valid.
  - intros b V. returns. apply vb_strict, not_valid.
  - intros b V. returns. now apply vbs_swap.
  - intros b d V _ W. apply N.leb_le in W. apply vb_lax in V as [_ V]. destruct (shift_down_lax P b d V W) as (b' & -> & V'). returns. now apply vb_strict.
  - intros b d V _ W. apply N.leb_le in W. apply vb_lax in V as [_ V]. destruct (shift_up_lax P b d V W) as (b' & -> & V'). returns. now apply vb_strict.
  - intros b d V _ W. apply N.leb_le in W. destruct (shift_left_lax P b d W) as (b' & -> & V'). returns. now apply vb_strict.
  - intros b d V _ W. apply andb_true_iff in W as [W1 W2]. apply N.leb_le in W1. now apply clean_ok.
  - intros c (A & B & _). rewrite bs_to_u128_ok by auto. returns. now apply u128_lt.
  - intros a L W. rewrite bs_from_u128_ok. returns. apply words_ok in W. cbn [bs0 bs1].
    rewrite (N.mod_small (a / 2 ^ 64)) by now apply div_u128. split; [apply N.mod_lt; discriminate|]. split; [now apply div_u128|exact W].
  - intros x y V W. apply vbs_ex in V as (a & V & ->). apply vbs_ex in W as (b & W & ->). returns.
    replace (bs_or _ _) with (bb_swap_bytes (bb_or a b)) by (unfold bb_swap_bytes, bs_or, bb_or; cbn [bb0 bb1 bs0 bs1]; now rewrite !swap_or).
    now apply vbs_swap, vb_or.
  - intros x y V W. apply vbs_ex in V as (a & V & ->). apply vbs_ex in W as (b & W & ->). returns.
    replace (bs_and _ _) with (bb_swap_bytes (bb_and a b)) by (unfold bb_swap_bytes, bs_and, bb_and; cbn [bb0 bb1 bs0 bs1]; now rewrite !swap_and).
    now apply vbs_swap, vb_and.
  - intros x y V W. apply vbs_ex in V as (a & V & ->). apply vbs_ex in W as (b & W & ->). returns.
    replace (bs_xor _ _) with (bb_swap_bytes (bb_xor a b)) by (unfold bb_swap_bytes, bs_xor, bb_xor; cbn [bb0 bb1 bs0 bs1]; now rewrite !swap_xor).
    now apply vbs_swap, vb_xor.
  - intros x y V W. apply vbs_ex in V as (a & V & ->). apply vbs_ex in W as (b & W & ->). returns.
    replace (bs_andnot _ _) with (bb_swap_bytes (bb_andnot a b)) by (unfold bb_swap_bytes, bs_andnot, bb_andnot; cbn [bb0 bb1 bs0 bs1]; now rewrite !swap_not).
    now apply vbs_swap, vb_andnot.
  - intros c V. returns. apply V.
Qed.

(** ** Positions *)
Lemma step_row P s o : reachable P s -> valid_op o -> exists s' b, run_op P s o = Ret (s', b) /\ reachable P s'.
Proof.
  intros R V. pose proof (run_op_ok P s o (reachable_wf P s R) V) as E. destruct (do_op s o) as [s' b].
  exists s', b. split; auto. eapply reachable_step; eauto.
Qed.
Lemma empty_reachable P : reachable P pp_empty.
Proof. exists pp_empty, [], []. split; [now left|]. split; [constructor|reflexivity]. Qed.
Lemma startpos_row P : exists s, pp_startpos P = Ret s /\ reachable P s.
Proof.
  exists the_startpos. split; [apply startpos_ok|]. exists the_startpos, [], []. split; [right; apply startpos_ok|]. split; [constructor|reflexivity].
Qed.
Lemma hand_row P s p : wf s -> valid_piece p -> exists o, pp_hand P s p = Ret o /\ match o with Some n => n < 256 | None => True end.
Proof.
  intros W V. rewrite pp_hand_ok by auto. returns. destruct (is_hand_piece _); auto. apply in_hand_lt. now apply hand_at_valid.
Qed.
Lemma move_row P s m : reachable P s -> valid_move m -> exists s' o, make_move P m s = Ret (s', o) /\ reachable P s'.
Proof.
  intros R V. pose proof (make_move_ok P s m (reachable_wf P s R) V) as E.
  destruct (do_move s m) as [s'|]; [exists s', (Some tt)|exists s, None]; split; auto. eapply reachable_move; eauto.
Qed.
Lemma compact_row P s c : reachable P s -> valid_compact c -> exists s' b, make_compact_move P s c = Ret (s', b) /\ reachable P s'.
Proof. intros R V. exact (step_row P s (OpCompactMove c) R V). Qed.
Lemma put_row P s sq x : reachable P s -> valid_square sq -> valid_o valid_piece x -> exists s', piece_set P s sq x = Ret s' /\ reachable P s'.
Proof.
  intros R V W. destruct (step_row P s (OpPieceSet sq x) R) as (s' & b & E & R'); [split; auto; now destruct x|].
  exists s'. split; auto. cbn [run_op] in E. destruct (piece_set P s sq x) as [s1| |]; try discriminate. cbn [bind] in E. now injection E as -> _.
Qed.
Lemma store_row P s c h : reachable P s -> valid_hand h -> exists s', hand_of_a_player_store P s c h = Ret s' /\ reachable P s'.
Proof.
  intros R V. destruct (step_row P s (OpHand c h) R V) as (s' & b & E & R').
  exists s'. split; auto. cbn [run_op] in E. destruct (hand_of_a_player_store P s c h) as [s1| |]; try discriminate. cbn [bind] in E. now injection E as -> _.
Qed.
Lemma ply_u16 s : wf s -> ply s < 65536.
Proof. intros W. apply (wf_ply _ W). Qed.
Lemma last_row P s : wf s -> exists o, last_move P s = Ret o /\ match o with Some m => valid_move m | None => True end.
Proof.
  intros W. rewrite last_move_ok by auto. returns. unfold last_at. pose proof (wf_last _ W) as V.
  destruct (ocm_into (pp_last_move s)); cbn; auto. now apply valid_compact_unpack.
Qed.
Lemma sfen_row P s : wf s -> exists t, to_sfen_owned P s = Ret t /\ True.
Proof.
  intros W. pose proof (prints_string _ _ (prints_sfen P s W)) as E. unfold to_sfen_owned, string_sink. rewrite E. returns. exact I.
Qed.
Lemma sfen_c_row P s n : wf s -> exists t, to_sfen_c P s n = Ret t /\ True.
Proof.
  intros W. destruct (prints_sfen P s W) as (chunks & _ & E). unfold to_sfen_c. rewrite E. destruct (feed _ _ _) as [w b]. cbn [bind].
  unfold write_ascii_byte, wstr. change (0 <? 128) with true. cbv iota. destruct (write_str bridge_sink w [0]) as [w' b']. cbn [bind]. returns. exact I.
Qed.

Lemma at_row P s sq : wf s -> valid_square sq -> exists o, PartialPosition_piece_at P s sq = Ret o /\ (op_repr o = 0 \/ valid_piece (Piece (op_repr o))) /\ piece_at P s sq = Ret (op_into o).
Proof.
  intros W V. pose proof (piece_at_ok P s sq W V) as E. unfold piece_at in E |- *.
  destruct (PartialPosition_piece_at P s sq) as [o| |] eqn:E1; try discriminate. cbn [bind] in *. exists o. split; auto. split; auto.
  injection E as E. pose proof (cell_valid s sq W) as C. rewrite <- E in C. unfold op_into, nonzero_new in C.
  destruct (N.eqb_spec (op_repr o) 0); auto.
Qed.
Lemma into_valid s : wf s -> ocm_repr (pp_last_move s) = 0 \/ valid_compact (CompactMove (ocm_repr (pp_last_move s))).
Proof. intros W. pose proof (wf_last _ W) as V. unfold ocm_into, nonzero_new in V. destruct (N.eqb_spec (ocm_repr (pp_last_move s)) 0); auto. Qed.
Lemma cell_some s sq : wf s -> match cell s sq with Some p => valid_piece p | None => True end.
Proof. intros W. pose proof (cell_valid s sq W). now destruct (cell s sq). Qed.

Lemma rows_partial_position lax P : Forall (row lax P) api_partial_position.
Proof.
  unfold api_partial_position. rows; triv.
  - returns. apply empty_reachable.
  - apply startpos_row.
  - apply startpos_row.
  - intros s c R _. returns. destruct (step_row P s (OpSide c) R I) as (s' & b & E & R'). cbn [run_op] in E. now injection E as <- _.
  - intros s c R _. apply reachable_wf in R. rewrite hand_of_a_player_ok by auto. returns. now apply hand_at_valid.
  - intros s c h R _ V. now apply store_row.
  - intros s p R V. apply hand_row; eauto using reachable_wf.
  - intros s R. returns. eapply ply_u16, reachable_wf, R.
  - intros s n R V. destruct (step_row P s (OpPly n) R V) as (s' & b & E & R'). cbn [run_op] in E. returns.
    injection E as E. rewrite E. split; auto.
  - intros s sq R V. apply reachable_wf in R. rewrite piece_at_ok by auto. returns. now apply cell_some.
  - intros s sq R V. apply reachable_wf in R. destruct (at_row P s sq R V) as (o & -> & H & _). returns. exact H.
  - intros s sq x R V W. apply put_row; auto; now destruct x.
  - intros s R. apply reachable_wf in R. rewrite occupied_bitboard_ok by auto. returns. apply vb_strict, or_valid; now apply player_at_valid.
  - intros s R. apply reachable_wf in R. rewrite vacant_bitboard_ok by auto. returns. apply vb_strict, not_valid.
  - intros s c R _. apply reachable_wf in R. rewrite player_bitboard_ok by auto. returns. now apply vb_strict, player_at_valid.
  - intros s p R V. apply reachable_wf in R. rewrite piece_bitboard_ok by auto. returns. apply vb_strict, and_valid; auto using kind_at_valid, player_at_valid.
  - intros s k R _. apply reachable_wf in R. rewrite piece_kind_bitboard_ok by auto. returns. now apply vb_strict, kind_at_valid.
  - intros s R. eapply last_row, reachable_wf, R.
  - intros s R. returns. apply reachable_wf in R. pose proof (wf_last _ R) as V. unfold last_compact_move. now destruct (ocm_into _).
  - intros s R. returns. apply reachable_wf in R. now apply into_valid.
  - intros s c R _. apply reachable_wf in R. rewrite king_position_ok by auto. returns. pose proof (king_at_valid s c R). now destruct (king_at s c).
  - intros s m R V. destruct (move_row P s m R V) as (s' & o & -> & R'). returns. split; auto. cbn. now destruct o.
  - intros s c R V. destruct (compact_row P s c R V) as (s' & o & -> & R'). returns. split; auto; exact I.
  - intros s R. eapply sfen_row, reachable_wf, R.
  - intros s n R _. eapply sfen_c_row, reachable_wf, R.
Qed.

Lemma rows_full_position lax P : Forall (row lax P) api_full_position.
Proof.
  unfold api_full_position. rows; triv.
  - intros p V. returns. apply V.
  - intros p V. returns. apply V.
  - unfold pos_startpos. destruct (startpos_row P) as (s & -> & R). returns. repeat split; auto; constructor.
  - unfold pos_default. destruct (startpos_row P) as (s & -> & R). returns. repeat split; auto; constructor.
  - intros s R. returns. repeat split; auto. constructor.
  - intros p c (_ & R & _) _. apply reachable_wf in R. unfold pos_hand_of_a_player. rewrite hand_of_a_player_ok by auto. returns. now apply hand_at_valid.
  - intros p c h (R0 & R & M) _ V. unfold pos_hand_store. destruct (store_row P _ c h R V) as (s' & -> & R'). returns. repeat split; auto; constructor.
  - intros p x (_ & R & _) V. apply reachable_wf in R. now apply hand_row.
  - intros p (_ & R & _). returns. eapply ply_u16, reachable_wf, R.
  - intros p sq (_ & R & _) V. apply reachable_wf in R. unfold pos_piece_at. rewrite piece_at_ok by auto. returns. now apply cell_some.
  - intros p sq x (R0 & R & M) V W. unfold pos_piece_set. destruct (put_row P (pos_inner p) sq x R V) as (s' & -> & R'); [now destruct x|]. returns. repeat split; auto; constructor.
  - intros p (_ & R & _). apply reachable_wf in R. unfold pos_occupied_bitboard. rewrite occupied_bitboard_ok by auto. returns. apply vb_strict, or_valid; now apply player_at_valid.
  - intros p (_ & R & _). apply reachable_wf in R. unfold pos_vacant_bitboard. rewrite vacant_bitboard_ok by auto. returns. apply vb_strict, not_valid.
  - intros p c (_ & R & _) _. apply reachable_wf in R. unfold pos_player_bitboard. rewrite player_bitboard_ok by auto. returns. now apply vb_strict, player_at_valid.
  - intros p x (_ & R & _) V. apply reachable_wf in R. unfold pos_piece_bitboard. rewrite piece_bitboard_ok by auto. returns. apply vb_strict, and_valid; auto using kind_at_valid, player_at_valid.
  - intros p (_ & R & _). eapply last_row, reachable_wf, R.
  - intros p (_ & R & _). returns. apply reachable_wf in R. pose proof (wf_last _ R) as V. unfold pos_last_compact_move, last_compact_move. now destruct (ocm_into _).
  - intros p (_ & _ & M). returns. exact M.
  - intros p m (R0 & R & M) V. unfold pos_make_move. destruct (move_row P _ m R V) as (s' & o & -> & R'). cbn [bind].
    destruct o as [[]|]; returns; repeat split; auto. apply Forall_app. auto using Forall_nil, Forall_cons.
  - intros p c (R0 & R & M) V. unfold pos_make_compact_move. rewrite move_of_cm_unpack by auto. cbn [bind]. pose proof (proj1 (valid_compact_unpack c V)) as Vm.
    unfold pos_make_move. destruct (move_row P _ (unpack c) R Vm) as (s' & o & -> & R'). cbn [bind].
    destruct o as [[]|]; returns; repeat split; auto. apply Forall_app. auto using Forall_nil, Forall_cons.
  - intros p (_ & R & _). eapply sfen_row, reachable_wf, R.
  - intros p n (_ & R & _) _. eapply sfen_c_row, reachable_wf, R.
Qed.

Lemma resolution_row o : valid_resolution o -> exists r, ogr_into o = Ret r /\ match r with Some _ => True | None => True end.
Proof.
  destruct o as [n]. unfold valid_resolution, ogr_into. cbn [ogr_repr]. intros V. destruct (N.eqb_spec n 0); [returns; exact I|].
  assert (n = 1 \/ n = 2 \/ n = 3 \/ n = 4 \/ n = 5) as E by lia. repeat destruct E as [->|E]; subst; returns; exact I.
Qed.
Lemma rows_game lax P : Forall (row lax P) api_game.
Proof.
  assert (Z : valid_resolution ogr_default) by (unfold valid_resolution; cbn; lia).
  unfold api_game. rows; triv.
  - unfold game_default, pos_default. destruct (startpos_row P) as (s & -> & R). returns. repeat split; auto; constructor.
  - unfold partial_game_default. destruct (startpos_row P) as (s & -> & R). returns. repeat split; auto; constructor.
  - intros g [V _]. returns. exact V.
  - intros g r [V _] _. returns. split; auto. destruct r; unfold valid_resolution; cbn; lia.
  - intros g [V _]. returns. split; auto.
  - intros g [_ V]. now apply resolution_row.
  - intros g [_ V]. returns. exact V.
  - intros g [V _]. returns. exact V.
  - intros g r [V _] _. returns. split; auto. destruct r; unfold valid_resolution; cbn; lia.
  - intros g [V _]. returns. split; auto.
  - intros g [_ V]. now apply resolution_row.
  - intros g [_ V]. returns. exact V.
Qed.

Lemma all_rows lax P : Forall (row lax P) the_api.
Proof.
  unfold the_api.
  repeat first [apply rows_color|apply rows_kind|apply rows_piece|apply rows_square|apply rows_mv|apply rows_hand|apply rows_bitboard
    |apply rows_resolution|apply rows_partial_position|apply rows_full_position|apply rows_game|apply Forall_app; split].
Qed.

(** ** Executions *)
Lemma as_ty_ok lax P t v x : value_ok lax P v -> as_ty t v = Some x -> vok lax P t x.
Proof.
  unfold value_ok, as_ty. destruct v as [u y]. cbn [v_ty v_val]. destruct (ty_eq_dec u t) as [<-|]; [|discriminate]. intros V [= <-]. exact V.
Qed.
Lemma operands_ok lax P env : Forall (value_ok lax P) env -> forall ts is xs, operands env ts is = Some xs -> oks lax P ts xs.
Proof.
  intros F. induction ts as [|t ts IH]; intros [|i is] xs; cbn [operands]; try discriminate; [intros _; exact I|].
  destruct (nth_error env i) as [v|] eqn:E; [|discriminate]. destruct (as_ty t v) as [x|] eqn:E1; [|discriminate].
  destruct (operands env ts is) as [ys|] eqn:E2; [|discriminate]. intros [= <-]. split.
  - eapply as_ty_ok; [|exact E1]. rewrite Forall_forall in F. apply F. eapply nth_error_In, E.
  - eapply IH, E2.
Qed.
Lemma literal_valid lax P l : literal_ok l = true -> value_ok lax P (literal_value l).
Proof. destruct l; cbn; intros H; try exact I; try (apply N.ltb_lt; exact H). apply andb_true_iff in H as [A B]. unfold is_i8. lia. Qed.
Lemma take_apart_ok lax P env s v : Forall (value_ok lax P) env -> take_apart s env = Some v -> value_ok lax P v.
Proof.
  intros F. rewrite Forall_forall in F.
  assert (G : forall i v, nth_error env i = Some v -> value_ok lax P v) by (intros i u E; apply F; eapply nth_error_In, E).
  destruct s as [l|f is|i|i|i|i|i|i j]; cbn [take_apart]; try discriminate;
    destruct (nth_error env i) as [[t x]|] eqn:E; try discriminate; specialize (G i _ E); unfold value_ok in *; cbn [v_ty v_val] in *.
  - intros [= <-]. exact G.
  - destruct t; try discriminate. intros [= <-]. exact I.
  - destruct t as [| | | | | | | | | | | | | | | | | | | | | | | | | | | | | | | | |t|t u|t]; try discriminate. destruct x; try discriminate. intros [= <-]. exact G.
  - destruct t as [| | | | | | | | | | | | | | | | | | | | | | | | | | | | | | | | |t|t u|t]; try discriminate. intros [= <-]. exact (proj1 G).
  - destruct t as [| | | | | | | | | | | | | | | | | | | | | | | | | | | | | | | | |t|t u|t]; try discriminate. intros [= <-]. exact (proj2 G).
  - destruct t as [| | | | | | | | | | | | | | | | | | | | | | | | | | | | | | | | |t|t u|t]; try discriminate. cbn [vok den] in *.
    match goal with |- match ?o with Some _ => _ | None => _ end = _ -> _ => destruct o as [y|] eqn:E1; [|discriminate] end. intros H. assert (Y : v = Val t y) by congruence. subst v. cbn [v_ty v_val]. rewrite Forall_forall in G. apply G. eapply nth_error_In, E1.
Qed.
(** a step on valid values gives a valid value, or is the debug panic of a pop *)
Lemma step_ok lax P env s r : Forall (value_ok lax P) env -> do_step lax P env s = Some r ->
  (exists v, r = Ret v /\ value_ok lax P v) \/ (lax = true /\ debug_assertions P = true /\ r = Panic /\ stray_pop env s).
Proof.
  intros F E. destruct s as [l|f is|i|i|i|i|i|i j];
    try (left; cbn [do_step] in E; match type of E with match ?t with Some _ => _ | None => _ end = _ => destruct t as [v|] eqn:T; [|discriminate] end;
         injection E as <-; exists v; split; auto; eapply take_apart_ok; eauto).
  - left. cbn [do_step] in E. destruct (literal_ok l) eqn:L; [|discriminate]. injection E as <-. eexists. split; [reflexivity|]. now apply literal_valid.
  - cbn [do_step] in E. destruct (nth_error the_api f) as [a|] eqn:A; [|discriminate]. destruct (operands env (a_args a) is) as [xs|] eqn:O; [|discriminate].
    destruct (a_pre a lax xs) eqn:Q; [|discriminate]. injection E as <-.
    pose proof (all_rows lax P) as R. rewrite Forall_forall in R. specialize (R a (nth_error_In _ _ A) xs (operands_ok lax P env F _ _ _ O) Q).
    destruct R as [(v & -> & V)|(L & D & -> & H & S)].
    + left. cbn [bind]. eexists. split; [reflexivity|]. exact V.
    + right. repeat split; auto. clear Q.
      assert (X : a_args a = [TBB]).
      { clear - A H. apply nth_error_In in A. revert H. unfold pops. revert A. 
        assert (C : forallb (fun a => negb (existsb (String.eqb (a_name a)) ["Bitboard::pop"; "Bitboard_pop"; "Bitboard: Iterator::next"]%string) ||
          match a_args a with [TBB] => true | _ => false end) the_api = true) by reflexivity.
        rewrite forallb_forall in C. intros A H. specialize (C a A). apply orb_true_iff in C as [C|C].
        - apply negb_true_iff in C. rewrite <- not_true_iff_false in C. exfalso. apply C. apply existsb_exists. exists (a_name a). split; auto. apply String.eqb_refl.
        - destruct (a_args a) as [|[] [|]]; try discriminate. reflexivity. }
      destruct a as [nm args rt pre fn]. cbn [a_args] in *. subst args. cbn [operands stray] in *.
      destruct is as [|i [|]]; try discriminate.
      2:{ destruct (nth_error env i) as [v|]; [|discriminate]. destruct (as_ty TBB v); discriminate. }
      destruct (nth_error env i) as [v|] eqn:E; [|discriminate]. destruct (as_ty TBB v) as [b|] eqn:T; [|discriminate]. injection O as <-. cbn [fst] in S.
      exists f, i, (Api nm [TBB] rt pre fn), b. repeat split; auto. rewrite E. f_equal.
      unfold as_ty in T. destruct v as [u x]. cbn [v_ty v_val] in T. destruct (ty_eq_dec u TBB) as [->|]; [|discriminate]. now injection T as <-.
Qed.
Lemma execute_ok lax P : forall ss env r, Forall (value_ok lax P) env -> execute lax P env ss = Some r ->
  (exists env', r = Ret env' /\ Forall (value_ok lax P) env') \/
  (lax = true /\ debug_assertions P = true /\ r = Panic /\ exists before s after env', ss = before ++ s :: after /\
     execute lax P env before = Some (Ret env') /\ stray_pop env' s).
Proof.
  induction ss as [|s ss IH]; intros env r F E; cbn [execute] in E.
  - left. injection E as <-. eauto.
  - destruct (do_step lax P env s) as [x|] eqn:D; [|discriminate]. destruct (step_ok lax P env s x F D) as [(v & -> & V)|(L & Q & -> & H)].
    + destruct (IH (v :: env) r (Forall_cons _ V F) E) as [H|(L & Q & -> & b & s' & a & e & -> & X & Y)]; auto.
      right. repeat split; auto. exists (s :: b), s', a, e. repeat split; auto. cbn [execute]. now rewrite D.
    + injection E as <-. right. repeat split; auto. exists [], s, ss, env. repeat split; auto.
Qed.
