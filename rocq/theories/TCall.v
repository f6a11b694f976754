(*PROPHEAD
Property theorems C62: the exported functions on values, in the terms of C
From Verif Require Import LSampleV.
*)
(** C62: the exported functions on values, in the terms of C. *)
From Coq Require Import String.
From Verif Require Import LLength LExt LRuntime TRuntime TClient LMove LHand LBitboard LSquare LPiece.
From Verif Require Export SpecCall LClient.
Close Scope string_scope.
Notation length := List.length.

(** ** Equality of values *)
Definition veq (v w : c_val) : bool :=
  match v, w with
  | VInt n, VInt k => n =? k
  | VBool b, VBool c => Bool.eqb b c
  | VBits a b, VBits c d => (a =? c) && (b =? d)
  | _, _ => false
  end.
Lemma veq_eq v w : veq v w = true -> v = w.
Proof.
  destruct v, w; try discriminate; cbn [veq]; rewrite ?andb_true_iff, ?N.eqb_eq, ?eqb_true_iff; [congruence|congruence|]. intros [-> ->]; reflexivity.
Qed.

(** ** Sweeps over the functions on integers *)
Definition no_mem : mem := fun _ => None.
Definition agrees P f args : bool :=
  match meaning f args with
  | Some (Value r) => match c_call P 8 Little f args no_mem with Ret (_, v) => veq v r | _ => false end
  | Some _ => false
  | None => true
  end.
Lemma agrees_pure P f args X m r : c_call P 8 Little f args no_mem = pure no_mem X -> agrees P f args = true -> meaning f args = Some (Value r) ->
  pure m X = Ret (m, r).
Proof.
  intros Q K M. unfold agrees in K. rewrite M, Q in K. unfold pure in *. destruct X as [v| |]; cbn [bind] in *; try discriminate. apply veq_eq in K. now subst.
Qed.
Definition ints_1 : list c_fn := [F_Bitboard_single; F_Color_flip; F_GameResolution_from_u8_unchecked; F_Hand_is_hand_piece; F_IllegalMoveKind_from_u8_unchecked;
  F_Piece_piece_kind; F_Piece_color; F_Piece_promote; F_Piece_unpromote; F_PieceKind_from_u8; F_PieceKind_from_u8_unchecked; F_PieceKind_promote; F_PieceKind_unpromote;
  F_Square_file; F_Square_rank; F_Square_index; F_Square_flip; F_Square_from_u8; F_Square_from_u8_unchecked].
Definition ints_2 : list c_fn := [F_CompactMove_drop; F_Piece_new; F_Square_relative_rank; F_Square_relative_file].
Lemma sweep_1 P f n : In f ints_1 -> n < 256 -> agrees P f [VInt n] = true.
Proof.
  intros I H. assert (K : forallb (fun f => forallb (fun n => agrees P f [VInt n]) (range 0 256)) ints_1 = true) by (destruct P; vm_compute; reflexivity).
  rewrite forallb_forall in K. specialize (K f I). rewrite forallb_forall in K. apply K, range_In. lia.
Qed.
Lemma sweep_2 P f n k : In f ints_2 -> n < 82 -> k < 82 -> agrees P f [VInt n; VInt k] = true.
Proof.
  intros I H H'. assert (K : forallb (fun f => forallb (fun n => forallb (fun k => agrees P f [VInt n; VInt k]) (range 0 82)) (range 0 82)) ints_2 = true)
    by (destruct P; vm_compute; reflexivity).
  rewrite forallb_forall in K. specialize (K f I). rewrite forallb_forall in K. specialize (K n). rewrite forallb_forall in K.
  apply K; apply range_In; lia.
Qed.
Lemma sweep_normal P n k b : n < 82 -> k < 82 -> agrees P F_CompactMove_normal [VInt n; VInt k; VBool b] = true.
Proof.
  intros H H'. assert (K : forallb (fun n => forallb (fun k => agrees P F_CompactMove_normal [VInt n; VInt k; VBool b]) (range 0 82)) (range 0 82) = true)
    by (destruct P, b; vm_compute; reflexivity).
  rewrite forallb_forall in K. specialize (K n). rewrite forallb_forall in K. apply K; apply range_In; lia.
Qed.

(** ** Values *)
Lemma within_iff lo hi n : within lo hi n = true <-> lo <= n <= hi.
Proof. unfold within. rewrite andb_true_iff, !N.leb_le. tauto. Qed.
Lemma as_square_ok n : square_int n = true -> as_square (VInt n) = Ret (Square n) /\ valid_square (Square n).
Proof.
  unfold square_int. rewrite within_iff. intros H. split; [|exact H]. unfold as_square, nonzero_new_unchecked. cbn [as_int bind].
  destruct (N.eqb_spec n 0); [lia|reflexivity].
Qed.
Lemma as_color_ok n : color_int n = true -> exists c, as_color (VInt n) = Ret c /\ color_as_u8 c = n.
Proof.
  unfold color_int. rewrite within_iff. intros H. assert (n = 1 \/ n = 2) as [-> | ->] by lia; eexists; split; reflexivity.
Qed.
Lemma as_kind_ok n : kind_int n = true -> exists k, as_kind (VInt n) = Ret k /\ kind_number k = n.
Proof. unfold kind_int. rewrite within_iff. intros H. exact (pk_from_u8_unchecked_range n H). Qed.
Lemma as_move_ok n : move_int n = true -> exists mv, valid_move mv /\ n = packed mv /\ as_move (VInt n) = Ret (CompactMove (packed mv)).
Proof.
  intros H. assert (G : exists mv, valid_move mv /\ n = packed mv).
  { unfold move_int, square_int in H. apply andb_true_iff in H. destruct H as [Ht H]. rewrite within_iff in Ht.
    destruct (N.eqb_spec (n / 128 mod 2) 1) as [D|D].
    - exists (Drop (Piece (n / 256)) (Square (n mod 128))). unfold piece_int in H. apply orb_true_iff in H. rewrite !within_iff in H.
      cbn [valid_move packed piece_repr sq_repr]. unfold valid_piece, valid_square. cbn [piece_repr sq_repr]. split; [lia|].
      clear H Ht. lia.
    - apply andb_true_iff in H. destruct H as [H L]. rewrite within_iff in H. apply N.ltb_lt in L.
      exists (Normal (Square (n / 256 mod 128)) (Square (n mod 128)) (32768 <=? n)).
      cbn [valid_move packed sq_repr]. unfold valid_square. cbn [sq_repr]. split; [lia|]. clear H Ht. destruct (N.leb_spec 32768 n); lia. }
  destruct G as (mv & V & ->). exists mv. split; [exact V|]. split; [reflexivity|].
  unfold as_move, nonzero_new_unchecked. cbn [as_int bind]. pose proof (packed_nonzero mv V). destruct (N.eqb_spec (packed mv) 0); [contradiction|reflexivity].
Qed.
Lemma move_fields mv : valid_move mv ->
  (packed mv / 128 mod 2 =? 1) = mv_is_drop mv /\ packed mv mod 128 = sq_repr (mv_to mv) /\ (32768 <=? packed mv) = mv_is_promoting mv /\
  (if packed mv / 128 mod 2 =? 1 then 0 else packed mv / 256 mod 128) = os_repr (os_from (mv_from mv)).
Proof.
  destruct mv as [f t pr|p t]; cbn [valid_move packed]; unfold valid_piece, valid_square; intros H.
  - assert (D : ((if pr then 32768 else 0) + sq_repr f * 256 + sq_repr t) / 128 mod 2 = 0) by (destruct pr; lia).
    rewrite D. cbn [mv_is_drop mv_to mv_is_promoting mv_from os_from os_repr]. change (0 =? 1) with false. cbv iota.
    split; [reflexivity|]. split; [destruct pr; lia|]. split; [destruct pr; lia|]. destruct pr; lia.
  - assert (D : (piece_repr p * 256 + 128 + sq_repr t) / 128 mod 2 = 1) by lia.
    rewrite D. cbn [mv_is_drop mv_to mv_is_promoting mv_from os_from os_repr]. change (1 =? 1) with true. cbv iota.
    split; [reflexivity|]. split; [lia|]. split; [lia|reflexivity].
Qed.

(** ** Sets *)
Lemma words_iff a b : words_ints a b = true <-> valid_bb (Bitboard a b).
Proof. unfold words_ints, valid_bb. rewrite andb_true_iff, !N.ltb_lt. reflexivity. Qed.
Lemma numbers_eq : map sq_repr all_squares = square_numbers.
Proof. vm_compute. reflexivity. Qed.
Lemma members_eq b : map sq_repr (members b) = member_numbers (bb0 b) (bb1 b).
Proof. unfold members, member_numbers. rewrite <- numbers_eq, filter_map_comm. reflexivity. Qed.
Lemma word_sum (f : N -> bool) lo hi i : lo <= hi ->
  N.testbit (fold_right N.add 0 (map (fun s => if f s then 2 ^ (s - lo) else 0) (range lo (hi + 1)))) i = (i <=? hi - lo) && f (i + lo).
Proof.
  intros L. rewrite (sum_bits f (fun s => s - lo)).
  - apply eq_true_iff_eq. rewrite existsb_exists, andb_true_iff, N.leb_le. split.
    + intros (s & I & H). apply range_In in I. rewrite andb_true_iff, N.eqb_eq in H. destruct H as [F <-]. split; [lia|]. now replace (s - lo + lo) with s by lia.
    + intros [H F]. exists (i + lo). rewrite F, range_In, andb_true_iff, N.eqb_eq. lia.
  - apply range_NoDup.
  - intros x y Ix Iy _ _. rewrite range_In in Ix, Iy. lia.
Qed.
Definition bits (f : N -> bool) : bitboard := Bitboard (fst (words_of f)) (snd (words_of f)).
Lemma bits_valid f : valid_bb (bits f).
Proof.
  apply valid_bb_bits. unfold bits, words_of. cbn [fst snd bb0 bb1]. split; intros i H; rewrite word_sum by lia.
  - replace (i <=? 63 - 1) with false by lia. reflexivity.
  - replace (i <=? 81 - 64) with false by lia. reflexivity.
Qed.
Lemma bits_member f sq : valid_square sq -> member (bits f) sq = f (sq_repr sq).
Proof.
  unfold valid_square. intros V. unfold member, bits, words_of. cbn [fst snd bb0 bb1]. destruct (N.leb_spec (sq_repr sq) 63); rewrite word_sum by lia.
  - replace (sq_repr sq - 1 <=? 63 - 1) with true by lia. cbn [andb]. f_equal. lia.
  - replace (sq_repr sq - 64 <=? 81 - 64) with true by lia. cbn [andb]. f_equal. lia.
Qed.
Lemma bits_eq b f : valid_bb b -> (forall sq, valid_square sq -> member b sq = f (sq_repr sq)) -> b = bits f.
Proof. intros V H. apply member_ext; auto using bits_valid. intros sq Q. rewrite H, bits_member by auto. reflexivity. Qed.
Lemma of_bits_eq b f : b = bits f -> of_bits b = bits_of f.
Proof. intros ->. unfold of_bits, bits, bits_of. cbn [bb0 bb1]. now destruct (words_of f). Qed.
Lemma words_pair f : words_of f = (bb0 (bits f), bb1 (bits f)).
Proof. unfold bits. cbn [bb0 bb1]. now destruct (words_of f). Qed.
Lemma has_member a b s : member (Bitboard a b) (Square s) = has a b s.
Proof. reflexivity. Qed.
Lemma has_member' a b sq : member (Bitboard a b) sq = has a b (sq_repr sq).
Proof. reflexivity. Qed.

(** ** Objects *)
Lemma hand_at_bytes m a bs : hand_at_addr m a bs <-> at_bytes m a bs.
Proof.
  unfold hand_at_addr, at_bytes. split; intros H i.
  - intros L. apply H. now apply nth_error_nth'.
  - intros b Q. rewrite H; [|apply nth_error_Some; congruence]. f_equal. now apply nth_error_nth.
Qed.
Lemma number_at_bytes E m a w v : number_at E m a (N.of_nat w) v -> at_bytes m a (int_bytes E w v).
Proof.
  intros H i L. rewrite int_bytes_length in L. rewrite H by lia. rewrite int_bytes_nth by lia. destruct E; reflexivity.
Qed.
Lemma bits_at_bytes E m a b : bits_at_addr E m a (bb0 b) (bb1 b) <-> at_bytes m a (bitboard_bytes E b).
Proof.
  unfold bits_at_addr, bitboard_bytes. rewrite at_bytes_app, int_bytes_length. split; intros [H1 H2]; split.
  - now apply (number_at_bytes E m a 8).
  - now apply (number_at_bytes E m (a + 8) 8).
  - now apply (at_bytes_number E m a 8).
  - now apply (at_bytes_number E m (a + 8) 8).
Qed.
Lemma at_bytes_accessible m a l : at_bytes m a l -> accessible m a (len l).
Proof. intros H i L. exists (nth (N.to_nat i) l 0). rewrite <- (H (N.to_nat i)) by lia. f_equal. lia. Qed.
Lemma hand_ints_valid bs : hand_ints bs = true <-> valid_hand (Hand bs).
Proof.
  unfold hand_ints, valid_hand. cbn [hand_bytes]. rewrite !andb_true_iff, Nat.eqb_eq, N.eqb_eq, forallb_forall, Forall_forall.
  assert (Q : (forall x, In x bs -> byte_int x = true) <-> (forall x, In x bs -> x < 256)) by (split; intros H x I; specialize (H x I); unfold byte_int in *; lia).
  rewrite Q. tauto.
Qed.
Lemma load_hand_ok m a bs : length bs = 8%nat -> hand_at_addr m a bs -> load_hand m a = Ret (Hand bs).
Proof. intros L H. apply hand_at_bytes, read_bytes_ok in H. rewrite L in H. change (N.of_nat 8) with 8 in H. unfold load_hand. now rewrite H. Qed.
Lemma store_hand_ok m a bs : length bs = 8%nat -> accessible m a 8 ->
  exists m', store_hand m a (Hand bs) = Ret m' /\ hand_at_addr m' a bs /\ only_changes m m' a 8.
Proof.
  intros L H. destruct (write_bytes_ok bs m a) as (m' & Q & B & O); [now rewrite L|]. rewrite L in O. exists m'. split; [exact Q|]. split; [now apply hand_at_bytes|exact O].
Qed.
Lemma load_bits_ok A E m a b : a mod A = 0 -> valid_bb b -> bits_at_addr E m a (bb0 b) (bb1 b) -> load_bits A E m a = Ret b.
Proof.
  intros Z V H. apply bits_at_bytes, read_bytes_ok in H. rewrite bitboard_bytes_length in H. change (N.of_nat 16) with 16 in H.
  unfold load_bits. rewrite Z. cbn [N.eqb bind]. rewrite H. cbn [bind]. now rewrite bitboard_bytes_back.
Qed.
Lemma store_bits_ok A E m a b : a mod A = 0 -> accessible m a 16 ->
  exists m', store_bits A E m a b = Ret m' /\ bits_at_addr E m' a (bb0 b) (bb1 b) /\ only_changes m m' a 16.
Proof.
  intros Z H. destruct (write_bytes_ok (bitboard_bytes E b) m a) as (m' & Q & B & O); [now rewrite bitboard_bytes_length|]. rewrite bitboard_bytes_length in O.
  exists m'. unfold store_bits. rewrite Z. cbn [N.eqb bind]. split; [exact Q|]. split; [now apply bits_at_bytes|exact O].
Qed.

(** ** Calls *)
Lemma when_some b v r : when b v = Some (Value r) -> b = true /\ r = v.
Proof. unfold when. destruct b; [|discriminate]. intros H. injection H as <-. auto. Qed.
Lemma when_eff b v eff : when b v = Some eff -> b = true /\ eff = Value v.
Proof. unfold when. destruct b; [|discriminate]. intros H. injection H as <-. auto. Qed.

Lemma call_1 P A E f n m r : In f ints_1 -> meaning f [VInt n] = Some (Value r) -> n < 256 -> c_call P A E f [VInt n] m = Ret (m, r).
Proof.
  intros I M L. pose proof (sweep_1 P f n I L) as K. unfold ints_1 in I.
  repeat (destruct I as [<-|I]; [cbn [c_call]; eapply agrees_pure; [|exact K|exact M]; reflexivity|]). destruct I.
Qed.
Lemma call_2 P A E f n k m r : In f ints_2 -> meaning f [VInt n; VInt k] = Some (Value r) -> n < 82 -> k < 82 -> c_call P A E f [VInt n; VInt k] m = Ret (m, r).
Proof.
  intros I M L L'. pose proof (sweep_2 P f n k I L L') as K. unfold ints_2 in I.
  repeat (destruct I as [<-|I]; [cbn [c_call]; eapply agrees_pure; [|exact K|exact M]; reflexivity|]). destruct I.
Qed.
Definition moves_1 : list c_fn := [F_CompactMove_from; F_CompactMove_to; F_CompactMove_is_promoting; F_CompactMove_is_drop].
Lemma call_move P A E f n m r : In f moves_1 -> meaning f [VInt n] = Some (Value r) -> c_call P A E f [VInt n] m = Ret (m, r).
Proof.
  intros I M. unfold moves_1 in I.
  assert (H : move_int n = true) by (repeat (destruct I as [<-|I]; [cbn [meaning] in M; now apply when_some in M|]); destruct I).
  destruct (as_move_ok n H) as (mv & V & -> & Q). destruct (cm_all P mv V) as (_ & _ & C1 & C2 & C3 & C4).
  destruct (move_fields mv V) as (D1 & D2 & D3 & D4).
  repeat (destruct I as [<-|I]; [cbn [meaning] in M; apply when_some in M; destruct M as [_ ->]; cbn [c_call]; unfold pure, CompactMove_from; rewrite Q; cbn [bind];
    rewrite ?C1, ?C2, ?C3, ?C4, ?D1, ?D2, ?D3, ?D4; cbn [bind]; rewrite <- ?D1, ?D4; reflexivity|]).
  destruct I.
Qed.

Lemma pow_lt_82 n : square_int n = true -> n < 82.
Proof. unfold square_int. rewrite within_iff. lia. Qed.
Lemma bind_ret {T} (r : res T) : bind r (fun x => Ret x) = r.
Proof. now destruct r. Qed.

Lemma call_new P f r : byte_int f = true -> byte_int r = true -> Square_new P f r = Ret (OptionSquare (square_number f r)).
Proof.
  unfold byte_int. rewrite !N.ltb_lt. intros Hf Hr. unfold Square_new, square_number.
  destruct (within 1 9 f && within 1 9 r) eqn:B.
  - apply andb_true_iff in B. rewrite !within_iff in B. rewrite sq_new_some by exact B. reflexivity.
  - rewrite sq_new_none; [reflexivity|exact Hf|exact Hr|]. intros O. apply not_true_iff_false in B. apply B. rewrite andb_true_iff, !within_iff. exact O.
Qed.
Lemma call_new_relative P f r c : byte_int f = true -> byte_int r = true ->
  Square_new_relative P f r c = Ret (OptionSquare (if (color_as_u8 c =? 1) || (square_number f r =? 0) then square_number f r else 82 - square_number f r)).
Proof.
  unfold byte_int. rewrite !N.ltb_lt. intros Hf Hr. unfold Square_new_relative, square_number.
  destruct (within 1 9 f && within 1 9 r) eqn:B.
  - apply andb_true_iff in B. rewrite !within_iff in B. rewrite sq_new_relative_some by exact B. cbn [bind]. destruct c; [reflexivity|].
    pose proof (square_at_valid f r B) as V. change (color_as_u8 White =? 1) with false. replace (9 * (f - 1) + r =? 0) with false by lia. cbn [orb].
    change (Ret (OptionSquare (sq_repr (rotate (square_at f r)))) = Ret (OptionSquare (82 - sq_repr (square_at f r)))). now rewrite rotate_repr by exact V.
  - rewrite sq_new_relative_none; [cbn [bind os_from]; now rewrite orb_true_r|exact Hf|exact Hr|].
    intros O. apply not_true_iff_false in B. apply B. rewrite andb_true_iff, !within_iff. exact O.
Qed.
Lemma call_shift P s df dr : square_int s = true -> is_i8 df -> is_i8 dr ->
  exists o, sq_shift P (Square s) df dr = Ret o /\ os_repr (os_from o) = translated s df dr.
Proof.
  intros Hs Hf Hr. destruct (as_square_ok s Hs) as [_ V]. destruct (sq_shift_ok P (Square s) df dr V Hf Hr) as [G1 G2].
  unfold translated. cbv zeta. change (file_number s) with (file_of (Square s)). change (rank_number s) with (rank_of (Square s)).
  destruct ((1 <=? Z.of_N (file_of (Square s)) + df) && (Z.of_N (file_of (Square s)) + df <=? 9) && (1 <=? Z.of_N (rank_of (Square s)) + dr) && (Z.of_N (rank_of (Square s)) + dr <=? 9))%Z eqn:B.
  - rewrite !andb_true_iff, !Z.leb_le in B. eexists. split; [apply G1; unfold z_on_board; tauto|reflexivity].
  - eexists. split; [apply G2; intros [O1 O2]; apply not_true_iff_false in B; apply B; rewrite !andb_true_iff, !Z.leb_le; tauto|reflexivity].
Qed.
Lemma call_pop P b : valid_bb b ->
  match member_numbers (bb0 b) (bb1 b) with
  | [] => Bitboard_pop P b = Ret (b, OptionSquare 0)
  | s :: _ => Bitboard_pop P b = Ret (bits (fun t => has (bb0 b) (bb1 b) t && negb (t =? s)), OptionSquare s)
  end.
Proof.
  intros V. rewrite <- members_eq. unfold Bitboard_pop. destruct (bb_dec b bb_empty) as [->|NE].
  - rewrite members_empty. cbn [map]. now rewrite bb_pop_empty.
  - destruct (pop_members P b V NE) as (s & b' & Q & V' & M). destruct (bb_pop_ok P b V NE) as (s' & Q' & Vs & Ms & Lo). rewrite Q in Q'. injection Q' as -> <-.
    rewrite M. cbn [map]. rewrite Q. cbn [bind os_from]. do 2 f_equal. apply bits_eq; [exact V'|]. intros t Vt. rewrite member_remove by auto.
    unfold sq_eqb. rewrite (N.eqb_sym (sq_repr s)). reflexivity.
Qed.
Lemma numbers_members a b : map sq_repr (members (Bitboard a b)) = member_numbers a b.
Proof. exact (members_eq (Bitboard a b)). Qed.
Lemma call_hand_kind n k : kind_number k = n -> (n <=? 7) = is_hand_piece k.
Proof. intros <-. now destruct k. Qed.
Lemma replaced_set bs i v : (i < length bs)%nat -> list_set bs i v = replaced bs i v.
Proof.
  revert i. induction bs as [|b bs IH]; intros i H; [cbn in H; lia|]. destruct i as [|i]; [reflexivity|]. cbn [list_set replaced firstn skipn app]. f_equal. apply IH. cbn in H. lia.
Qed.

Lemma hand_effect f (y : list N * c_val) p n m bs k : kind_number k = n ->
  valid_hand (Hand bs) -> hand_at_addr m p bs ->
  f (Hand bs) k = Ret (Hand (fst y), match snd y with VBool b => b | _ => false end) ->
  (exists b, snd y = VBool b /\ (b = false -> fst y = bs)) -> length (fst y) = 8%nat ->
  exists m', hand_call f (VPtr p) (VInt n) m = Ret (m', snd y) /\ hand_at_addr m' p (fst y) /\ only_changes m m' p 8.
Proof.
  intros K V H Q (b & B & F) L. unfold hand_call. cbn [as_ptr bind]. unfold as_kind. cbn [as_int bind]. rewrite <- K, pk_from_u8_unchecked_ok. cbn [bind].
  pose proof (proj1 V) as L8. cbn [hand_bytes] in L8. rewrite (load_hand_ok m p bs L8 H). cbn [bind]. rewrite Q. cbn [bind]. rewrite B in *. destruct b.
  - destruct (store_hand_ok m p (fst y) L) as (m' & Q' & H' & O).
    { apply hand_at_bytes, at_bytes_accessible in H. now rewrite L8 in H. }
    exists m'. rewrite Q'. cbn [bind]. auto.
  - exists m. rewrite (F eq_refl). split; [reflexivity|]. split; [exact H|]. split; [auto|tauto].
Qed.
Lemma bits_effect A E op p c d m w0 w1 f : p mod A = 0 -> words_ints w0 w1 = true -> bits_at_addr E m p w0 w1 ->
  op (Bitboard w0 w1) (Bitboard c d) = bits f ->
  exists m', assign_call A E op (VPtr p) (VBits c d) m = Ret (m', VVoid) /\ bits_at_addr E m' p (fst (words_of f)) (snd (words_of f)) /\ only_changes m m' p 16.
Proof.
  intros Z V H Q. unfold assign_call. cbn [as_ptr as_bits bind]. apply words_iff in V.
  rewrite (load_bits_ok A E m p (Bitboard w0 w1) Z V H). cbn [bind]. rewrite Q.
  apply bits_at_bytes with (b := Bitboard w0 w1), at_bytes_accessible in H. rewrite bitboard_bytes_length in H.
  destruct (store_bits_ok A E m p (bits f) Z H) as (m' & Q' & H' & O). exists m'. rewrite Q'. cbn [bind]. auto.
Qed.
Ltac args H :=
  repeat match type of H with
  | meaning _ ?l = _ => is_var l; destruct l as [|? l]; try discriminate H
  | meaning _ (?v :: _) = _ => is_var v; destruct v; try discriminate H
  | meaning _ (_ :: ?v :: _) = _ => is_var v; destruct v; try discriminate H
  | meaning _ (_ :: _ :: ?v :: _) = _ => is_var v; destruct v; try discriminate H
  | meaning _ (_ :: ?l) = _ => is_var l; destruct l as [|? l]; try discriminate H
  | meaning _ (_ :: _ :: ?l) = _ => is_var l; destruct l as [|? l]; try discriminate H
  | meaning _ (_ :: _ :: _ :: ?l) = _ => is_var l; destruct l as [|? l]; try discriminate H
  end.
Ltac cond H :=
  let B := fresh "B" in
  apply when_eff in H; destruct H as [B ->]; rewrite ?andb_true_iff in B.

(** C62: every function does with its arguments what the arithmetic of the specification says, in every profile, for both byte orders
    and whatever [uint64_t] is aligned to. Functions on values touch no memory; the others change one object. *)
Lemma c62_calls_pf : forall P A E f args m eff, meaning f args = Some eff ->
  match eff with
  | Value r => c_call P A E f args m = Ret (m, r)
  | OnHand a g => forall bs, hand_ints bs = true -> hand_at_addr m a bs ->
      exists m', c_call P A E f args m = Ret (m', snd (g bs)) /\ hand_at_addr m' a (fst (g bs)) /\ only_changes m m' a 8
  | OnBits a g => forall w0 w1, words_ints w0 w1 = true -> a mod A = 0 -> bits_at_addr E m a w0 w1 ->
      exists m', c_call P A E f args m = Ret (m', snd (g w0 w1)) /\
        bits_at_addr E m' a (fst (fst (g w0 w1))) (snd (fst (g w0 w1))) /\ only_changes m m' a 16
  end.
Proof.
  intros P A E f args m eff M. destruct f; args M.
  all: try (pose proof M as M0; cbn [meaning] in M; cond M; apply call_1; [cbn; tauto|exact M0|unfold square_int, color_int, kind_int, piece_int, byte_int in B;
    rewrite ?orb_true_iff, ?within_iff, ?N.ltb_lt in B; lia]).
  all: try (pose proof M as M0; cbn [meaning] in M; cond M; apply call_move; [cbn; tauto|exact M0]).
  all: try (pose proof M as M0; cbn [meaning] in M; cond M; apply call_2; [cbn; tauto|exact M0| |]; unfold square_int, color_int, kind_int, piece_int, byte_int in B;
    rewrite ?orb_true_iff, ?within_iff, ?N.ltb_lt in B; lia).
  all: cbn [meaning] in M.
  - apply some_inj in M. subst eff. reflexivity.
  - cond M. apply words_iff in B. cbn [c_call]. unfold pure. cbn [as_bits bind]. rewrite (bb_count_ok P _ B). cbn [bind]. do 3 f_equal.
    rewrite <- numbers_members, map_length. reflexivity.
  - cond M. apply words_iff in B. cbn [c_call]. unfold pure. cbn [as_bits bind]. do 3 f_equal.
    rewrite <- numbers_members, map_length.
    apply eq_true_iff_eq. rewrite bb_is_empty_ok, Nat.eqb_eq. split; [intros ->; reflexivity|].
    intros Q. destruct (bb_dec (Bitboard w0 w1) bb_empty) as [|NE]; auto. destruct (pop_members P _ B NE) as (s & b' & _ & _ & Z). rewrite Z in Q. discriminate Q.
  - cond M. destruct B as [B Bs]. destruct (as_square_ok n Bs) as [Q V]. cbn [c_call]. unfold pure. rewrite Q. cbn [as_bits bind].
    rewrite bb_contains_ok by exact V. reflexivity.
  - cond M. apply words_iff in B. cbn [c_call]. unfold pure. cbn [as_bits bind]. destruct (bb_flip_ok P (Bitboard w0 w1)) as (b' & Q & V & F).
    rewrite Q. cbn [bind]. do 2 f_equal. apply of_bits_eq, bits_eq; [auto|]. intros sq Vs. rewrite <- (rotate_involutive sq Vs) at 1.
    rewrite (F B) by now apply rotate_valid. rewrite has_member', rotate_repr by exact Vs. reflexivity.
  - apply some_inj in M. subst eff. intros w0 w1 V Z H. cbn [c_call as_ptr bind]. apply words_iff in V. rewrite (load_bits_ok A E m a (Bitboard w0 w1) Z V H). cbn [bind].
    pose proof (call_pop P _ V) as C. cbn [bb0 bb1] in C. assert (Ac : accessible m a 16).
    { apply bits_at_bytes with (b := Bitboard w0 w1), at_bytes_accessible in H. now rewrite bitboard_bytes_length in H. }
    cbv beta. destruct (member_numbers w0 w1) as [|s l]; rewrite C; cbn [bind].
    + destruct (store_bits_ok A E m a (Bitboard w0 w1) Z Ac) as (m' & Q & R). exists m'. rewrite Q. cbn [bind]. auto.
    + rewrite words_pair. destruct (store_bits_ok A E m a (bits (fun t => has w0 w1 t && negb (t =? s))) Z Ac) as (m' & Q & R). exists m'. rewrite Q. cbn [bind]. auto.
  - cond M. destruct B as [B C]. apply words_iff in B, C. cbn [c_call]. unfold pure. cbn [as_bits bind]. do 2 f_equal.
    apply of_bits_eq, bits_eq; [now apply and_valid|]. intros sq Vs. rewrite member_and. reflexivity.
  - destruct (words_ints w0 w1) eqn:C; [|discriminate M]. apply some_inj in M. subst eff. intros v0 v1 V Z H. cbn [c_call fst snd]. apply bits_effect with (w0 := v0) (w1 := v1); auto.
    apply words_iff in V, C. apply bits_eq; [now apply and_valid|]. intros sq Vs. rewrite member_and. reflexivity.
  - cond M. destruct B as [B C]. apply words_iff in B, C. cbn [c_call]. unfold pure. cbn [as_bits bind]. do 2 f_equal.
    apply of_bits_eq, bits_eq; [now apply or_valid|]. intros sq Vs. rewrite member_or. reflexivity.
  - destruct (words_ints w0 w1) eqn:C; [|discriminate M]. apply some_inj in M. subst eff. intros v0 v1 V Z H. cbn [c_call fst snd]. apply bits_effect with (w0 := v0) (w1 := v1); auto.
    apply words_iff in V, C. apply bits_eq; [now apply or_valid|]. intros sq Vs. rewrite member_or. reflexivity.
  - cond M. destruct B as [B C]. apply words_iff in B, C. cbn [c_call]. unfold pure. cbn [as_bits bind]. do 2 f_equal.
    apply of_bits_eq, bits_eq; [now apply xor_valid|]. intros sq Vs. rewrite member_xor. reflexivity.
  - destruct (words_ints w0 w1) eqn:C; [|discriminate M]. apply some_inj in M. subst eff. intros v0 v1 V Z H. cbn [c_call fst snd]. apply bits_effect with (w0 := v0) (w1 := v1); auto.
    apply words_iff in V, C. apply bits_eq; [now apply xor_valid|]. intros sq Vs. rewrite member_xor. reflexivity.
  - cond M. apply words_iff in B. cbn [c_call]. unfold pure. cbn [as_bits bind]. do 2 f_equal.
    apply of_bits_eq, bits_eq; [apply not_valid|]. intros sq Vs. rewrite member_not by exact Vs. reflexivity.
  - apply some_inj in M. subst eff. reflexivity.
  - destruct (kind_int n) eqn:K; [|discriminate M]. apply some_inj in M. subst eff. intros bs V H. apply hand_ints_valid in V. destruct (as_kind_ok n K) as (k & _ & Kn).
    cbn [c_call]. apply (hand_effect (Hand_add P) _ a n m bs k Kn V H); cbv zeta beta; rewrite (call_hand_kind n k Kn); destruct (is_hand_piece k) eqn:HP; cbn [fst snd].
    + unfold Hand_add. rewrite hand_added_ok by exact V. rewrite HP. cbn [bind]. unfold hand_put, in_hand. cbn [hand_bytes]. rewrite Kn, replaced_set; [reflexivity|].
      apply is_hand_piece_ok, hand_kinds_number in HP. destruct V as [-> _] || (destruct V as [L _]; cbn [hand_bytes] in L; rewrite L). lia.
    + unfold Hand_add. rewrite hand_added_ok by exact V. rewrite HP. reflexivity.
    + exists true. split; [reflexivity|discriminate].
    + exists false. auto.
    + destruct V as [L _]. cbn [hand_bytes] in L. apply is_hand_piece_ok, hand_kinds_number in HP. rewrite <- replaced_set, list_set_length by lia. exact L.
    + apply V.
  - destruct (kind_int n) eqn:K; [|discriminate M]. apply some_inj in M. subst eff. intros bs V H. apply hand_ints_valid in V. destruct (as_kind_ok n K) as (k & _ & Kn).
    cbn [c_call]. apply (hand_effect (Hand_remove P) _ a n m bs k Kn V H); cbv zeta beta; rewrite (call_hand_kind n k Kn); change (nth (N.to_nat (n - 1)) bs 0) with (nth (N.to_nat (n - 1)) (hand_bytes (Hand bs)) 0);
      rewrite <- Kn; fold (in_hand (Hand bs) k); destruct (is_hand_piece k && (0 <? in_hand (Hand bs) k)) eqn:HP; cbn [fst snd].
    + unfold Hand_remove. rewrite hand_removed_ok by exact V. rewrite HP. cbn [bind]. unfold hand_put. cbn [hand_bytes]. rewrite replaced_set; [reflexivity|].
      apply andb_true_iff in HP. destruct HP as [HP _]. apply is_hand_piece_ok, hand_kinds_number in HP. destruct V as [L _]; cbn [hand_bytes] in L; rewrite L. lia.
    + unfold Hand_remove. rewrite hand_removed_ok by exact V. rewrite HP. reflexivity.
    + exists true. split; [reflexivity|discriminate].
    + exists false. auto.
    + apply andb_true_iff in HP. destruct HP as [HP _]. destruct V as [L _]. cbn [hand_bytes] in L. apply is_hand_piece_ok, hand_kinds_number in HP. rewrite <- replaced_set, list_set_length by lia. exact L.
    + apply V.
  - cond M. destruct B as [V K]. apply hand_ints_valid in V. destruct (as_kind_ok n K) as (k & Q & Kn). cbn [c_call]. unfold pure. rewrite Q. cbn [as_hand bind].
    unfold Hand_count. rewrite hand_count_ok by exact V. cbn [bind]. rewrite (call_hand_kind n k Kn). unfold in_hand. cbn [hand_bytes]. rewrite Kn. now destruct (is_hand_piece k).
  - pose proof M as M0. cond M. destruct B as [Hf Ht]. cbn [c_call]. eapply agrees_pure; [|apply (sweep_normal P n n0 b)|exact M0]; auto using pow_lt_82.
  - cond M. destruct B as [Hf Hr]. cbn [c_call]. unfold pure. cbn [as_int bind]. rewrite call_new by auto. reflexivity.
  - cond M. destruct B as [[Hf Hr] Hc]. destruct (as_color_ok n1 Hc) as (c & Q & <-). cbn [c_call]. unfold pure. rewrite Q. cbn [as_int bind].
    rewrite call_new_relative by auto. reflexivity.
  - cond M. rewrite !Z.leb_le in B. destruct B as [Hs B]. destruct (as_square_ok n Hs) as [Q _]. cbn [c_call]. unfold pure. rewrite Q. cbn [as_signed bind].
    destruct (call_shift P n z z0 Hs) as (o & Q' & R); [unfold is_i8; lia|unfold is_i8; lia|]. rewrite Q'. cbn [bind]. now rewrite R.
Qed.

(** ** Contracts *)
Definition export_of (f : c_fn) : option rexport := find (fun e => String.eqb (re_name e) (fn_name f)) rust_exports.
Definition ret_of (f : c_fn) : rty := match export_of f with Some e => re_ret e | None => RUnit end.
Definition result_ok f args : bool := match meaning f args with Some (Value r) => value_of (ret_of f) r | _ => true end.
Lemma result_1 f n : In f ints_1 -> n < 256 -> result_ok f [VInt n] = true.
Proof.
  intros I H. assert (K : forallb (fun f => forallb (fun n => result_ok f [VInt n]) (range 0 256)) ints_1 = true) by (vm_compute; reflexivity).
  rewrite forallb_forall in K. specialize (K f I). rewrite forallb_forall in K. apply K, range_In. lia.
Qed.
Lemma result_2 f n k : In f ints_2 -> n < 82 -> k < 82 -> result_ok f [VInt n; VInt k] = true.
Proof.
  intros I H H'. assert (K : forallb (fun f => forallb (fun n => forallb (fun k => result_ok f [VInt n; VInt k]) (range 0 82)) (range 0 82)) ints_2 = true)
    by (vm_compute; reflexivity).
  rewrite forallb_forall in K. specialize (K f I). rewrite forallb_forall in K. specialize (K n). rewrite forallb_forall in K.
  apply K; apply range_In; lia.
Qed.
Lemma result_normal n k b : n < 82 -> k < 82 -> result_ok F_CompactMove_normal [VInt n; VInt k; VBool b] = true.
Proof.
  intros H H'. assert (K : forallb (fun n => forallb (fun k => result_ok F_CompactMove_normal [VInt n; VInt k; VBool b]) (range 0 82)) (range 0 82) = true)
    by (destruct b; vm_compute; reflexivity).
  rewrite forallb_forall in K. specialize (K n). rewrite forallb_forall in K. apply K; apply range_In; lia.
Qed.
Lemma bits_of_typed f : value_of (RNamed "Bitboard") (bits_of f) = true.
Proof.
  unfold bits_of. rewrite words_pair. cbn [value_of]. rewrite andb_true_iff. split; [reflexivity|]. apply words_iff.
  pose proof (bits_valid f) as V. now destruct (bits f).
Qed.
Lemma words_of_typed f : words_ints (fst (words_of f)) (snd (words_of f)) = true.
Proof. apply words_iff. apply bits_valid. Qed.
Lemma member_numbers_square a b s l : member_numbers a b = s :: l -> square_int s = true.
Proof.
  intros H. assert (I : In s (member_numbers a b)) by (rewrite H; now left). unfold member_numbers in I. apply filter_In in I. destruct I as [I _].
  unfold square_numbers in I. apply range_In in I. unfold square_int. apply within_iff. lia.
Qed.
Lemma square_number_range f r : square_number f r <= 81.
Proof. unfold square_number. destruct (within 1 9 f && within 1 9 r) eqn:B; [|lia]. apply andb_true_iff in B. rewrite !within_iff in B. lia. Qed.
Lemma translated_range s df dr : translated s df dr <= 81.
Proof. unfold translated. cbv zeta. destruct (_ && _)%Z eqn:B; [|lia]. rewrite !andb_true_iff, !Z.leb_le in B. lia. Qed.
Lemma hand_typed bs i v : hand_ints bs = true -> (i < 7)%nat -> v < 256 -> hand_ints (replaced bs i v) = true.
Proof.
  rewrite !hand_ints_valid. intros (L & F & Z) Hi Hv. cbn [hand_bytes] in *. rewrite <- replaced_set by lia. unfold valid_hand. cbn [hand_bytes].
  rewrite list_set_length. split; [exact L|]. split; [|rewrite list_set_nth_other by lia; exact Z].
  apply Forall_forall. intros x I. apply (In_nth _ _ 0) in I. destruct I as (j & Hj & <-). rewrite list_set_length in Hj.
  destruct (Nat.eq_dec i j) as [<-|N]; [rewrite list_set_nth_same by lia; exact Hv|rewrite list_set_nth_other by exact N].
  rewrite Forall_forall in F. apply F, nth_In. exact Hj.
Qed.

Lemma typed_cons t ts vs : typed (t :: ts) vs = true -> exists v l, vs = v :: l /\ value_of t v = true /\ typed ts l = true.
Proof. destruct vs as [|v l]; [discriminate|]. cbn [typed]. rewrite andb_true_iff. intros H. exists v, l. auto. Qed.
Lemma typed_nil vs : typed [] vs = true -> vs = [].
Proof. destruct vs; [reflexivity|discriminate]. Qed.
Ltac export :=
  match goal with |- exists x, In x _ /\ re_name x = ?n /\ _ =>
    let o := eval vm_compute in (find (fun x => String.eqb (re_name x) n) rust_exports) in
    match o with Some ?y => exists y; split; [refine (proj1 (find_some (fun x => String.eqb (re_name x) n) _ _)); vm_compute; reflexivity|split; [reflexivity|]] end
  end.
Ltac targs T :=
  repeat (apply typed_cons in T; let v := fresh "v" in let l := fresh "l" in let V := fresh "V" in destruct T as (v & l & -> & V & T); destruct v; try discriminate V);
  apply typed_nil in T; subst.
Ltac tv := repeat match goal with
  | V : value_of (RNamed "Square") (VInt ?n) = true |- _ => change (square_int n = true) in V
  | V : value_of (RNamed "Piece") (VInt ?n) = true |- _ => change (piece_int n = true) in V
  | V : value_of (RNamed "PieceKind") (VInt ?n) = true |- _ => change (kind_int n = true) in V
  | V : value_of (RNamed "Color") (VInt ?n) = true |- _ => change (color_int n = true) in V
  | V : value_of (RNamed "CompactMove") (VInt ?n) = true |- _ => change (move_int n = true) in V
  | V : value_of RU8 (VInt ?n) = true |- _ => change (byte_int n = true) in V
  | V : value_of (RNamed "Bitboard") (VBits ?a ?b) = true |- _ => change (words_ints a b = true) in V
  | V : value_of (RNamed "Hand") (VHand ?bs) = true |- _ => change (hand_ints bs = true) in V
  | V : value_of RI8 (VSigned ?z) = true |- _ => change ((-128 <=? z)%Z && (z <=? 127)%Z = true) in V
  end.
Lemma contract_1 f n b v : In f ints_1 -> n < 256 -> meaning f [VInt n] = when b v -> b = true ->
  exists eff, meaning f [VInt n] = Some eff /\ effect_typed (ret_of f) eff.
Proof. intros I L M ->. exists (Value v). split; [exact M|]. pose proof (result_1 f n I L) as K. unfold result_ok in K. rewrite M in K. exact K. Qed.
Lemma contract_2 f n k b v : In f ints_2 -> n < 82 -> k < 82 -> meaning f [VInt n; VInt k] = when b v -> b = true ->
  exists eff, meaning f [VInt n; VInt k] = Some eff /\ effect_typed (ret_of f) eff.
Proof. intros I L L' M ->. exists (Value v). split; [exact M|]. pose proof (result_2 f n k I L L') as K. unfold result_ok in K. rewrite M in K. exact K. Qed.
Lemma contract_when f args t b v : meaning f args = when b v -> b = true -> value_of t v = true -> exists eff, meaning f args = Some eff /\ effect_typed t eff.
Proof. intros M -> T. exists (Value v). split; [exact M|exact T]. Qed.
Ltac limits := unfold square_int, color_int, kind_int, piece_int, byte_int in *; rewrite ?orb_true_iff, ?within_iff, ?N.ltb_lt in *; lia.
Lemma move_of_int n : move_int n = true -> square_int (n mod 128) = true /\ (if n / 128 mod 2 =? 1 then 0 else n / 256 mod 128) <= 81.
Proof.
  unfold move_int. rewrite andb_true_iff. intros [H1 H2]. split; [exact H1|]. destruct (n / 128 mod 2 =? 1); [lia|]. apply andb_true_iff in H2. destruct H2 as [H2 _].
  unfold square_int in H2. apply within_iff in H2. lia.
Qed.
Lemma member_numbers_length a b : (length (member_numbers a b) <= 81)%nat.
Proof. rewrite <- numbers_members, map_length. apply members_length. Qed.

(** C62: each function is exported, arguments of the types it is declared with are within its contract, except that the unchecked
    conversions need a number in their range, and then the result has the declared type and so has the object it changes. *)
Lemma c62_contract_pf : forall f, exists e, In e rust_exports /\ re_name e = fn_name f /\
  forall args, typed (re_args e) args = true -> unchecked_fine f args = true ->
  exists eff, meaning f args = Some eff /\ effect_typed (re_ret e) eff.
Proof.
  intros f. destruct f; export; intros args T U; cbn [re_args] in T.
  all: cbn [re_ret]; targs T.
  all: tv.
  all: try (eapply contract_1; [cbn; tauto|limits|reflexivity|first [exact V|exact U]]).
  all: try (eapply contract_2; [cbn; tauto|limits|limits|reflexivity|rewrite andb_true_iff; split; assumption]).
  all: try (eapply contract_when; [reflexivity|rewrite ?andb_true_iff; auto|apply bits_of_typed]).
  all: try (eapply contract_when; [reflexivity|rewrite ?andb_true_iff; auto|reflexivity]).
  - eexists. split; reflexivity.
  - eapply contract_when; [reflexivity|exact V|]. change (N.of_nat (length (member_numbers w0 w1)) <? 256 = true). pose proof (member_numbers_length w0 w1). lia.
  - eexists. split; [reflexivity|]. intros w0 w1 W. cbv beta. destruct (member_numbers w0 w1) as [|s l] eqn:Q; [split; [exact W|reflexivity]|].
    rewrite words_pair. cbn [fst snd]. split; [apply words_iff; pose proof (bits_valid (fun t => has w0 w1 t && negb (t =? s))) as B; now destruct (bits _)|].
    apply member_numbers_square in Q. change (within 0 81 s = true). limits.
  - cbn [meaning]. rewrite V0. eexists. split; [reflexivity|]. intros v0 v1 W. split; [apply words_of_typed|reflexivity].
  - cbn [meaning]. rewrite V0. eexists. split; [reflexivity|]. intros v0 v1 W. split; [apply words_of_typed|reflexivity].
  - cbn [meaning]. rewrite V0. eexists. split; [reflexivity|]. intros v0 v1 W. split; [apply words_of_typed|reflexivity].
  - eexists. split; reflexivity.
  - cbn [meaning]. rewrite V0. eexists. split; [reflexivity|]. intros bs W. cbv beta zeta. destruct (N.leb_spec n 7); cbn [fst snd]; (split; [|reflexivity]); auto.
    apply hand_typed; auto; [limits|]. apply N.mod_lt. discriminate.
  - cbn [meaning]. rewrite V0. eexists. split; [reflexivity|]. intros bs W. cbv beta zeta. destruct ((n <=? 7) && (0 <? nth (N.to_nat (n - 1)) bs 0)) eqn:B; cbn [fst snd]; (split; [|reflexivity]); auto.
    rewrite andb_true_iff, N.leb_le, N.ltb_lt in B. apply hand_typed; auto; [limits|]. apply hand_ints_valid in W. destruct W as (_ & F & _). pose proof (nth_byte bs (N.to_nat (n - 1)) F). lia.
  - eapply contract_when; [reflexivity|rewrite andb_true_iff; auto|]. apply hand_ints_valid in V. destruct V as (_ & F & _). pose proof (nth_byte bs (N.to_nat (n - 1)) F).
    change ((if n <=? 7 then nth (N.to_nat (n - 1)) bs 0 else 0) <? 256 = true). destruct (n <=? 7); lia.
  - assert (M : meaning F_CompactMove_normal [VInt n; VInt n0; VBool b] = Some (Value (VInt (256 * n + n0 + (if b then 32768 else 0))))).
    { cbn [meaning]. rewrite V, V0. reflexivity. }
    eexists. split; [exact M|]. pose proof (result_normal n n0 b (pow_lt_82 n V) (pow_lt_82 n0 V0)) as K. unfold result_ok in K. rewrite M in K. exact K.
  - eapply contract_when; [reflexivity|exact V|]. destruct (move_of_int n V) as [_ L]. change (within 0 81 (if n / 128 mod 2 =? 1 then 0 else n / 256 mod 128) = true).
    apply within_iff. split; [lia|exact L].
  - eapply contract_when; [reflexivity|exact V|]. exact (proj1 (move_of_int n V)).
  - eapply contract_when; [reflexivity|rewrite andb_true_iff; auto|]. change (within 0 81 (square_number n n0) = true). pose proof (square_number_range n n0). apply within_iff. lia.
  - eapply contract_when; [reflexivity|rewrite !andb_true_iff; auto|].
    change (within 0 81 (if (n1 =? 1) || (square_number n n0 =? 0) then square_number n n0 else 82 - square_number n n0) = true).
    pose proof (square_number_range n n0). apply within_iff. destruct (n1 =? 1), (N.eqb_spec (square_number n n0) 0); cbn [orb]; lia.
  - rewrite andb_true_iff in V0, V1. eapply contract_when; [reflexivity|rewrite !andb_true_iff; tauto|]. change (within 0 81 (translated n z z0) = true).
    pose proof (translated_range n z z0). apply within_iff. lia.
Qed.

(** ** Impossible values *)
Lemma as_kind_ub n : kind_int n = false -> as_kind (VInt n) = UB.
Proof.
  intros H. unfold as_kind. cbn [as_int bind]. unfold pk_from_u8_unchecked.
  repeat (match goal with |- context [match ?x with _ => _ end] => destruct x end; try reflexivity; try discriminate H).
Qed.
Lemma as_color_ub n : color_int n = false -> as_color (VInt n) = UB.
Proof.
  intros H. unfold as_color. cbn [as_int bind]. unfold color_transmute.
  repeat (match goal with |- context [match ?x with _ => _ end] => destruct x end; try reflexivity; try discriminate H).
Qed.
Lemma nonzero_np n : nonzero_new_unchecked n <> Panic.
Proof. unfold nonzero_new_unchecked. destruct (n =? 0); discriminate. Qed.
Lemma as_int_np v : as_int v <> Panic.
Proof. destruct v; discriminate. Qed.
Lemma as_signed_np v : as_signed v <> Panic.
Proof. destruct v; discriminate. Qed.
Lemma as_bool_np v : as_bool v <> Panic.
Proof. destruct v; discriminate. Qed.
Lemma as_hand_np v : as_hand v <> Panic.
Proof. destruct v; discriminate. Qed.
Lemma as_bits_np v : as_bits v <> Panic.
Proof. destruct v; discriminate. Qed.
Lemma as_ptr_np v : as_ptr v <> Panic.
Proof. destruct v; discriminate. Qed.
Lemma as_square_np v : as_square v <> Panic.
Proof. destruct v; try discriminate. unfold as_square. cbn [as_int bind]. pose proof (nonzero_np n). now destruct (nonzero_new_unchecked n). Qed.
Lemma as_piece_np v : as_piece v <> Panic.
Proof. destruct v; try discriminate. unfold as_piece. cbn [as_int bind]. pose proof (nonzero_np n). now destruct (nonzero_new_unchecked n). Qed.
Lemma as_move_np v : as_move v <> Panic.
Proof. destruct v; try discriminate. unfold as_move. cbn [as_int bind]. pose proof (nonzero_np n). now destruct (nonzero_new_unchecked n). Qed.
Lemma as_color_np v : as_color v <> Panic.
Proof. destruct v; try discriminate. destruct (color_int n) eqn:C; [destruct (as_color_ok n C) as (c & -> & _); discriminate|rewrite as_color_ub by exact C; discriminate]. Qed.
Lemma as_kind_np v : as_kind v <> Panic.
Proof. destruct v; try discriminate. destruct (kind_int n) eqn:C; [destruct (as_kind_ok n C) as (c & -> & _); discriminate|rewrite as_kind_ub by exact C; discriminate]. Qed.

Ltac decode :=
  match goal with
  | |- context [as_int ?v] => let Q := fresh "Q" in pose proof (as_int_np v) as Q; destruct (as_int v); [| contradiction |reflexivity]
  | |- context [as_signed ?v] => let Q := fresh "Q" in pose proof (as_signed_np v) as Q; destruct (as_signed v); [| contradiction |reflexivity]
  | |- context [as_bool ?v] => let Q := fresh "Q" in pose proof (as_bool_np v) as Q; destruct (as_bool v); [| contradiction |reflexivity]
  | |- context [as_hand ?v] => let Q := fresh "Q" in pose proof (as_hand_np v) as Q; destruct (as_hand v); [| contradiction |reflexivity]
  | |- context [as_bits ?v] => let Q := fresh "Q" in pose proof (as_bits_np v) as Q; destruct (as_bits v); [| contradiction |reflexivity]
  | |- context [as_ptr ?v] => let Q := fresh "Q" in pose proof (as_ptr_np v) as Q; destruct (as_ptr v); [| contradiction |reflexivity]
  | |- context [as_square ?v] => let Q := fresh "Q" in pose proof (as_square_np v) as Q; destruct (as_square v); [| contradiction |reflexivity]
  | |- context [as_piece ?v] => let Q := fresh "Q" in pose proof (as_piece_np v) as Q; destruct (as_piece v); [| contradiction |reflexivity]
  | |- context [as_move ?v] => let Q := fresh "Q" in pose proof (as_move_np v) as Q; destruct (as_move v); [| contradiction |reflexivity]
  | |- context [as_color ?v] => let Q := fresh "Q" in pose proof (as_color_np v) as Q; destruct (as_color v); [| contradiction |reflexivity]
  | |- context [as_kind ?v] => let Q := fresh "Q" in pose proof (as_kind_np v) as Q; destruct (as_kind v); [| contradiction |reflexivity]
  end; cbn [bind].
Lemma impossible_square v : impossible (RNamed "Square") v = true -> as_square v = UB.
Proof. destruct v; try discriminate. intros H. change (true && (n =? 0) = true) in H. apply N.eqb_eq in H. now subst. Qed.
Lemma impossible_piece v : impossible (RNamed "Piece") v = true -> as_piece v = UB.
Proof. destruct v; try discriminate. intros H. change (true && (n =? 0) = true) in H. apply N.eqb_eq in H. now subst. Qed.
Lemma impossible_move v : impossible (RNamed "CompactMove") v = true -> as_move v = UB.
Proof. destruct v; try discriminate. intros H. change (true && (n =? 0) = true) in H. apply N.eqb_eq in H. now subst. Qed.
Lemma impossible_color v : impossible (RNamed "Color") v = true -> as_color v = UB.
Proof. destruct v; try discriminate. intros H. change (negb (color_int n) = true) in H. apply negb_true_iff in H. now apply as_color_ub. Qed.
Lemma impossible_kind v : impossible (RNamed "PieceKind") v = true -> as_kind v = UB.
Proof. destruct v; try discriminate. intros H. change (negb (kind_int n) = true) in H. apply negb_true_iff in H. now apply as_kind_ub. Qed.
(** C62: an integer that is no value of the declared Rust type, zero for a square, a piece or a move or anything but a discriminant for
    an enum, is undefined behaviour wherever it is passed. *)
Lemma c62_impossible_pf : forall f, exists e, In e rust_exports /\ re_name e = fn_name f /\
  forall P A E args m i t v, length args = length (re_args e) -> nth_error (re_args e) i = Some t -> nth_error args i = Some v ->
  impossible t v = true -> c_call P A E f args m = UB.
Proof.
  intros f. destruct f; export; intros P A E args m i t v L T V I; cbn [re_args length] in *.
  all: repeat (match type of L with length ?l = _ => is_var l; destruct l as [|? l]; try discriminate L; cbn [length] in L; try (apply Nat.succ_inj in L) end).
  all: destruct i as [|[|[|i]]]; cbn [nth_error] in T, V; try discriminate T; try (destruct i; discriminate T); apply some_inj in T, V; subst; try (destruct v; discriminate I).
  all: cbn [c_call]; unfold pure, assign_call, hand_call.
  all: match type of I with
    | impossible (RNamed "Square") _ = _ => apply impossible_square in I
    | impossible (RNamed "Piece") _ = _ => apply impossible_piece in I
    | impossible (RNamed "CompactMove") _ = _ => apply impossible_move in I
    | impossible (RNamed "Color") _ = _ => apply impossible_color in I
    | impossible (RNamed "PieceKind") _ = _ => apply impossible_kind in I
    end.
  all: repeat first [rewrite I; reflexivity|decode].
Qed.

(** C62: an unchecked conversion of any other byte is undefined behaviour. *)
Lemma c62_unchecked_pf : forall P A E f n k m, unchecked_limit f = Some n -> k < 256 -> within 1 n k = false -> c_call P A E f [VInt k] m = UB.
Proof.
  intros P A E f n k m U L W.
  assert (K : In k (range 0 256)) by (apply range_In; lia). clear L.
  destruct f; try discriminate U; injection U as <-; cbn [c_call as_int bind]; unfold pure.
  - assert (gr_from_u8_unchecked k = UB) as ->; [|reflexivity]. vm_compute in K. repeat (destruct K as [<-|K]; [first [discriminate W|reflexivity]|]). destruct K.
  - assert (imk_from_u8_unchecked k = UB) as ->; [|reflexivity]. vm_compute in K. repeat (destruct K as [<-|K]; [first [discriminate W|reflexivity]|]). destruct K.
  - assert (pk_from_u8_unchecked k = UB) as ->; [|reflexivity]. vm_compute in K. repeat (destruct K as [<-|K]; [first [discriminate W|reflexivity]|]). destruct K.
  - unfold sq_from_u8_unchecked. change (in_range 1 81 k) with (within 1 81 k). rewrite W. reflexivity.
Qed.
(** C62: a function that changes a bitboard through a pointer that is not aligned has undefined behaviour. *)
Lemma c62_misaligned_pf : forall P A E f args m a g, meaning f args = Some (OnBits a g) -> a mod A <> 0 -> c_call P A E f args m = UB.
Proof.
  intros P A E f args m a g M N.
  assert (L : load_bits A E m a = UB) by (unfold load_bits; destruct (N.eqb_spec (a mod A) 0); [contradiction|reflexivity]).
  destruct f; args M; cbn [meaning] in M; try (unfold when in M; match type of M with (if ?b then _ else _) = _ => destruct b; discriminate M end); try discriminate M.
  all: try (match type of M with (if ?b then _ else _) = _ => destruct b; [|discriminate M] end); try discriminate M; injection M as -> _;
    cbn [c_call]; unfold assign_call; cbn [as_ptr as_bits bind]; rewrite L; reflexivity.
Qed.

(** ** Programs *)
Definition like (v v' : c_val) : Prop := match v with VPtr _ => exists a, v' = VPtr a | _ => v' = v end.
Definition readdressed (vs' : list c_val) (eff eff' : c_effect) : Prop :=
  match eff with
  | Value r => eff' = Value r
  | OnHand _ g => exists a l, vs' = VPtr a :: l /\ eff' = OnHand a g
  | OnBits _ g => exists a l, vs' = VPtr a :: l /\ eff' = OnBits a g
  end.
Lemma readdress f vs vs' eff : meaning f vs = Some eff -> Forall2 like vs vs' -> exists eff', meaning f vs' = Some eff' /\ readdressed vs' eff eff'.
Proof.
  intros M F. destruct f; args M;
    repeat match goal with H : Forall2 _ (_ :: _) _ |- _ => inversion H; clear H; subst | H : Forall2 _ [] _ |- _ => inversion H; clear H; subst end;
    repeat match goal with H : like (VPtr _) _ |- _ => destruct H as [? ->] | H : like _ _ |- _ => cbn [like] in H; subst end;
    cbn [meaning] in M |- *.
  all: try (unfold when in *; match type of M with (if ?b then _ else _) = _ => destruct b; [|discriminate M] end).
  all: apply some_inj in M; subst eff; eexists; split; [reflexivity|]; cbn [readdressed]; eauto.
Qed.
Lemma meaning_typed f vs eff : meaning f vs = Some eff ->
  match eff with
  | Value _ => True
  | OnHand _ g => forall bs, hand_ints bs = true -> hand_ints (fst (g bs)) = true
  | OnBits _ g => forall w0 w1, words_ints w0 w1 = true -> words_ints (fst (fst (g w0 w1))) (snd (fst (g w0 w1))) = true
  end.
Proof.
  intros M. destruct f; args M; cbn [meaning] in M.
  all: try (apply when_eff in M; destruct M as [B ->]; exact I).
  all: try (match type of M with (if ?b then _ else _) = _ => destruct b eqn:K; [|discriminate M] end); apply some_inj in M; subst eff; try exact I.
  - intros w0 w1 W. destruct (member_numbers w0 w1) as [|s l] eqn:Q; [exact W|].
    rewrite words_pair. cbn [fst snd]. apply words_iff; pose proof (bits_valid (fun t => has w0 w1 t && negb (t =? s))) as B; now destruct (bits _).
  - intros; apply words_of_typed.
  - intros; apply words_of_typed.
  - intros; apply words_of_typed.
  - intros bs W. cbv beta zeta. destruct (N.leb_spec n 7); cbn [fst snd]; auto. apply hand_typed; auto; [limits|]. apply N.mod_lt. discriminate.
  - intros bs W. cbv beta zeta. destruct ((n <=? 7) && (0 <? nth (N.to_nat (n - 1)) bs 0)) eqn:B; cbn [fst snd]; auto.
    rewrite andb_true_iff, N.leb_le, N.ltb_lt in B. apply hand_typed; auto; [limits|]. apply hand_ints_valid in W. destruct W as (_ & F & _). pose proof (nth_byte bs (N.to_nat (n - 1)) F). lia.
Qed.

Definition sound (st : v_state) : Prop :=
  (forall i bs, vs_hand st i = Some bs -> hand_ints bs = true) /\ (forall i w0 w1, vs_bits st i = Some (w0, w1) -> words_ints w0 w1 = true).
Definition untouched (env : v_env) (n k : nat) (m m' : mem) : Prop :=
  (forall x, (forall o, v_known n k o -> ~ in_object env o x) -> m' x = m x) /\ forall x, m' x = None <-> m x = None.
Lemma placed_untouched A env n k m m' : v_placed A env n k m -> untouched env n k m m' -> v_placed A env n k m'.
Proof.
  intros (H1 & H2 & H3) [_ O]. split; [auto|]. split; [|auto]. intros x V i L. destruct (m' (fst (v_region env x) + i)) eqn:Z; [eauto|]. apply O in Z. destruct (H2 x V i L). congruence.
Qed.
Lemma changes_untouched env n k m m' x : v_known n k x -> only_changes m m' (fst (v_region env x)) (snd (v_region env x)) -> untouched env n k m m'.
Proof. intros V [O1 O2]. split; auto. intros y H. apply O1. apply (H x V). Qed.
Lemma object_frame A env n k m m' x y : v_placed A env n k m -> v_known n k x -> v_known n k y -> x <> y ->
  only_changes m m' (fst (v_region env x)) (snd (v_region env x)) -> forall i, i < snd (v_region env y) -> m' (fst (v_region env y) + i) = m (fst (v_region env y) + i).
Proof. intros (_ & _ & D) X Y N [O _] i L. apply O. intros J. apply (D x y _ X Y N J). unfold in_object, in_region. lia. Qed.
Lemma hand_frame m m' a bs : length bs = 8%nat -> (forall i, i < 8 -> m' (a + i) = m (a + i)) -> hand_at_addr m a bs -> hand_at_addr m' a bs.
Proof. intros L F H i b Q. rewrite F; [now apply H|]. assert (i < length bs)%nat by (apply nth_error_Some; congruence). lia. Qed.
Lemma bits_frame E m m' a w0 w1 : (forall i, i < 16 -> m' (a + i) = m (a + i)) -> bits_at_addr E m a w0 w1 -> bits_at_addr E m' a w0 w1.
Proof.
  intros F [H1 H2]. split; intros i L; [rewrite F by lia; now apply H1|]. rewrite <- N.add_assoc, F by lia. rewrite N.add_assoc. now apply H2.
Qed.

Section Steps.
Context (P : profile) (A : N) (E : endian) (env : v_env) (n k : nat).
Definition inv (w : v_world) (st : v_state) : Prop := v_shows E env n k w st /\ sound st /\ v_placed A env n k (v_mem w).
Lemma inv_var w st x v : inv w st -> inv (put_var w x v) (let_var st x v).
Proof.
  intros ((S1 & S2 & S3) & So & Pl). split; [|split; [exact So|exact Pl]]. split; [|split; [exact S2|exact S3]].
  intros y. cbn [put_var let_var v_var vs_var]. now rewrite S1.
Qed.
Lemma inv_hand w st i bs m' : inv w st -> (i < n)%nat -> hand_ints bs = true -> hand_at_addr m' (at_hand env i) bs -> only_changes (v_mem w) m' (at_hand env i) 8 ->
  inv (VWorld m' (v_var w)) (let_hand st i bs) /\ untouched env n k (v_mem w) m'.
Proof.
  intros ((S1 & S2 & S3) & (So1 & So2) & Pl) L V H O. assert (U : untouched env n k (v_mem w) m') by exact (changes_untouched env n k _ _ (HandObject i) L O).
  split; [|exact U]. split; [|split; [|exact (placed_untouched A env n k _ _ Pl U)]].
  - split; [exact S1|]. split.
    + intros j b Lj Q. cbn [let_hand vs_hand] in Q. destruct (Nat.eqb_spec j i) as [->|N]; [apply some_inj in Q; subst b; exact H|].
      pose proof (So1 j b Q) as Vb. apply hand_ints_valid in Vb. apply (hand_frame (v_mem w)); [apply Vb| |now apply S2].
      apply (object_frame A env n k _ _ (HandObject i) (HandObject j) Pl L Lj); [congruence|exact O].
    + intros j w0 w1 Lj Q. cbn [let_hand vs_bits] in Q. apply (bits_frame E (v_mem w)); [|now apply S3].
      apply (object_frame A env n k _ _ (HandObject i) (BitsObject j) Pl L Lj); [discriminate|exact O].
  - split; [|exact So2]. intros j b Q. cbn [let_hand vs_hand] in Q. destruct (Nat.eqb_spec j i) as [->|N]; [apply some_inj in Q; now subst b|now apply (So1 j)].
Qed.
Lemma inv_bits w st i w0 w1 m' : inv w st -> (i < k)%nat -> words_ints w0 w1 = true -> bits_at_addr E m' (at_bits env i) w0 w1 -> only_changes (v_mem w) m' (at_bits env i) 16 ->
  inv (VWorld m' (v_var w)) (let_bits st i (w0, w1)) /\ untouched env n k (v_mem w) m'.
Proof.
  intros ((S1 & S2 & S3) & (So1 & So2) & Pl) L V H O. assert (U : untouched env n k (v_mem w) m') by exact (changes_untouched env n k _ _ (BitsObject i) L O).
  split; [|exact U]. split; [|split; [|exact (placed_untouched A env n k _ _ Pl U)]].
  - split; [exact S1|]. split.
    + intros j b Lj Q. cbn [let_bits vs_hand] in Q. pose proof (So1 j b Q) as Vb. apply hand_ints_valid in Vb. apply (hand_frame (v_mem w)); [apply Vb| |now apply S2].
      apply (object_frame A env n k _ _ (BitsObject i) (HandObject j) Pl L Lj); [discriminate|exact O].
    + intros j u0 u1 Lj Q. cbn [let_bits vs_bits] in Q. destruct (Nat.eqb_spec j i) as [->|N]; [injection Q as <- <-; exact H|].
      apply (bits_frame E (v_mem w)); [|now apply S3].
      apply (object_frame A env n k _ _ (BitsObject i) (BitsObject j) Pl L Lj); [congruence|exact O].
  - split; [exact So1|]. intros j u0 u1 Q. cbn [let_bits vs_bits] in Q. destruct (Nat.eqb_spec j i) as [->|N]; [injection Q as <- <-; exact V|now apply (So2 j)].
Qed.
Lemma untouched_refl m : untouched env n k m m.
Proof. split; [auto|tauto]. Qed.
Lemma untouched_trans m1 m2 m3 : untouched env n k m1 m2 -> untouched env n k m2 m3 -> untouched env n k m1 m3.
Proof. intros [A1 A2] [B1 B2]. split; [intros x H; rewrite B1, A1 by exact H; reflexivity|]. intros x. rewrite B2. apply A2. Qed.
Lemma arg_ok w st a v : (forall x, v_var w x = vs_var st x) -> arg_of st a = Some v -> exists v', arg_value env w a = Ret v' /\ like v v'.
Proof.
  intros S Q. destruct a; cbn [arg_of arg_value] in *.
  - apply some_inj in Q. subst. exists v. split; [reflexivity|]. destruct v; cbn [like]; eauto.
  - rewrite S, Q. exists v. split; [reflexivity|]. destruct v; cbn [like]; eauto.
  - apply some_inj in Q. subst. eexists. split; [reflexivity|]. cbn [like]. eauto.
  - apply some_inj in Q. subst. eexists. split; [reflexivity|]. cbn [like]. eauto.
Qed.
Lemma args_ok w st l vs : (forall x, v_var w x = vs_var st x) -> args_of st l = Some vs -> exists vs', map_res (arg_value env w) l = Ret vs' /\ Forall2 like vs vs'.
Proof.
  intros S. revert vs. induction l as [|a l IH]; intros vs Q; cbn [args_of map_res] in *; [apply some_inj in Q; subst; exists []; split; [reflexivity|constructor]|].
  destruct (arg_of st a) as [v|] eqn:Qa; [|discriminate Q]. destruct (args_of st l) as [vl|]; [|discriminate Q]. apply some_inj in Q. subst vs.
  destruct (arg_ok w st a v S Qa) as (v' & -> & Lv). destruct (IH vl eq_refl) as (vs' & -> & F). cbn [bind]. exists (v' :: vs'). split; [reflexivity|now constructor].
Qed.
Lemma step_ok w st o st' : inv w st -> op_within n k o -> v_meaning st o = Some st' ->
  exists w', v_step P A E env o w = Ret w' /\ inv w' st' /\ untouched env n k (v_mem w) (v_mem w').
Proof.
  intros V W M. pose proof V as ((S1 & S2 & S3) & (So1 & So2) & Pl). destruct o as [x f args|i a|x i|i a|x i]; cbn [v_meaning op_within v_step] in *.
  - destruct (args_of st args) as [vs|] eqn:Qa; [|discriminate M]. destruct (args_ok w st args vs S1 Qa) as (vs' & Qv & F). rewrite Qv. cbn [bind].
    destruct (meaning f vs) as [eff|] eqn:Me; [|discriminate M]. destruct (readdress f vs vs' eff Me F) as (eff' & Me' & Rd).
    pose proof (c62_calls_pf P A E f vs' (v_mem w) eff' Me') as C. pose proof (meaning_typed f vs' eff' Me') as Ty.
    destruct eff as [r|a0 g|a0 g]; cbn [readdressed] in Rd.
    + subst eff'. rewrite C. cbn [bind]. apply some_inj in M. subst st'. eexists. split; [reflexivity|]. split; [|apply untouched_refl]. destruct w. now apply inv_var.
    + destruct Rd as (a & l & -> & ->). destruct args as [|[| |i|] args]; try discriminate M. destruct (vs_hand st i) as [bs|] eqn:Hi; [|discriminate M].
      inversion W as [|? ? Wi _]; subst. cbn [arg_within] in Wi. cbn [map_res arg_value bind] in Qv.
      assert (a = at_hand env i) as ->. { destruct (map_res (arg_value env w) args); cbn [bind] in Qv; try discriminate Qv. now injection Qv. }
      destruct (C bs (So1 i bs Hi) (S2 i bs Wi Hi)) as (m' & -> & H' & O). cbn [bind]. specialize (Ty bs (So1 i bs Hi)). destruct (g bs) as [bs' r]. cbn [fst snd] in *.
      apply some_inj in M. subst st'. destruct (inv_hand w st i bs' m' V Wi Ty H' O) as [V' U]. eexists. split; [reflexivity|]. split; [|exact U].
      now apply inv_var.
    + destruct Rd as (a & l & -> & ->). destruct args as [|[| | |i] args]; try discriminate M. destruct (vs_bits st i) as [[w0 w1]|] eqn:Hi; [|discriminate M].
      inversion W as [|? ? Wi _]; subst. cbn [arg_within] in Wi. cbn [map_res arg_value bind] in Qv.
      assert (a = at_bits env i) as ->. { destruct (map_res (arg_value env w) args); cbn [bind] in Qv; try discriminate Qv. now injection Qv. }
      destruct (C w0 w1 (So2 i w0 w1 Hi) (proj1 Pl i Wi) (S3 i w0 w1 Wi Hi)) as (m' & -> & H' & O). cbn [bind]. specialize (Ty w0 w1 (So2 i w0 w1 Hi)).
      destruct (g w0 w1) as [[w0' w1'] r]. cbn [fst snd] in *.
      apply some_inj in M. subst st'. destruct (inv_bits w st i w0' w1' m' V Wi Ty H' O) as [V' U]. eexists. split; [reflexivity|]. split; [|exact U].
      now apply inv_var.
  - destruct (arg_of st a) as [v|] eqn:Qa; [|discriminate M]. destruct (arg_ok w st a v S1 Qa) as (v' & -> & Lv). cbn [bind].
    destruct v; try discriminate M. cbn [like] in Lv. subst v'. destruct (hand_ints bs) eqn:Vb; [|discriminate M]. apply some_inj in M. subst st'. cbn [as_hand bind].
    destruct (store_hand_ok (v_mem w) (at_hand env i) bs) as (m' & -> & H' & O).
    { apply hand_ints_valid in Vb. apply Vb. } { exact (proj1 (proj2 Pl) (HandObject i) W). }
    cbn [bind]. destruct (inv_hand w st i bs m' V W Vb H' O) as [V' U]. eexists. split; [reflexivity|]. split; [exact V'|exact U].
  - destruct (vs_hand st i) as [bs|] eqn:Hi; [|discriminate M]. apply some_inj in M. subst st'. pose proof (So1 i bs Hi) as Vb. apply hand_ints_valid in Vb.
    rewrite (load_hand_ok (v_mem w) (at_hand env i) bs (proj1 Vb) (S2 i bs W Hi)). cbn [bind hand_bytes]. eexists. split; [reflexivity|]. split; [|apply untouched_refl]. now apply inv_var.
  - destruct (arg_of st a) as [v|] eqn:Qa; [|discriminate M]. destruct (arg_ok w st a v S1 Qa) as (v' & -> & Lv). cbn [bind].
    destruct v; try discriminate M. cbn [like] in Lv. subst v'. destruct (words_ints w0 w1) eqn:Vb; [|discriminate M]. apply some_inj in M. subst st'. cbn [as_bits bind].
    destruct (store_bits_ok A E (v_mem w) (at_bits env i) (Bitboard w0 w1) (proj1 Pl i W)) as (m' & -> & H' & O). { exact (proj1 (proj2 Pl) (BitsObject i) W). }
    cbn [bind]. destruct (inv_bits w st i w0 w1 m' V W Vb H' O) as [V' U]. eexists. split; [reflexivity|]. split; [exact V'|exact U].
  - destruct (vs_bits st i) as [[w0 w1]|] eqn:Hi; [|discriminate M]. apply some_inj in M. subst st'. pose proof (So2 i w0 w1 Hi) as Vb. apply words_iff in Vb.
    rewrite (load_bits_ok A E (v_mem w) (at_bits env i) (Bitboard w0 w1) (proj1 Pl i W) Vb (S3 i w0 w1 W Hi)). cbn [bind]. eexists. split; [reflexivity|]. split; [|apply untouched_refl]. now apply inv_var.
Qed.
Lemma run_ok os : forall w st st', inv w st -> Forall (op_within n k) os -> v_meanings st os = Some st' ->
  exists w', v_run P A E env os w = Ret w' /\ inv w' st' /\ untouched env n k (v_mem w) (v_mem w').
Proof.
  unfold v_run. induction os as [|o os IH]; intros w st st' V W M; cbn [v_meanings for_each] in *.
  - apply some_inj in M. subst. exists w. split; [reflexivity|]. split; [exact V|apply untouched_refl].
  - destruct (v_meaning st o) as [st1|] eqn:Mo; [|discriminate M]. inversion W as [|? ? Wo Ws]; subst.
    destruct (step_ok w st o st1 V Wo Mo) as (w1 & -> & V1 & U1). cbn [bind]. destruct (IH w1 st1 st' V1 Ws M) as (w' & -> & V' & U').
    exists w'. split; [reflexivity|]. split; [exact V'|exact (untouched_trans _ _ _ U1 U')].
Qed.
End Steps.
(** C62: a C program on hands and bitboards, in variables and in memory, that uses nothing before it is set and keeps to the contracts
    runs without a panic or undefined behaviour, computes what the arithmetic says, and changes no memory but its own objects. *)
Lemma c62_programs_pf : forall P A E env n k os w st, (forall x, v_var w x = None) -> v_placed A env n k (v_mem w) ->
  Forall (op_within n k) os -> v_meanings v_start os = Some st ->
  exists w', v_run P A E env os w = Ret w' /\ v_shows E env n k w' st /\
    forall x, (forall o, v_known n k o -> ~ in_object env o x) -> v_mem w' x = v_mem w x.
Proof.
  intros P A E env n k os w st H Pl W M.
  destruct (run_ok P A E env n k os w v_start st) as (w' & Q & (S & _ & _) & [U _]); auto.
  - split; [|split; [split; discriminate|exact Pl]]. split; [exact H|]. split; discriminate.
  - exists w'. auto.
Qed.

Definition all_fns : list c_fn := [F_Bitboard_empty; F_Bitboard_single; F_Bitboard_count; F_Bitboard_is_empty; F_Bitboard_contains; F_Bitboard_flip;
  F_Bitboard_pop; F_Bitboard_bitand; F_Bitboard_bitand_assign; F_Bitboard_bitor; F_Bitboard_bitor_assign; F_Bitboard_bitxor; F_Bitboard_bitxor_assign; F_Bitboard_not;
  F_Color_flip; F_GameResolution_from_u8_unchecked; F_Hand_new; F_Hand_add; F_Hand_remove; F_Hand_count; F_Hand_is_hand_piece; F_IllegalMoveKind_from_u8_unchecked;
  F_CompactMove_normal; F_CompactMove_drop; F_CompactMove_from; F_CompactMove_to; F_CompactMove_is_promoting; F_CompactMove_is_drop;
  F_Piece_new; F_Piece_piece_kind; F_Piece_color; F_Piece_promote; F_Piece_unpromote;
  F_PieceKind_from_u8; F_PieceKind_from_u8_unchecked; F_PieceKind_promote; F_PieceKind_unpromote;
  F_Square_new; F_Square_new_relative; F_Square_file; F_Square_rank; F_Square_index; F_Square_relative_rank; F_Square_relative_file;
  F_Square_flip; F_Square_from_u8; F_Square_from_u8_unchecked; F_Square_shift].
(** C62: these are all the exported functions, except those that take or return a pointer to a position or a game. *)
Lemma c62_covers_pf : forall e, In e rust_exports -> (exists f, fn_name f = re_name e) \/ about_positions e = true.
Proof.
  intros e I. unfold rust_exports in I.
  repeat (destruct I as [<-|I]; [first [right; vm_compute; reflexivity|left; match goal with |- exists f, fn_name f = re_name (RExport ?n _ _) =>
    let o := eval vm_compute in (find (fun f => String.eqb (fn_name f) n) all_fns) in match o with Some ?g => exists g; reflexivity end end]|]).
  destruct I.
Qed.
