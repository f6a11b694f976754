(** Lemmas on keys of values. *)
From Verif Require Export LOrd LShift SpecOrder.

Notation lex := (list_cmp N.compare).
Lemma lex_before u : forall v, lex u v = Lt <-> before u v.
Proof.
  induction u as [|x u IH]; intros [|y v]; cbn [list_cmp].
  - split; [discriminate|]. intros (p & [(y & v' & _ & H)|(x & u' & y & v' & H & _)]); destruct p; discriminate H.
  - split; auto. intros _. exists []. left. exists y, v. auto.
  - split; [discriminate|]. intros (p & [(y & v' & _ & H)|(z & u' & y & v' & _ & H & _)]); destruct p; discriminate H.
  - unfold cmp_then. destruct (x ?= y) eqn:C.
    + apply N.compare_eq_iff in C. subst y. rewrite IH. split.
      * intros (p & [(y & v' & -> & ->)|(a & u' & b & v' & -> & -> & L)]); exists (x :: p); [left; cbn; eauto|right; exists a, u', b, v'; auto].
      * intros (p & [(y & v' & <- & H)|(a & u' & b & v' & H1 & H2 & L)]).
        -- cbn in H. injection H as ->. exists u. left. eauto.
        -- destruct p as [|z p]; cbn in H1, H2.
           ++ injection H1 as -> ->. injection H2 as -> ->. lia.
           ++ injection H1 as -> ->. injection H2 as ->. exists p. right. exists a, u', b, v'. auto.
    + split; auto. intros _. exists []. right. exists x, u, y, v. apply N.compare_lt_iff in C. auto.
    + split; [discriminate|]. apply N.compare_gt_iff in C. intros (p & [(z & v' & <- & H)|(a & u' & b & v' & H1 & H2 & L)]).
      * cbn in H. injection H as -> _. lia.
      * destruct p as [|z p]; cbn in H1, H2; injection H1 as -> _; injection H2 as -> _; lia.
Qed.
Lemma lex_opp u v : lex v u = CompOpp (lex u v).
Proof. apply (g_opp _ (good_list _ good_N)). Qed.

(** [key] codes [cmp], whatever follows *)
Definition codes {A} (V : A -> Prop) (cmp : A -> A -> comparison) (key : A -> list N) : Prop :=
  forall a b, V a -> V b -> forall u v, lex (key a ++ u) (key b ++ v) = cmp_then (cmp a b) (lex u v).
Lemma codes_ordered {A} (V : A -> Prop) cmp key : codes V cmp key -> ordered_by V cmp key.
Proof.
  intros C a b Va Vb. specialize (C a b Va Vb [] []). rewrite !app_nil_r in C.
  assert (E : cmp a b = lex (key a) (key b)) by (rewrite C; destruct (cmp a b); reflexivity). rewrite E.
  split; [apply lex_before|]. split; [|apply ints_eq]. rewrite <- lex_before, lex_opp. destruct (lex (key b) (key a)); cbn; split; (discriminate || auto).
Qed.
Lemma then_assoc a b c : cmp_then (cmp_then a b) c = cmp_then a (cmp_then b c).
Proof. destruct a; reflexivity. Qed.
Lemma codes_then {A} (V : A -> Prop) c1 c2 k1 k2 : codes V c1 k1 -> codes V c2 k2 -> codes V (fun a b => cmp_then (c1 a b) (c2 a b)) (fun a => k1 a ++ k2 a).
Proof. intros H1 H2 a b Va Vb u v. rewrite <- !app_assoc, H1, H2, then_assoc; auto. Qed.
Lemma codes_N {A} (V : A -> Prop) (f : A -> N) : codes V (fun a b => f a ?= f b) (fun a => [f a]).
Proof. intros a b _ _ u v. reflexivity. Qed.
Lemma codes_on {A B} (V : A -> Prop) (W : B -> Prop) (f : A -> B) cmp key : (forall a, V a -> W (f a)) -> codes W cmp key -> codes V (fun a b => cmp (f a) (f b)) (fun a => key (f a)).
Proof. intros H C a b Va Vb. apply C; auto. Qed.
Lemma codes_ext {A} (V : A -> Prop) c1 c2 k1 k2 : (forall a b, V a -> V b -> c2 a b = c1 a b) -> (forall a, V a -> k2 a = k1 a) -> codes V c1 k1 -> codes V c2 k2.
Proof. intros H1 H2 C a b Va Vb u v. rewrite H1, !H2 by auto. apply C; auto. Qed.
(** lists of the same length *)
Lemma codes_list {A} (V : A -> Prop) cmp key : codes V cmp key -> forall l l', length l = length l' -> Forall V l -> Forall V l' ->
  forall u v, lex (flat_map key l ++ u) (flat_map key l' ++ v) = cmp_then (list_cmp cmp l l') (lex u v).
Proof.
  intros C. induction l as [|x l IH]; intros [|y l'] L F F' u v; try discriminate; [reflexivity|]. inversion_clear F. inversion_clear F'.
  cbn [flat_map list_cmp]. rewrite <- !app_assoc, C, IH, then_assoc; auto.
Qed.
Lemma codes_moves {A} (V : A -> Prop) cmp key : codes V cmp key -> forall l l', Forall V l -> Forall V l' ->
  forall u v, lex (flat_map (fun m => 1 :: key m) l ++ 0 :: u) (flat_map (fun m => 1 :: key m) l' ++ 0 :: v) = cmp_then (list_cmp cmp l l') (lex u v).
Proof.
  intros C. induction l as [|x l IH]; intros [|y l'] F F' u v; try reflexivity. inversion_clear F. inversion_clear F'.
  cbn [flat_map list_cmp app]. change (1 ?= 1) with Eq. cbn [cmp_then]. rewrite <- !app_assoc, C, IH, then_assoc; auto.
Qed.

(** ** Squares and pieces *)
Lemma codes_square : codes valid_square sq_cmp k_square.
Proof.
  intros a b Va Vb u v. unfold k_square, sq_cmp, valid_square in *. cbn [app list_cmp].
  assert (Ea : sq_repr a = 9 * (file_of a - 1) + rank_of a /\ 1 <= rank_of a <= 9 /\ 1 <= file_of a).
  { unfold file_of, rank_of. pose proof (N.div_mod (sq_repr a - 1) 9). pose proof (N.mod_lt (sq_repr a - 1) 9). lia. }
  assert (Eb : sq_repr b = 9 * (file_of b - 1) + rank_of b /\ 1 <= rank_of b <= 9 /\ 1 <= file_of b).
  { unfold file_of, rank_of. pose proof (N.div_mod (sq_repr b - 1) 9). pose proof (N.mod_lt (sq_repr b - 1) 9). lia. }
  destruct (N.compare_spec (file_of a) (file_of b)) as [E|E|E]; [destruct (N.compare_spec (rank_of a) (rank_of b)) as [F|F|F]|..]; cbn [cmp_then].
  - replace (sq_repr a) with (sq_repr b) by lia. now rewrite N.compare_refl.
  - now replace (sq_repr a ?= sq_repr b) with Lt by (symmetry; apply N.compare_lt_iff; lia).
  - now replace (sq_repr a ?= sq_repr b) with Gt by (symmetry; apply N.compare_gt_iff; lia).
  - now replace (sq_repr a ?= sq_repr b) with Lt by (symmetry; apply N.compare_lt_iff; lia).
  - now replace (sq_repr a ?= sq_repr b) with Gt by (symmetry; apply N.compare_gt_iff; lia).
Qed.
Lemma codes_parts : codes any (fun x y : piece_kind * color => piece_cmp (piece_of (fst x) (snd x)) (piece_of (fst y) (snd y))) (fun x => k_color (snd x) ++ k_kind (fst x)).
Proof. intros [k c] [l d] _ _ u v. destruct c, d, k, l; reflexivity. Qed.
Lemma codes_piece : codes valid_piece piece_cmp k_piece.
Proof.
  intros a b Va Vb u v. pose proof (codes_parts (kind_of a, color_of a) (kind_of b, color_of b) I I u v) as H. cbn [fst snd] in H.
  rewrite (piece_of_parts a Va), (piece_of_parts b Vb) in H. exact H.
Qed.
Lemma codes_bool : codes any bool_cmp (fun b => [if b then 1 else 0]).
Proof. intros [] [] _ _ u v; reflexivity. Qed.
Lemma codes_move : codes valid_move move_cmp k_move.
Proof.
  intros a b Va Vb u v. destruct a as [f t p|p t], b as [f' t' p'|p' t']; try reflexivity; destruct Va as [V1 V2], Vb as [V3 V4]; cbn [k_move move_cmp app list_cmp].
  - change (0 ?= 0) with Eq. cbn [cmp_then]. rewrite <- !app_assoc, codes_square, codes_square by auto. cbn [app]. pose proof (codes_bool p p' I I u v) as H. cbn [app] in H.
    rewrite H, !then_assoc. reflexivity.
  - change (1 ?= 1) with Eq. cbn [cmp_then]. rewrite <- !app_assoc, codes_piece, codes_square by auto. cbn [app list_cmp]. change (0 ?= 0) with Eq. cbn [cmp_then].
    rewrite !then_assoc. reflexivity.
Qed.
Lemma codes_compact : codes valid_move (fun a b => packed a ?= packed b) k_compact.
Proof.
  assert (B : forall a, valid_move a -> exists h l, k_compact a = [h; l] /\ packed a = 256 * h + l /\ l < 256).
  { intros [f t p|p t] [V1 V2]; unfold valid_square, valid_piece in *; cbn [k_compact packed]; do 2 eexists; (split; [reflexivity|]); [destruct p; lia|lia]. }
  intros a b Va Vb u v. destruct (B a Va) as (h & l & -> & -> & L), (B b Vb) as (h' & l' & -> & -> & L'). cbn [app list_cmp].
  destruct (N.compare_spec h h') as [E|E|E]; [destruct (N.compare_spec l l') as [F|F|F]|..]; cbn [cmp_then].
  - subst. now rewrite N.compare_refl.
  - now replace (256 * h + l ?= 256 * h' + l') with Lt by (symmetry; apply N.compare_lt_iff; lia).
  - now replace (256 * h + l ?= 256 * h' + l') with Gt by (symmetry; apply N.compare_gt_iff; lia).
  - now replace (256 * h + l ?= 256 * h' + l') with Lt by (symmetry; apply N.compare_lt_iff; lia).
  - now replace (256 * h + l ?= 256 * h' + l') with Gt by (symmetry; apply N.compare_gt_iff; lia).
Qed.
(** options: a number that is 0 for [None] *)
Lemma codes_option {A} (V : A -> Prop) (num : A -> N) key n : (0 < n)%nat -> (forall a, V a -> num a <> 0) ->
  (forall a, V a -> exists x l, key a = x :: l /\ x <> 0) -> codes V (fun a b => num a ?= num b) key ->
  codes (valid_o V) (fun a b => (match a with Some x => num x | None => 0 end) ?= (match b with Some x => num x | None => 0 end)) (k_option n key).
Proof.
  intros Hn HN HK C [a|] [b|] Va Vb u v; cbn [k_option valid_o] in *.
  - now apply C.
  - destruct (HK a Va) as (x & l & -> & NZ). destruct n as [|n]; [lia|]. cbn [repeat app list_cmp].
    replace (x ?= 0) with Gt by (symmetry; apply N.compare_gt_iff; lia). specialize (HN a Va).
    now replace (num a ?= 0) with Gt by (symmetry; apply N.compare_gt_iff; lia).
  - destruct (HK b Vb) as (x & l & -> & NZ). destruct n as [|n]; [lia|]. cbn [repeat app list_cmp].
    replace (0 ?= x) with Lt by (symmetry; apply N.compare_lt_iff; lia). specialize (HN b Vb).
    now replace (0 ?= num b) with Lt by (symmetry; apply N.compare_lt_iff; lia).
  - clear. induction n as [|n IH]; [reflexivity|]. cbn [repeat app list_cmp]. exact IH.
Qed.

(** ** Hands *)
Lemma lex_app l : forall l' u v, length l = length l' -> lex (l ++ u) (l' ++ v) = cmp_then (lex l l') (lex u v).
Proof.
  induction l as [|x l IH]; intros [|y l'] u v L; try discriminate; [reflexivity|]. cbn [app list_cmp]. rewrite IH, then_assoc; auto.
Qed.
Lemma hand_bytes_key h : valid_hand h -> hand_bytes h = k_hand h ++ [0].
Proof.
  destruct h as [l]. intros (L & _ & Z). cbn [hand_bytes] in *. destruct l as [|b0 [|b1 [|b2 [|b3 [|b4 [|b5 [|b6 [|b7 [|b8 l]]]]]]]]]; try discriminate.
  cbn in Z. subst b7. reflexivity.
Qed.
Lemma codes_hand : codes valid_hand hand_cmp k_hand.
Proof.
  intros a b Va Vb u v. unfold hand_cmp. rewrite (hand_bytes_key a Va), (hand_bytes_key b Vb).
  assert (L : length (k_hand a) = length (k_hand b)) by (unfold k_hand; now rewrite !map_length).
  rewrite !lex_app by auto. cbn [list_cmp]. change (0 ?= 0) with Eq. cbn [cmp_then]. destruct (lex (k_hand a) (k_hand b)); reflexivity.
Qed.

(** ** Bitboards *)
Definition bit_key (x : N) (l : list nat) : list N := map (fun n => if N.testbit x (N.of_nat n) then 1 else 0) l.
Lemma testbit_low x n i : (i < n)%nat -> N.testbit x (N.of_nat i) = N.testbit (x mod 2 ^ N.of_nat n) (N.of_nat i).
Proof. intros H. rewrite N.mod_pow2_bits_low by lia. reflexivity. Qed.
Lemma codes_bits n : codes (fun x => x < 2 ^ N.of_nat n) N.compare (fun x => bit_key x (rev (seq 0 n))).
Proof.
  induction n as [|n IH]; intros a b Va Vb u v.
  - cbn in Va, Vb. replace a with b by lia. cbn [seq rev bit_key map app]. now rewrite N.compare_refl.
  - rewrite seq_S, rev_app_distr. cbn [rev app plus bit_key map list_cmp]. fold (bit_key a (rev (seq 0 n))). fold (bit_key b (rev (seq 0 n))).
    assert (K : forall x, bit_key x (rev (seq 0 n)) = bit_key (x mod 2 ^ N.of_nat n) (rev (seq 0 n))).
    { intros x. unfold bit_key. apply map_ext_in. intros i Hi. apply in_rev, in_seq in Hi. rewrite (testbit_low x n) by lia. reflexivity. }
    rewrite (K a), (K b). rewrite IH by (apply N.mod_lt; apply N.pow_nonzero; discriminate).
    assert (D : forall x, x < 2 ^ N.of_nat (S n) -> x = (if N.testbit x (N.of_nat n) then 2 ^ N.of_nat n else 0) + x mod 2 ^ N.of_nat n /\ x mod 2 ^ N.of_nat n < 2 ^ N.of_nat n).
    { intros x Hx. assert (NZ : 2 ^ N.of_nat n <> 0) by (apply N.pow_nonzero; discriminate). split; [|now apply N.mod_lt].
      rewrite (N.div_mod x (2 ^ N.of_nat n) NZ) at 1. f_equal. rewrite N.testbit_eqb. replace (N.of_nat (S n)) with (N.succ (N.of_nat n)) in Hx by lia. rewrite N.pow_succ_r' in Hx.
      assert (Q : x / 2 ^ N.of_nat n < 2) by (apply N.div_lt_upper_bound; lia). set (q := x / 2 ^ N.of_nat n) in *. clearbody q.
      assert (q = 0 \/ q = 1) as [-> | ->] by lia; [change (0 mod 2 =? 1) with false|change (1 mod 2 =? 1) with true]; cbv iota; lia. }
    destruct (D a Va) as [Ea La], (D b Vb) as [Eb Lb]. set (ra := a mod 2 ^ N.of_nat n) in *. set (rb := b mod 2 ^ N.of_nat n) in *. clearbody ra rb.
    destruct (N.testbit a (N.of_nat n)), (N.testbit b (N.of_nat n)); cbn [N.compare Pos.compare Pos.compare_cont cmp_then]; rewrite Ea, Eb.
    + f_equal. destruct (N.compare_spec ra rb); symmetry; [apply N.compare_eq_iff|apply N.compare_lt_iff|apply N.compare_gt_iff]; lia.
    + now replace (2 ^ N.of_nat n + ra ?= 0 + rb) with Gt by (symmetry; apply N.compare_gt_iff; lia).
    + now replace (0 + ra ?= 2 ^ N.of_nat n + rb) with Lt by (symmetry; apply N.compare_lt_iff; lia).
    + reflexivity.
Qed.
Lemma bitboard_key P b : k_bitboard P b = bit_key (bb0 b) (rev (seq 0 63)) ++ bit_key (bb1 b) (rev (seq 0 18)).
Proof.
  unfold k_bitboard. rewrite map_app. f_equal.
  - rewrite <- (seq_shift 63 0), <- map_rev, map_map. unfold bit_key. apply map_ext_in. intros i Hi. apply in_rev, in_seq in Hi.
    rewrite bb_contains_ok by (unfold valid_square; cbn [sq_repr]; lia). unfold member. cbn [sq_repr]. replace (N.of_nat (S i) <=? 63) with true by lia.
    replace (N.of_nat (S i) - 1) with (N.of_nat i) by lia. reflexivity.
  - assert (E : seq 64 18 = map (fun i => 64 + i)%nat (seq 0 18)) by reflexivity. rewrite E, <- map_rev, map_map. unfold bit_key. apply map_ext_in. intros i Hi. apply in_rev, in_seq in Hi.
    rewrite bb_contains_ok by (unfold valid_square; cbn [sq_repr]; lia). unfold member. cbn [sq_repr]. replace (N.of_nat (64 + i) <=? 63) with false by lia.
    replace (N.of_nat (64 + i) - 64) with (N.of_nat i) by lia. reflexivity.
Qed.
Lemma codes_bitboard P : codes valid_bb bb_cmp (k_bitboard P).
Proof.
  eapply codes_ext; [| |apply (codes_then valid_bb (fun a b => bb0 a ?= bb0 b) (fun a b => bb1 a ?= bb1 b)
     (fun b => bit_key (bb0 b) (rev (seq 0 63))) (fun b => bit_key (bb1 b) (rev (seq 0 18))))].
  - intros a b _ _. unfold bb_cmp. cbn [list_cmp]. destruct (bb0 a ?= bb0 b), (bb1 a ?= bb1 b); reflexivity.
  - intros a _. apply bitboard_key.
  - refine (codes_on valid_bb (fun x => x < 2 ^ N.of_nat 63) bb0 N.compare (fun x => bit_key x (rev (seq 0 63))) _ (codes_bits 63)). now intros b [H _].
  - refine (codes_on valid_bb (fun x => x < 2 ^ N.of_nat 18) bb1 N.compare (fun x => bit_key x (rev (seq 0 18))) _ (codes_bits 18)). now intros b [_ H].
Qed.

(** ** Positions *)
Definition cell_key (x : option (piece_kind * color)) : list N := k_option 2 (fun x => k_color (snd x) ++ k_kind (fst x)) x.
Lemma cell_num o : cell_ok o -> match option_map parts_of (op_into o) with Some x => piece_repr (the_piece x) | None => 0 end = op_repr o.
Proof.
  destruct o as [a]. unfold cell_ok, op_into, nonzero_new. cbn [op_repr]. destruct (N.eqb_spec a 0) as [->|NZ]; [reflexivity|]. cbn [option_map valid_o].
  intros V. unfold the_piece, parts_of. cbn [fst snd]. now rewrite piece_of_parts.
Qed.
Lemma codes_cell : codes cell_ok op_cmp (fun o => cell_key (option_map parts_of (op_into o))).
Proof.
  assert (C : codes any (fun x y : piece_kind * color => piece_repr (the_piece x) ?= piece_repr (the_piece y)) (fun x => k_color (snd x) ++ k_kind (fst x))).
  { intros [k c] [l d] _ _ u v. destruct c, d, k, l; reflexivity. }
  pose proof (codes_option any (fun x => piece_repr (the_piece x)) (fun x => k_color (snd x) ++ k_kind (fst x)) 2 ltac:(lia) ltac:(intros [[] []] _; discriminate)
    ltac:(intros [k []] _; do 2 eexists; (split; [reflexivity|discriminate])) C) as H.
  intros a b Va Vb u v. unfold op_cmp. rewrite <- (cell_num a Va), <- (cell_num b Vb). apply H; destruct (option_map _ _); exact I.
Qed.
Lemma board_squares s : wf s -> pp_board s = map (fun sq => nth (snum sq) (pp_board s) (OptionPiece 0)) squares.
Proof.
  intros W. pose proof (wf_board_len s W) as L. apply (nth_ext _ _ (OptionPiece 0) (OptionPiece 0)); [now rewrite L, map_length|].
  intros i Hi. rewrite L in Hi. set (f := fun sq => nth (snum sq) (pp_board s) (OptionPiece 0)). symmetry.
  rewrite (nth_indep (map f squares) (OptionPiece 0) (f (Square (N.of_nat 0)))) by (unfold squares; rewrite !map_length, seq_length; exact Hi).
  rewrite map_nth. unfold squares. rewrite (map_nth (fun n => Square (N.of_nat n))), seq_nth by exact Hi. unfold f. replace (snum (Square (N.of_nat (1 + i)))) with i; [reflexivity|]. cbn [sq_repr]. lia.
Qed.
Lemma hands_two s : wf s -> pp_hands s = [hand_at s Black; hand_at s White].
Proof. intros W. pose proof (wf_hands_len s W) as L. unfold hand_at. destruct (pp_hands s) as [|a [|b [|c l]]]; try discriminate. reflexivity. Qed.
Lemma last_num s : wf s -> match last_at s with Some m => packed m | None => 0 end = ocm_repr (pp_last_move s).
Proof.
  intros W. pose proof (wf_last s W) as V. unfold last_at. destruct (pp_last_move s) as [n]. unfold ocm_into, nonzero_new in *. cbn [ocm_repr] in *.
  destruct (N.eqb_spec n 0) as [Z|NZ]; [now rewrite Z|]. cbn [option_map valid_o] in *. apply valid_compact_unpack in V as [_ V]. now injection V as <-.
Qed.
Lemma last_valid s : wf s -> valid_o valid_move (last_at s).
Proof.
  intros W. pose proof (wf_last s W) as V. unfold last_at. destruct (ocm_into _); [|exact I]. now apply valid_compact_unpack in V.
Qed.
Lemma codes_last : codes (valid_o valid_move) (fun a b => (match a with Some m => packed m | None => 0 end) ?= (match b with Some m => packed m | None => 0 end)) (k_option 2 k_compact).
Proof.
  apply codes_option; [lia|apply packed_nonzero| |apply codes_compact].
  intros [f t p|p t] [V1 V2]; unfold valid_square, valid_piece in *; cbn [k_compact]; do 2 eexists; (split; [reflexivity|]); [destruct p; lia|lia].
Qed.
Lemma codes_color : codes any color_cmp k_color.
Proof. intros [] [] _ _ u v; reflexivity. Qed.
Lemma codes_pp : codes wf pp_cmp (fun s => k_apos (abs s)).
Proof.
  intros s t Ws Wt u v. unfold k_apos. cbn [abs a_side a_ply a_hand a_board a_last]. unfold pp_cmp.
  rewrite <- !app_assoc, codes_color by exact I. rewrite !then_assoc. f_equal. cbn [app list_cmp]. f_equal.
  change (map (fun k => in_hand (hand_at s Black) k) hand_kinds) with (k_hand (hand_at s Black)).
  change (map (fun k => in_hand (hand_at s White) k) hand_kinds) with (k_hand (hand_at s White)).
  change (map (fun k => in_hand (hand_at t Black) k) hand_kinds) with (k_hand (hand_at t Black)).
  change (map (fun k => in_hand (hand_at t White) k) hand_kinds) with (k_hand (hand_at t White)).
  rewrite codes_hand, codes_hand by (apply hand_at_valid; auto). rewrite (hands_two s Ws), (hands_two t Wt). cbn [list_cmp].
  match goal with |- cmp_then ?x (cmp_then ?y ?z) = cmp_then (cmp_then ?x (cmp_then ?y Eq)) ?w =>
    transitivity (cmp_then (cmp_then x (cmp_then y Eq)) z); [destruct x, y; reflexivity|f_equal] end.
  assert (B : forall s, wf s -> flat_map (fun sq => k_option 2 (fun x => k_color (snd x) ++ k_kind (fst x)) (option_map parts_of (cell s sq))) squares =
    flat_map (fun o => cell_key (option_map parts_of (op_into o))) (pp_board s)).
  { intros x W. rewrite (board_squares x W). rewrite !flat_map_concat_map, map_map. f_equal. }
  rewrite (B s Ws), (B t Wt). clear B.
  rewrite (codes_list cell_ok op_cmp _ codes_cell) by (try apply wf_board; auto; rewrite !wf_board_len; auto). f_equal.
  rewrite codes_last by now apply last_valid. rewrite !last_num by auto. reflexivity.
Qed.
Lemma k_apos_aeq a b : aeq a b -> k_apos a = k_apos b.
Proof.
  intros (A & B & C & D & E & _). unfold k_apos. rewrite A, B, E. f_equal. f_equal. f_equal; [apply map_ext_in; auto|]. f_equal; [apply map_ext_in; auto|]. f_equal.
  rewrite !flat_map_concat_map. f_equal. apply map_ext_in. intros sq I. rewrite C; auto. rewrite squares_eq in I. now apply valid_square_In.
Qed.
Lemma codes_pos : codes (fun p => wf (pos_initial p) /\ wf (pos_inner p) /\ Forall valid_move (pos_moves p)) pos_cmp
  (fun p => k_apos (abs (pos_initial p)) ++ k_apos (abs (pos_inner p)) ++ k_moves (pos_moves p)).
Proof.
  intros p q (W1 & W2 & V) (W1' & W2' & V') u v. unfold pos_cmp, k_moves. rewrite <- !app_assoc, codes_pp, codes_pp by auto. cbn [app].
  rewrite (codes_moves valid_move move_cmp k_move codes_move) by auto. now rewrite !then_assoc.
Qed.

(** ** Byte-swapped bitboards *)
Lemma bit_key_filter x p : forall l, (forall n, In n l -> p n = false -> N.testbit x (N.of_nat n) = false) ->
  bit_key x l = map (fun n => if p n then (if N.testbit x (N.of_nat n) then 1 else 0) else 0) l.
Proof. intros l H. apply map_ext_in. intros n I. destruct (p n) eqn:E; auto. now rewrite H. Qed.
Lemma lex_filter (f g : nat -> N) (p : nat -> bool) : forall l u v,
  lex (map (fun n => if p n then f n else 0) l ++ u) (map (fun n => if p n then g n else 0) l ++ v) = lex (map f (filter p l) ++ u) (map g (filter p l) ++ v).
Proof. induction l as [|n l IH]; intros u v; [reflexivity|]. cbn [map filter app list_cmp]. destruct (p n); cbn [map app list_cmp]; now rewrite IH. Qed.
Definition swap_index (n : nat) : nat := (8 * (7 - n / 8) + n mod 8)%nat.
Lemma bit_key_swap x l : (forall n, In n l -> (n < 64)%nat) -> bit_key (swap_bytes64 x) l = bit_key x (map swap_index l).
Proof.
  intros H. unfold bit_key. rewrite map_map. apply map_ext_in. intros n I. specialize (H n I). rewrite swap_bytes_bits.
  replace (N.of_nat n <? 64) with true by lia. cbn [andb]. do 2 f_equal. unfold swap_index.
  rewrite Nat2N.inj_add, Nat2N.inj_mul, Nat2N.inj_sub, Nat2N.inj_div, Nat2N.inj_mod. reflexivity.
Qed.
Definition half_order (w : nat) : list nat := filter (fun n => Nat.ltb n w) (map swap_index (rev (seq 0 64))).
Lemma codes_half w : codes (fun x => x < 2 ^ N.of_nat w) (fun a b => swap_bytes64 a ?= swap_bytes64 b) (fun x => bit_key x (half_order w)).
Proof.
  intros a b Va Vb u v. pose proof (codes_bits 64 (swap_bytes64 a) (swap_bytes64 b) (swap_bytes_u64 a) (swap_bytes_u64 b) u v) as H.
  rewrite <- H. clear H. rewrite !bit_key_swap by (intros n I; apply in_rev, in_seq in I; lia).
  rewrite (bit_key_filter a (fun n => Nat.ltb n w) (map _ _)), (bit_key_filter b (fun n => Nat.ltb n w) (map _ _)) by (intros n _ L; apply (bits_high _ (N.of_nat w)); auto; apply Nat.ltb_ge in L; lia).
  rewrite lex_filter. reflexivity.
Qed.
Lemma contains_low P b i : (i < 63)%nat -> match bb_contains P b (Square (N.of_nat (S i))) with Ret true => 1 | _ => 0 end = if N.testbit (bb0 b) (N.of_nat i) then 1 else 0.
Proof.
  intros Hi. rewrite bb_contains_ok by (unfold valid_square; cbn [sq_repr]; lia). unfold member. cbn [sq_repr]. replace (N.of_nat (S i) <=? 63) with true by lia.
  replace (N.of_nat (S i) - 1) with (N.of_nat i) by lia. reflexivity.
Qed.
Lemma contains_high P b i : (i < 18)%nat -> match bb_contains P b (Square (N.of_nat (64 + i))) with Ret true => 1 | _ => 0 end = if N.testbit (bb1 b) (N.of_nat i) then 1 else 0.
Proof.
  intros Hi. rewrite bb_contains_ok by (unfold valid_square; cbn [sq_repr]; lia). unfold member. cbn [sq_repr]. replace (N.of_nat (64 + i) <=? 63) with false by lia.
  replace (N.of_nat (64 + i) - 64) with (N.of_nat i) by lia. reflexivity.
Qed.
Lemma swapped_list : swapped_squares = map (Nat.add 64) (half_order 18) ++ map S (half_order 63).
Proof. vm_compute. reflexivity. Qed.
Lemma In_half w i : In i (half_order w) -> (i < w)%nat.
Proof. unfold half_order. intros I. apply filter_In in I as [_ I]. now apply Nat.ltb_lt. Qed.
Lemma swapped_key P b : k_swapped P b = bit_key (bb1 b) (half_order 18) ++ bit_key (bb0 b) (half_order 63).
Proof.
  unfold k_swapped. rewrite swapped_list, map_app, !map_map. unfold bit_key. f_equal; apply map_ext_in; intros i I; apply In_half in I.
  - now apply contains_high.
  - now apply contains_low.
Qed.
Lemma codes_swapped P : codes valid_bb (fun a b => bs_cmp (bb_swap_bytes a) (bb_swap_bytes b)) (k_swapped P).
Proof.
  eapply codes_ext; [| |apply (codes_then valid_bb (fun a b => swap_bytes64 (bb1 a) ?= swap_bytes64 (bb1 b)) (fun a b => swap_bytes64 (bb0 a) ?= swap_bytes64 (bb0 b))
     (fun b => bit_key (bb1 b) (half_order 18)) (fun b => bit_key (bb0 b) (half_order 63)))].
  - intros a b _ _. unfold bs_cmp, bb_swap_bytes. cbn [list_cmp bs0 bs1]. destruct (_ ?= _), (swap_bytes64 (bb0 a) ?= swap_bytes64 (bb0 b)); reflexivity.
  - intros a _. apply swapped_key.
  - refine (codes_on valid_bb (fun x => x < 2 ^ N.of_nat 18) bb1 (fun a b => swap_bytes64 a ?= swap_bytes64 b) (fun x => bit_key x (half_order 18)) _ (codes_half 18)). now intros b [_ H].
  - refine (codes_on valid_bb (fun x => x < 2 ^ N.of_nat 63) bb0 (fun a b => swap_bytes64 a ?= swap_bytes64 b) (fun x => bit_key x (half_order 63)) _ (codes_half 63)). now intros b [H _].
Qed.

(** ** Games *)
Lemma codes_resolution : codes any (fun a b => ogr_cmp (ogr_from a) (ogr_from b)) (k_option 1 k_resolution).
Proof. intros [[]|] [[]|] _ _ u v; reflexivity. Qed.
Lemma codes_game {A} (V : A -> Prop) cmp key : codes V cmp key ->
  codes (fun x : game_of A * option game_resolution => V (g_inner (fst x)) /\ game_resolution_of (fst x) = Ret (snd x))
        (fun x y => game_cmp cmp (fst x) (fst y)) (fun x => key (g_inner (fst x)) ++ k_option 1 k_resolution (snd x)).
Proof.
  intros C [[a o] r] [[b p] q] [Va Ra] [Vb Rb] u v. cbn [fst snd g_inner] in *. rewrite <- !app_assoc, C by auto. unfold game_cmp. cbn [g_inner g_resolution]. rewrite then_assoc. f_equal.
  assert (E : forall o r, game_resolution_of (GameOf a o) = Ret r -> o = ogr_from r).
  { intros [n] x. unfold game_resolution_of, ogr_into. cbn [g_resolution ogr_repr]. destruct (N.eqb_spec n 0) as [->|NZ]; [now intros [= <-]|].
    intros H. destruct (gr_from_u8_unchecked n) as [g| |] eqn:G; try discriminate H. injection H as <-. unfold gr_from_u8_unchecked in G.
    destruct n as [|[[[]|[]|]|[[]|[]|]|]]; try discriminate G; now injection G as <-. }
  rewrite (E o r Ra), (E p q Rb). now apply codes_resolution.
Qed.

(** ** Hashes *)
Definition reads {A T} (V : A -> Prop) (hash : A -> list T) (cmp : A -> A -> comparison) : Prop :=
  forall a b, V a -> V b -> (forall x y, hash a ++ x = hash b ++ y -> cmp a b = Eq /\ x = y) /\ (cmp a b = Eq -> hash a = hash b).
Lemma reads_tells {A T} (V : A -> Prop) (hash : A -> list T) cmp key : reads V hash cmp -> ordered_by V cmp key -> hash_tells V hash key.
Proof.
  intros R O a b Va Vb. destruct (R a b Va Vb) as [R1 R2], (O a b Va Vb) as (_ & _ & E). split.
  - intros x y H. apply E. now apply R1 in H.
  - intros H. apply R2. now apply E.
Qed.
Lemma reads_one {A} (V : A -> Prop) (num : A -> N) (tok : N -> htok) : (forall m n, tok m = tok n -> m = n) -> reads V (fun a => [tok (num a)]) (fun a b => num a ?= num b).
Proof.
  intros I a b _ _. rewrite N.compare_eq_iff. split; [|intros E; now rewrite E]. cbn [app]. intros x y H. injection H as H ->. split; [apply N.compare_eq_iff, I, H|reflexivity].
Qed.
Lemma reads_ints {A} (V : A -> Prop) w (f : A -> list N) : reads V (fun a => hash_ints w (f a)) (fun a b => lex (f a) (f b)).
Proof. intros a b _ _. split; [|intros E; apply ints_eq in E; now rewrite E]. cbn [hash_ints app]. intros x y H. injection H as _ E ->. split; [now apply ints_eq|reflexivity]. Qed.
Lemma reads_app {A T} (V : A -> Prop) (h1 h2 : A -> list T) c1 c2 : reads V h1 c1 -> reads V h2 c2 -> reads V (fun a => h1 a ++ h2 a) (fun a b => cmp_then (c1 a b) (c2 a b)).
Proof.
  intros H1 H2 a b Va Vb. destruct (H1 a b Va Vb) as [A1 B1], (H2 a b Va Vb) as [A2 B2]. split.
  - intros x y. rewrite <- !app_assoc. intros H. apply A1 in H as [E1 H]. apply A2 in H as [E2 H]. rewrite then_eq. auto.
  - intros E. apply then_eq in E as [E1 E2]. rewrite B1, B2; auto.
Qed.
Lemma reads_on {A B T} (V : A -> Prop) (W : B -> Prop) (f : A -> B) (h : B -> list T) cmp : (forall a, V a -> W (f a)) -> reads W h cmp -> reads V (fun a => h (f a)) (fun a b => cmp (f a) (f b)).
Proof. intros H R a b Va Vb. apply R; auto. Qed.
Lemma reads_list {A} (V : A -> Prop) (h : A -> list htok) cmp : reads V h cmp -> reads (Forall V) (hash_list h) (list_cmp cmp).
Proof.
  intros R. assert (Q : forall l l', Forall V l -> Forall V l' ->
    (forall x y, length l = length l' -> flat_map h l ++ x = flat_map h l' ++ y -> list_cmp cmp l l' = Eq /\ x = y) /\
    (list_cmp cmp l l' = Eq -> length l = length l' /\ flat_map h l = flat_map h l')).
  { induction l as [|a l IH]; intros [|b l'] F F'; cbn [length flat_map list_cmp app].
    - split; auto.
    - split; [intros x y [=]|discriminate].
    - split; [intros x y [=]|discriminate].
    - inversion_clear F. inversion_clear F'. destruct (R a b) as [A1 B1]; auto. destruct (IH l') as [A2 B2]; auto. split.
      + intros x y [= L]. rewrite <- !app_assoc. intros E. apply A1 in E as [E1 E]. apply A2 in E as [E2 E]; auto. rewrite then_eq. auto.
      + intros E. apply then_eq in E as [E1 E2]. apply B2 in E2 as [L E2]. rewrite B1, E2; auto. }
  intros l l' F F'. destruct (Q l l' F F') as [A1 B1]. unfold hash_list. split.
  - cbn [app]. intros x y [= L E]. apply A1; auto. apply Nat2N.inj. exact L.
  - intros E. apply B1 in E as [-> ->]. reflexivity.
Qed.
Lemma reads_color V : reads V color_hash color_cmp. Proof. apply (reads_one V color_as_u8 HDisc). congruence. Qed.
Lemma reads_square V : reads V sq_hash sq_cmp. Proof. apply (reads_one V sq_repr (HInt 8)). congruence. Qed.
Lemma reads_piece V : reads V piece_hash piece_cmp. Proof. apply (reads_one V piece_repr (HInt 8)). congruence. Qed.
Lemma reads_cell V : reads V op_hash op_cmp. Proof. apply (reads_one V op_repr (HInt 8)). congruence. Qed.
Lemma reads_last V : reads V ocm_hash ocm_cmp. Proof. apply (reads_one V ocm_repr (HInt 16)). congruence. Qed.
Lemma reads_res V : reads V ogr_hash ogr_cmp. Proof. apply (reads_one V ogr_repr (HInt 8)). congruence. Qed.
Lemma reads_hand V : reads V hand_hash hand_cmp. Proof. apply (reads_ints V 8 hand_bytes). Qed.
Lemma reads_move V : reads V move_hash move_cmp.
Proof.
  intros a b _ _. split; [|intros E; apply move_cmp_eq in E; now rewrite E]. intros x y H. rewrite move_cmp_eq. revert H.
  destruct a as [[f] [t] p|[q] [t]], b as [[f'] [t'] p'|[q'] [t']]; cbn; intros [=]; subst; auto.
  split; auto. destruct p, p'; (reflexivity || discriminate).
Qed.
Lemma reads_pp V : reads V pp_hash pp_cmp.
Proof.
  unfold pp_hash, pp_cmp.
  apply (reads_app V (fun s => color_hash (pp_side s)) (fun s => [HInt 16 (pp_ply s)] ++ hash_list hand_hash (pp_hands s) ++ hash_list op_hash (pp_board s) ++ ocm_hash (pp_last_move s))
    (fun a b => color_cmp (pp_side a) (pp_side b))); [apply (reads_on V any pp_side); [now intros|apply reads_color]|].
  apply (reads_app V (fun s => [HInt 16 (pp_ply s)]) (fun s => hash_list hand_hash (pp_hands s) ++ hash_list op_hash (pp_board s) ++ ocm_hash (pp_last_move s))
    (fun a b => pp_ply a ?= pp_ply b)); [apply (reads_one V pp_ply (HInt 16)); congruence|].
  apply (reads_app V (fun s => hash_list hand_hash (pp_hands s)) (fun s => hash_list op_hash (pp_board s) ++ ocm_hash (pp_last_move s))
    (fun a b => list_cmp hand_cmp (pp_hands a) (pp_hands b))); [apply (reads_on V (Forall any) pp_hands); [intros; apply Forall_forall; now intros|apply reads_list, reads_hand]|].
  apply (reads_app V (fun s => hash_list op_hash (pp_board s)) (fun s => ocm_hash (pp_last_move s))
    (fun a b => list_cmp op_cmp (pp_board a) (pp_board b))); [apply (reads_on V (Forall any) pp_board); [intros; apply Forall_forall; now intros|apply reads_list, reads_cell]|].
  apply (reads_on V any pp_last_move); [now intros|apply reads_last].
Qed.
Lemma reads_pos V : reads V pos_hash pos_cmp.
Proof.
  unfold pos_hash, pos_cmp.
  apply (reads_app V (fun p => pp_hash (pos_initial p)) (fun p => pp_hash (pos_inner p) ++ hash_list move_hash (pos_moves p)) (fun a b => pp_cmp (pos_initial a) (pos_initial b)));
    [apply (reads_on V any pos_initial); [now intros|apply reads_pp]|].
  apply (reads_app V (fun p => pp_hash (pos_inner p)) (fun p => hash_list move_hash (pos_moves p)) (fun a b => pp_cmp (pos_inner a) (pos_inner b)));
    [apply (reads_on V any pos_inner); [now intros|apply reads_pp]|].
  apply (reads_on V (Forall any) pos_moves); [intros; apply Forall_forall; now intros|apply reads_list, reads_move].
Qed.
Lemma reads_game {A} (V : game_of A -> Prop) (h : A -> list htok) cmp : reads any h cmp -> reads V (game_hash h) (game_cmp cmp).
Proof.
  intros R. unfold game_hash, game_cmp. apply (reads_app V (fun g => h (g_inner g)) (fun g => ogr_hash (g_resolution g)) (fun a b => cmp (g_inner a) (g_inner b)));
    [apply (reads_on V any (@g_inner A)); [now intros|exact R]|apply (reads_on V any (@g_resolution A)); [now intros|apply reads_res]].
Qed.
