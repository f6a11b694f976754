(** Proofs of the property theorems on the order of values and on what hashes distinguish (restated in Prop_Order.v). *)
From Verif Require Export TOrd TGame LOrder.
(*PROPHEAD
Property theorems C54-C55: the order of values, what hashes distinguish
From Verif Require Import LSample.
*)

Ltac finite_key := apply codes_ordered; intros [] [] _ _ u v; reflexivity.
(** C54: the order of colors, kinds, resolutions, illegal moves, statuses, squares, pieces, moves, compact moves, hands and
    bitboards. *)
Lemma c54_values_pf : forall P,
  ordered_by any color_cmp k_color /\ ordered_by any pk_cmp k_kind /\ ordered_by any gr_cmp k_resolution /\
  ordered_by any imk_cmp k_illegal /\ ordered_by any ps_cmp k_status /\
  ordered_by valid_square sq_cmp k_square /\ ordered_by valid_piece piece_cmp k_piece /\
  ordered_by valid_move move_cmp k_move /\ ordered_by valid_compact cm_cmp (fun c => k_compact (unpack c)) /\
  ordered_by valid_hand hand_cmp k_hand /\ ordered_by valid_bb bb_cmp (k_bitboard P).
Proof.
  intros P. do 5 (split; [finite_key|]). split; [apply codes_ordered, codes_square|]. split; [apply codes_ordered, codes_piece|].
  split; [apply codes_ordered, codes_move|]. split; [apply codes_ordered|split; [apply codes_ordered, codes_hand|apply codes_ordered, codes_bitboard]].
  intros c d Vc Vd u v. apply valid_compact_unpack in Vc as [Vc Ec], Vd as [Vd Ed]. rewrite codes_compact by auto. unfold cm_cmp. now rewrite Ec, Ed at 2.
Qed.

Lemma codes_tag {A} (num : A -> N) key n : (0 < n)%nat -> (forall a, num a <> 0) -> (forall a, exists x l, key a = x :: l /\ x <> 0) ->
  codes any (fun a b => num a ?= num b) key -> codes any (fun a b => (match a with Some x => num x | None => 0 end) ?= (match b with Some x => num x | None => 0 end)) (k_option n key).
Proof.
  intros Hn HN HK C a b _ _ u v. apply (codes_option any num key n); auto; destruct a, b; exact I.
Qed.
(** C54: options come before everything else when [None]; byte-swapped bitboards have their own order. *)
Lemma c54_options_pf : forall P,
  ordered_by (valid_o valid_square) (fun a b => os_cmp (os_from a) (os_from b)) (k_option 2 k_square) /\
  ordered_by (valid_o valid_piece) (fun a b => op_cmp (op_from a) (op_from b)) (k_option 2 k_piece) /\
  ordered_by (valid_o valid_compact) (fun a b => ocm_cmp (ocm_from a) (ocm_from b)) (k_option 2 (fun c => k_compact (unpack c))) /\
  ordered_by any (fun a b => ogr_cmp (ogr_from a) (ogr_from b)) (k_option 1 k_resolution) /\
  ordered_by any (fun a b => rui_cmp (rui_from_option a) (rui_from_option b)) (k_option 1 k_illegal) /\
  ordered_by valid_bb (fun a b => bs_cmp (bb_swap_bytes a) (bb_swap_bytes b)) (k_swapped P).
Proof.
  intros P. split; [|split; [|split; [|split; [|split]]]]; apply codes_ordered.
  - apply (codes_option valid_square sq_repr k_square 2); [lia| | |exact codes_square].
    + unfold valid_square. intros a. lia.
    + intros a V. unfold k_square. do 2 eexists. split; [reflexivity|]. unfold file_of. lia.
  - apply (codes_option valid_piece piece_repr k_piece 2); [lia| | |exact codes_piece].
    + unfold valid_piece. intros a. lia.
    + intros a V. unfold k_piece, k_color. cbn [app]. do 2 eexists. split; [reflexivity|]. destruct (color_of a); lia.
  - apply (codes_option valid_compact cm_repr (fun c => k_compact (unpack c)) 2); [lia| | |].
    + intros a V. apply valid_compact_unpack in V as [V E]. rewrite E. cbn [cm_repr]. now apply packed_nonzero.
    + intros a V. apply valid_compact_unpack in V as [V E]. destruct (unpack a) as [f t p|p t]; destruct V as [V1 V2]; unfold valid_square, valid_piece in *; cbn [k_compact]; do 2 eexists; (split; [reflexivity|]); [destruct p; lia|lia].
    + intros c d Vc Vd u v. apply valid_compact_unpack in Vc as [Vc Ec], Vd as [Vd Ed]. rewrite codes_compact by auto. now rewrite Ec, Ed at 2.
  - exact codes_resolution.
  - intros [[]|] [[]|] _ _ u v; reflexivity.
  - apply codes_swapped.
Qed.

Lemma codes_shown P : codes (shown P) (on_fst pp_cmp) k_shown.
Proof.
  intros [s a] [t b] [Rs Ss] [Rt St] u v. unfold k_shown, on_fst. cbn [fst snd] in *. pose proof (reachable_wf P s Rs) as Ws. pose proof (reachable_wf P t Rt) as Wt.
  rewrite (k_apos_aeq a (abs s)), (k_apos_aeq b (abs t)) by (eapply sees_unique; [eassumption|now apply sees_abs]). now apply codes_pp.
Qed.
Lemma codes_shown_pos P : codes (shown_pos P) (on_fst pos_cmp) k_pos.
Proof.
  intros [p [a a']] [q [b b']] (S1 & S2 & V) (S1' & S2' & V') u v. unfold k_pos, on_fst. cbn [fst snd] in *.
  pose proof (codes_shown P _ _ S1 S1') as C1. pose proof (codes_shown P _ _ S2 S2') as C2. unfold k_shown, on_fst in C1, C2. cbn [fst snd] in C1, C2.
  unfold pos_cmp, k_moves. rewrite <- !app_assoc, C1, C2. cbn [app].
  rewrite (codes_moves valid_move move_cmp k_move codes_move) by auto. now rewrite !then_assoc.
Qed.
Lemma codes_shown_game {A B} (S : A * B -> Prop) cmp key : codes S (on_fst cmp) key -> codes (shown_game S) (on_fst (game_cmp cmp)) (k_game key).
Proof.
  intros C [[p o] [a r]] [[q o'] [b r']] [S1 R1] [S2 R2] u v. unfold k_game, on_fst. cbn [fst snd game_position g_inner] in *.
  rewrite <- !app_assoc, (C _ _ S1 S2). unfold on_fst, game_cmp. cbn [fst g_inner g_resolution]. rewrite then_assoc. f_equal.
  pose proof (codes_game any (fun _ _ : A => Eq) (fun _ => []) (fun _ _ _ _ _ _ => eq_refl) (GameOf p o, r) (GameOf q o', r') (conj I R1) (conj I R2) u v) as H. exact H.
Qed.
(** C54: the order of positions and games, told from what they show. *)
Lemma c54_positions_pf : forall P,
  ordered_by (shown P) (on_fst pp_cmp) k_shown /\
  ordered_by (shown_pos P) (on_fst pos_cmp) k_pos /\
  ordered_by (shown_game (shown P)) (on_fst (game_cmp pp_cmp)) (k_game k_shown) /\
  ordered_by (shown_game (shown_pos P)) (on_fst (game_cmp pos_cmp)) (k_game k_pos).
Proof.
  intros P. split; [|split; [|split]]; apply codes_ordered; [apply codes_shown|apply codes_shown_pos|apply codes_shown_game, codes_shown|apply codes_shown_game, codes_shown_pos].
Qed.

Ltac tells := eapply reads_tells; [|eassumption].
(** C55: what is hashed tells small values apart, whatever is hashed after them. *)
Lemma c55_values_pf : forall P,
  hash_tells any color_hash k_color /\ hash_tells any pk_hash k_kind /\ hash_tells any gr_hash k_resolution /\
  hash_tells any imk_hash k_illegal /\ hash_tells any ps_hash k_status /\
  hash_tells valid_square sq_hash k_square /\ hash_tells valid_piece piece_hash k_piece /\
  hash_tells valid_move move_hash k_move /\ hash_tells valid_compact cm_hash (fun c => k_compact (unpack c)) /\
  hash_tells valid_hand hand_hash k_hand /\ hash_tells valid_bb bb_hash (k_bitboard P).
Proof.
  intros P. destruct (c54_values_pf P) as (O1 & O2 & O3 & O4 & O5 & O6 & O7 & O8 & O9 & O10 & O11).
  split; [tells; apply reads_color|]. split; [tells; apply (reads_one any pk_as_u8 HDisc); congruence|]. split; [tells; apply (reads_one any gr_as_u8 HDisc); congruence|].
  split; [tells; apply (reads_one any imk_as_u8 HDisc); congruence|]. split; [tells; apply (reads_one any ps_as_u8 HDisc); congruence|]. split; [tells; apply reads_square|].
  split; [tells; apply reads_piece|]. split; [tells; apply reads_move|]. split; [tells; apply (reads_one valid_compact cm_repr (HInt 16)); congruence|].
  split; [tells; apply reads_hand|]. tells. apply (reads_ints valid_bb 64 (fun b => [bb0 b; bb1 b])).
Qed.
(** C55: the same for options and byte-swapped bitboards. *)
Lemma c55_options_pf : forall P,
  hash_tells (valid_o valid_square) (fun a => os_hash (os_from a)) (k_option 2 k_square) /\
  hash_tells (valid_o valid_piece) (fun a => op_hash (op_from a)) (k_option 2 k_piece) /\
  hash_tells (valid_o valid_compact) (fun a => ocm_hash (ocm_from a)) (k_option 2 (fun c => k_compact (unpack c))) /\
  hash_tells any (fun a => ogr_hash (ogr_from a)) (k_option 1 k_resolution) /\
  hash_tells any (fun a => rui_hash (rui_from_option a)) (k_option 1 k_illegal) /\
  hash_tells valid_bb (fun b => bs_hash (bb_swap_bytes b)) (k_swapped P).
Proof.
  intros P. destruct (c54_options_pf P) as (O1 & O2 & O3 & O4 & O5 & O6).
  split; [tells; apply (reads_one _ (fun a => os_repr (os_from a)) (HInt 8)); congruence|].
  split; [tells; apply (reads_one _ (fun a => op_repr (op_from a)) (HInt 8)); congruence|].
  split; [tells; apply (reads_one _ (fun a => ocm_repr (ocm_from a)) (HInt 16)); congruence|].
  split; [tells; apply (reads_one _ (fun a => ogr_repr (ogr_from a)) (HInt 8)); congruence|].
  split; [tells; apply (reads_one _ (fun a => rui_repr (rui_from_option a)) (HInt 8)); congruence|].
  tells. apply (reads_ints valid_bb 64 (fun b => [bs0 (bb_swap_bytes b); bs1 (bb_swap_bytes b)])).
Qed.
(** C55: what is hashed tells everything a position or game shows but the king positions, and nothing else. *)
Lemma c55_positions_pf : forall P,
  hash_tells (shown P) (fun x => pp_hash (fst x)) k_shown /\
  hash_tells (shown_pos P) (fun x => pos_hash (fst x)) k_pos /\
  hash_tells (shown_game (shown P)) (fun x => game_hash pp_hash (fst x)) (k_game k_shown) /\
  hash_tells (shown_game (shown_pos P)) (fun x => game_hash pos_hash (fst x)) (k_game k_pos).
Proof.
  intros P. destruct (c54_positions_pf P) as (O1 & O2 & O3 & O4). unfold on_fst in O1, O2, O3, O4. split; [|split; [|split]]; tells.
  - apply (reads_on _ any fst); [now intros|apply reads_pp].
  - apply (reads_on _ any fst); [now intros|apply reads_pos].
  - apply (reads_on _ any fst); [now intros|apply reads_game, reads_pp].
  - apply (reads_on _ any fst); [now intros|apply reads_game, reads_pos].
Qed.
(** C55: positions with the same hashed data show the same side, ply, pieces, hands and last move; histories with the same
    hashed data are the same. *)
Lemma c55_same_pf : forall P s t a b, reachable P s -> reachable P t -> sees P s a -> sees P t b ->
  (pp_hash s = pp_hash t <->
   a_side a = a_side b /\ a_ply a = a_ply b /\ (forall sq, valid_square sq -> a_board a sq = a_board b sq) /\
   (forall c k, In k hand_kinds -> a_hand a c k = a_hand b c k) /\ a_last a = a_last b) /\
  (forall ms ns, hash_list move_hash ms = hash_list move_hash ns <-> ms = ns).
Proof.
  intros P s t a b Rs Rt Sa Sb. pose proof (reachable_wf P s Rs) as Ws. pose proof (reachable_wf P t Rt) as Wt.
  assert (Ea : aeq a (abs s)) by (eapply sees_unique; [eassumption|now apply sees_abs]).
  assert (Eb : aeq b (abs t)) by (eapply sees_unique; [eassumption|now apply sees_abs]). split.
  - destruct (c55_positions_pf P) as (T & _). destruct (T (s, a) (t, b)) as [T1 T2]; [now split|now split|]. cbn [fst snd] in *. unfold k_shown in T1, T2. cbn [snd] in *.
    split.
    + intros H. destruct Ea as (A1 & A2 & A3 & A4 & A5 & _), Eb as (B1 & B2 & B3 & B4 & B5 & _).
      pose proof (reads_pp any s t I I) as [R _]. specialize (R [] []). rewrite H in R. destruct (R eq_refl) as [R' _]. apply pp_cmp_eq in R' as (P1 & P2 & P3 & P4 & P5).
      rewrite A1, B1, A2, B2, A5, B5. cbn [abs a_side a_ply a_last a_board a_hand] in *. split; [exact P1|]. split; [exact P2|]. split; [|split].
      * intros sq V. rewrite A3, B3 by auto. unfold cell. now rewrite P4.
      * intros c k K. rewrite A4, B4 by auto. unfold hand_at. now rewrite P3.
      * unfold last_at. now rewrite P5.
    + intros (Q1 & Q2 & Q3 & Q4 & Q5). apply T2. unfold k_apos. rewrite Q1, Q2, Q5. f_equal. f_equal. f_equal; [apply map_ext_in; auto|]. f_equal; [apply map_ext_in; auto|]. f_equal.
      rewrite !flat_map_concat_map. f_equal. apply map_ext_in. intros sq Hs. rewrite Q3; auto. rewrite squares_eq in Hs. now apply valid_square_In.
  - intros ms ns. split; [|now intros ->]. intros H. pose proof (reads_list any _ _ (reads_move any) ms ns) as R.
    destruct R as [R _]; [apply Forall_forall; now intros|apply Forall_forall; now intros|]. specialize (R [] []). rewrite H in R. destruct (R eq_refl) as [R' _].
    apply (list_eq move_cmp any) in R'; auto; [|apply Forall_forall; now intros|apply Forall_forall; now intros]. intros x y _ _. apply move_cmp_eq.
Qed.
