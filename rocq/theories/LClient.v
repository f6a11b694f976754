(** Positions in memory. *)
From Coq Require Import String.
From Verif Require Import TPosition TSfen LExt LRuntime.
From Verif Require Export SpecClient.
Close Scope string_scope.
Notation length := List.length.

(** ** Numbers as bytes *)
Lemma le_bytes_length w v : length (le_bytes w v) = w.
Proof. revert v. induction w; intros v; cbn; auto. Qed.
Lemma le_bytes_nth w v i : (i < w)%nat -> nth i (le_bytes w v) 0 = byte_of v (N.of_nat i).
Proof.
  revert v i. induction w as [|w IH]; intros v i H; [lia|]. destruct i as [|i]; cbn [le_bytes nth].
  - unfold byte_of. cbn. now rewrite N.div_1_r.
  - rewrite IH by lia. unfold byte_of. rewrite N.div_div by (try apply N.pow_nonzero; lia).
    do 2 f_equal. rewrite <- N.pow_succ_r'. f_equal. lia.
Qed.
Lemma le_value_bytes w v : v < 256 ^ N.of_nat w -> le_value (le_bytes w v) = v.
Proof.
  revert v. induction w as [|w IH]; intros v H.
  - cbn in *. lia.
  - cbn [le_bytes le_value]. rewrite Nat2N.inj_succ, N.pow_succ_r' in H. rewrite IH.
    + pose proof (N.div_mod v 256). lia.
    + apply N.div_lt_upper_bound; lia.
Qed.
Lemma int_bytes_length E w v : length (int_bytes E w v) = w.
Proof. destruct E; cbn; rewrite ?rev_length; apply le_bytes_length. Qed.
Lemma int_bytes_nth E w v i : (i < w)%nat ->
  nth i (int_bytes E w v) 0 = byte_of v (match E with Little => N.of_nat i | Big => N.of_nat w - 1 - N.of_nat i end).
Proof.
  intros H. destruct E; cbn [int_bytes]; [now apply le_bytes_nth|].
  rewrite rev_nth by now rewrite le_bytes_length. rewrite le_bytes_length, le_bytes_nth by lia. f_equal. lia.
Qed.
Lemma int_value_bytes E w v : v < 256 ^ N.of_nat w -> int_value E (int_bytes E w v) = v.
Proof. intros H. destruct E; cbn [int_value int_bytes]; rewrite ?rev_involutive; now apply le_value_bytes. Qed.

(** ** Runs of bytes *)
Definition at_bytes (m : mem) (a : N) (l : list N) : Prop := forall i, (i < length l)%nat -> m (a + N.of_nat i) = Some (nth i l 0).
Lemma at_bytes_cons m a b l : at_bytes m a (b :: l) <-> m a = Some b /\ at_bytes m (a + 1) l.
Proof.
  split.
  - intros H. split; [specialize (H 0%nat ltac:(cbn; lia)); now rewrite N.add_0_r in H|]. intros i L. specialize (H (S i) ltac:(cbn; lia)).
    cbn [nth] in H. rewrite <- H. f_equal. lia.
  - intros [H1 H2] [|i] L; cbn [nth]; [now rewrite N.add_0_r|]. rewrite <- H2 by (cbn in L; lia). f_equal. lia.
Qed.
Lemma at_bytes_app m a l l' : at_bytes m a (l ++ l') <-> at_bytes m a l /\ at_bytes m (a + len l) l'.
Proof.
  revert a. induction l as [|b l IH]; intros a; cbn [app].
  - cbn. rewrite N.add_0_r. split; [intros H; split; [intros i L; cbn in L; lia|exact H]|tauto].
  - rewrite !at_bytes_cons, IH. cbn [length]. rewrite Nat2N.inj_succ. replace (a + N.succ (len l)) with (a + 1 + len l) by lia. tauto.
Qed.
Lemma write_bytes_ok l : forall m a, accessible m a (len l) -> exists m', write_bytes m a l = Ret m' /\ at_bytes m' a l /\ only_changes m m' a (len l).
Proof.
  induction l as [|b l IH]; intros m a H.
  - exists m. split; [reflexivity|]. split; [intros i L; cbn in L; lia|]. split; [auto|tauto].
  - cbn [length] in H. rewrite Nat2N.inj_succ in H. destruct (H 0) as [v Hv]; [lia|]. rewrite N.add_0_r in Hv.
    cbn [write_bytes]. unfold mem_write at 1. rewrite Hv. cbn [bind].
    set (m1 := fun x => if x =? a then Some b else m x).
    destruct (IH m1 (a + 1)) as (m' & W & B & F1 & F2).
    { intros i L. destruct (H (i + 1)) as [w Hw]; [lia|]. exists w. unfold m1. replace (a + 1 + i =? a) with false by lia. rewrite <- Hw. f_equal. lia. }
    exists m'. split; [exact W|]. split; [apply at_bytes_cons; split; [|exact B]|split].
    + rewrite F1 by (unfold in_region; lia). unfold m1. now rewrite N.eqb_refl.
    + intros x Hx. unfold in_region in Hx. cbn [length] in Hx. rewrite Nat2N.inj_succ in Hx. rewrite F1 by (unfold in_region; lia).
      unfold m1. now replace (x =? a) with false by lia.
    + intros x. rewrite F2. unfold m1. destruct (N.eqb_spec x a) as [->|]; [rewrite Hv; split; discriminate|tauto].
Qed.
Lemma map_res_map {A B} (f : A -> res B) (g : A -> B) l : (forall x, In x l -> f x = Ret (g x)) -> map_res f l = Ret (map g l).
Proof.
  induction l as [|x l IH]; intros H; [reflexivity|]. cbn [map_res map]. rewrite (H x) by now left. cbn [bind]. rewrite IH by (intros; apply H; now right). reflexivity.
Qed.
Lemma nth_seq_map (l : list N) : map (fun i => nth i l 0) (seq 0 (length l)) = l.
Proof.
  induction l as [|b l IH]; [reflexivity|]. cbn [length seq map nth]. f_equal. rewrite <- seq_shift, map_map. exact IH.
Qed.
Lemma read_bytes_ok m a l : at_bytes m a l -> read_bytes m a (len l) = Ret l.
Proof.
  intros H. unfold read_bytes. rewrite (map_res_map _ (fun i => nth (N.to_nat i) l 0)).
  - f_equal. unfold range. rewrite N.sub_0_r, Nat2N.id, map_map. transitivity (map (fun i => nth i l 0) (seq 0 (length l))); [|apply nth_seq_map]. apply map_ext. intros i. f_equal. lia.
  - intros x I. unfold range in I. apply in_map_iff in I. destruct I as (i & <- & I). apply in_seq in I.
    unfold mem_read. rewrite N.add_0_l, Nat2N.id, H by lia. reflexivity.
Qed.

(** ** The layout *)
Lemma lay_facts A : In A word_alignments ->
  pp_offsets A = map (fun x => fst (snd x)) (position_fields A) /\
  map lay_size (pp_field_lays A) = map (fun x => snd (snd x)) (position_fields A) /\
  lay_size (pp_lay A) = position_size A /\ lay_align (pp_lay A) = position_align A.
Proof. intros I. unfold word_alignments in I. repeat (destruct I as [<-|I]; [vm_compute; repeat split|]). destruct I. Qed.
Lemma check_aligned_ok A a : In A word_alignments -> aligned A a -> check_aligned A a = Ret tt.
Proof.
  intros I [k ->]. unfold check_aligned. destruct (lay_facts A I) as (_ & _ & _ & ->). 
  rewrite N.mod_mul; [reflexivity|]. unfold word_alignments in I. repeat (destruct I as [<-|I]; [discriminate|]). destruct I.
Qed.

Lemma hand_bytes_8 s : wf s -> forall c, length (hand_bytes (hand_at s c)) = 8%nat.
Proof. intros W c. apply (hand_at_valid s c W). Qed.
Lemma hands_two s : wf s -> pp_hands s = [hand_at s Black; hand_at s White].
Proof.
  intros W. pose proof (wf_hands_len s W) as L. unfold hand_at. destruct (pp_hands s) as [|x [|y [|z l]]]; try discriminate L. reflexivity.
Qed.
Lemma two_list {T} (l : list T) d : length l = 2%nat -> l = [nth 0 l d; nth 1 l d].
Proof. destruct l as [|x [|y [|z l]]]; intros L; try discriminate L. reflexivity. Qed.
Lemma flat_map_length_const {T} (f : T -> list N) n l : (forall x, In x l -> length (f x) = n) -> length (flat_map f l) = (length l * n)%nat.
Proof. induction l as [|x l IH]; intros H; [reflexivity|]. cbn [flat_map length]. rewrite app_length, H, IH by (auto; now left || (intros; apply H; now right)). lia. Qed.
Lemma bitboard_bytes_length E b : length (bitboard_bytes E b) = 16%nat.
Proof. unfold bitboard_bytes. now rewrite app_length, !int_bytes_length. Qed.
Lemma field_lengths E s : wf s -> map (fun l => len l) (pp_field_bytes E s) = [1; 2; 16; 81; 32; 224; 2; 2].
Proof.
  intros W. unfold pp_field_bytes. cbn [map]. rewrite !int_bytes_length, !map_length.
  rewrite (flat_map_length_const hand_bytes 8), !(flat_map_length_const (bitboard_bytes E) 16) by
    (try (intros; apply bitboard_bytes_length); intros h I; pose proof (wf_hands s W) as V; rewrite Forall_forall in V; apply (V h I)).
  rewrite (wf_hands_len s W), (wf_board_len s W), (wf_player_len s W), (wf_kind_len s W), (wf_king_len s W). reflexivity.
Qed.
Definition table (A : N) (E : endian) (s : partial_position) : list (N * list N) := combine (pp_offsets A) (pp_field_bytes E s).
Definition fields_at (A : N) (E : endian) (m : mem) (a : N) (s : partial_position) : Prop :=
  forall o l, In (o, l) (table A E s) -> at_bytes m (a + o) l.

Lemma find_field (tab : list (N * list N)) o l i : In (o, l) tab -> o <= i < o + len l ->
  (forall o' l', In (o', l') tab -> (o', l') = (o, l) \/ i < o' \/ o' + len l' <= i) ->
  find (fun x => (fst x <=? i) && (i <? fst x + len (snd x))) tab = Some (o, l).
Proof.
  induction tab as [|[o1 l1] tab IH]; intros I R D; [destruct I|]. cbn [find fst snd].
  destruct (D o1 l1) as [E|Q]; [now left| |].
  - injection E as -> ->. replace (o <=? i) with true by lia. replace (i <? o + len l) with true by lia. reflexivity.
  - replace ((o1 <=? i) && (i <? o1 + len l1)) with false by lia. apply IH; auto.
    + destruct I as [E|I]; auto. injection E as -> ->. lia.
    + intros o' l' I'. apply D. now right.
Qed.
(** the (offset, length) pairs of the table *)
Lemma table_pairs A E s : In A word_alignments -> wf s -> map (fun x => (fst x, len (snd x))) (table A E s) = map snd (position_fields A).
Proof.
  intros I W. unfold table. destruct (lay_facts A I) as (-> & _). pose proof (field_lengths E s W) as L.
  destruct (pp_field_bytes E s) as [|l1 [|l2 [|l3 [|l4 [|l5 [|l6 [|l7 [|l8 [|l9 r]]]]]]]]]; try discriminate L.
  cbn [map] in L. injection L as -> -> -> -> -> -> -> -> || (injection L; intros L8 L7 L6 L5 L4 L3 L2 L1).
  unfold word_alignments in I.
  repeat (destruct I as [<-|I]; [cbn [position_fields map combine fst snd]; rewrite L1, L2, L3, L4, L5, L6, L7, L8; reflexivity|]). destruct I.
Qed.
Fixpoint spaced (o : N) (l : list (N * N)) (top : N) : bool :=
  match l with [] => o <=? top | (a, w) :: rest => (o <=? a) && spaced (a + w) rest top end.
Lemma spaced_lower l : forall o top x, spaced o l top = true -> In x l -> o <= fst x /\ fst x + snd x <= top.
Proof.
  induction l as [|[a w] l IH]; intros o top x S I; [destruct I|]. cbn [spaced] in S. apply andb_true_iff in S. destruct S as [Q S].
  destruct I as [<-|I].
  - cbn [fst snd]. split; [lia|]. clear IH Q. revert a w S. induction l as [|[b v] l IH]; intros a w S; cbn [spaced] in S; [lia|].
    apply andb_true_iff in S. destruct S as [Q S]. specialize (IH _ _ S). lia.
  - specialize (IH _ _ x S I). lia.
Qed.
Lemma spaced_apart (tab : list (N * list N)) top : forall o, spaced o (map (fun x => (fst x, len (snd x))) tab) top = true ->
  forall o1 l1 i, In (o1, l1) tab -> o1 <= i < o1 + len l1 ->
  forall o2 l2, In (o2, l2) tab -> (o2, l2) = (o1, l1) \/ i < o2 \/ o2 + len l2 <= i.
Proof.
  induction tab as [|[b l] tab IH]; intros o S o1 l1 i I1 R o2 l2 I2; [destruct I1|]. cbn [map fst snd spaced] in S.
  apply andb_true_iff in S. destruct S as [Q S].
  assert (G : forall p q, In (p, q) tab -> b + len l <= p).
  { intros p q J. apply (spaced_lower _ _ _ (p, len q) S). apply in_map_iff. exists (p, q). auto. }
  destruct I1 as [E1|I1], I2 as [E2|I2].
  - left. congruence.
  - injection E1 as -> ->. specialize (G _ _ I2). lia.
  - injection E2 as -> ->. specialize (G _ _ I1). lia.
  - eapply IH; eauto.
Qed.
Lemma fields_spaced A : In A word_alignments -> spaced 0 (map snd (position_fields A)) (position_size A) = true.
Proof. intros I. unfold word_alignments in I. repeat (destruct I as [<-|I]; [vm_compute; reflexivity|]). destruct I. Qed.
Lemma table_inside A E s o l : In A word_alignments -> wf s -> In (o, l) (table A E s) -> o + len l <= position_size A.
Proof.
  intros I W J. apply (spaced_lower _ _ _ (o, len l) (fields_spaced A I)). rewrite <- (table_pairs A E s I W). apply in_map_iff. exists (o, l). auto.
Qed.
Lemma image_length A E pad s : In A word_alignments -> len (pp_image A E pad s) = position_size A.
Proof. intros I. unfold pp_image. destruct (lay_facts A I) as (_ & _ & -> & _). unfold range. rewrite !map_length, seq_length. lia. Qed.
Lemma image_nth A E pad s i : In A word_alignments -> i < position_size A ->
  nth (N.to_nat i) (pp_image A E pad s) 0 =
  match find (fun x => (fst x <=? i) && (i <? fst x + len (snd x))) (table A E s) with
  | Some (o, l) => nth (N.to_nat (i - o)) l 0 | None => pad i mod 256 end.
Proof.
  intros I L. unfold pp_image. fold (table A E s). destruct (lay_facts A I) as (_ & _ & -> & _).
  set (f := fun i => match find _ _ with Some (o, l) => _ | None => _ end).
  rewrite (nth_indep _ 0 (f 0)) by (unfold range; rewrite !map_length, seq_length; lia).
  rewrite map_nth. unfold range. rewrite (nth_indep _ 0 (0 + N.of_nat 0)) by (rewrite map_length, seq_length; lia).
  rewrite (map_nth (fun k => 0 + N.of_nat k)), seq_nth by lia. rewrite Nat.add_0_l, N2Nat.id, N.add_0_l. reflexivity.
Qed.
Lemma image_fields A E pad m a s : In A word_alignments -> wf s -> at_bytes m a (pp_image A E pad s) -> fields_at A E m a s.
Proof.
  intros I W B o l J i L. pose proof (table_inside A E s o l I W J) as T.
  specialize (B (N.to_nat (o + N.of_nat i))). assert (Li : (N.to_nat (o + N.of_nat i) < length (pp_image A E pad s))%nat).
  { pose proof (image_length A E pad s I). lia. }
  specialize (B Li). rewrite image_nth in B by (auto; lia). rewrite N2Nat.id in B.
  rewrite (find_field _ o l) in B; auto; [|lia|].
  - rewrite N.add_assoc in B. rewrite B. do 2 f_equal. lia.
  - eapply spaced_apart; [rewrite (table_pairs A E s I W); apply (fields_spaced A I)|exact J|lia].
Qed.

(** ** Reading a position back *)
Lemma chunks_flat {T} (f : T -> list N) w l : (forall x, In x l -> length (f x) = w) -> chunks (length l) w (flat_map f l) = map f l.
Proof.
  induction l as [|x l IH]; intros H; [reflexivity|]. cbn [length chunks flat_map map].
  assert (L : length (f x) = w) by (apply H; now left). 
  rewrite <- L at 1. rewrite firstn_app, firstn_all, Nat.sub_diag. cbn [firstn]. rewrite app_nil_r.
  rewrite <- L at 2. rewrite skipn_app, skipn_all, Nat.sub_diag. cbn [skipn app]. rewrite IH by (intros; apply H; now right). reflexivity.
Qed.
Lemma bitboard_bytes_back E b : valid_bb b -> bitboard_from_bytes E (bitboard_bytes E b) = b.
Proof.
  intros [B0 B1]. unfold bitboard_from_bytes, bitboard_bytes.
  rewrite <- (int_bytes_length E 8 (bb0 b)) at 1. rewrite firstn_app, firstn_all, Nat.sub_diag. cbn [firstn]. rewrite app_nil_r.
  rewrite <- (int_bytes_length E 8 (bb0 b)) at 2. rewrite skipn_app, skipn_all, Nat.sub_diag. cbn [skipn app].
  assert (256 ^ N.of_nat 8 = 2 ^ 64) as Q by reflexivity. rewrite !int_value_bytes.
  - now destruct b.
  - rewrite Q. eapply N.lt_trans; [exact B1|]. reflexivity.
  - rewrite Q. eapply N.lt_trans; [exact B0|]. reflexivity.
Qed.
Lemma bitboards_back E l n : length l = n -> Forall valid_bb l -> map (bitboard_from_bytes E) (chunks n 16 (flat_map (bitboard_bytes E) l)) = l.
Proof.
  intros <- V. rewrite chunks_flat by (intros; apply bitboard_bytes_length). rewrite map_map. rewrite <- (map_id l) at 2.
  apply map_ext_in. intros b I. rewrite Forall_forall in V. now apply bitboard_bytes_back, V.
Qed.
Lemma ocm_repr_u16 s : wf s -> ocm_repr (pp_last_move s) < 65536.
Proof.
  intros W. pose proof (wf_last s W) as V. unfold ocm_into in V. destruct (pp_last_move s) as [n]. cbn [ocm_repr] in *.
  unfold nonzero_new in V. destruct (N.eqb_spec n 0) as [Z|Z]; [lia|]. destruct V as (mv & Vm & E). cbn [cm_repr] in E. rewrite E. now apply packed_u16.
Qed.
Lemma load_ok A E m a s : In A word_alignments -> aligned A a -> wf s -> fields_at A E m a s -> load_pp A E m a = Ret s.
Proof.
  intros I Al W F. unfold load_pp. rewrite check_aligned_ok by auto. cbn [bind].
  assert (R : map_res (fun x => read_bytes m (a + fst x) (lay_size (snd x))) (combine (pp_offsets A) (pp_field_lays A)) = Ret (pp_field_bytes E s)).
  { destruct (lay_facts A I) as (HO & HS & _ & _). unfold fields_at, table in F. rewrite HO in *.
    pose proof (field_lengths E s W) as L.
    assert (Q : map lay_size (pp_field_lays A) = map (fun l => len l) (pp_field_bytes E s)).
    { rewrite HS, L. unfold word_alignments in I. repeat (destruct I as [<-|I]; [reflexivity|]). destruct I. }
    clear HS L HO. remember (map (fun x => fst (snd x)) (position_fields A)) as offs eqn:HO.
    assert (L : length offs = length (pp_field_bytes E s)) by (subst offs; rewrite map_length; reflexivity). clear HO.
    revert offs L F Q. generalize (pp_field_lays A). generalize (pp_field_bytes E s). clear.
    intros fs. induction fs as [|f fs IH]; intros ls offs L F Q.
    - destruct offs; [|discriminate L]. reflexivity.
    - destruct offs as [|o offs]; [discriminate L|]. destruct ls as [|x ls]; [discriminate Q|]. cbn [map] in Q. injection Q as Q1 Q2.
      cbn [combine map_res fst snd]. rewrite Q1. rewrite read_bytes_ok by (apply F; now left). cbn [bind].
      rewrite IH; auto. intros o' l' J. apply F. now right. }
  rewrite R. cbn [bind pp_field_bytes nth].
  replace (color_from_byte (color_as_u8 (pp_side s))) with (Ret (pp_side s)) by (destruct (pp_side s); reflexivity). cbn [bind].
  rewrite int_value_bytes by (apply (wf_ply s W)). rewrite int_value_bytes by (now apply ocm_repr_u16).
  rewrite !map_map. rewrite (bitboards_back E _ 2) by apply W. rewrite (bitboards_back E _ 14) by apply W.
  replace (chunks 2 8 (flat_map hand_bytes (pp_hands s))) with (map hand_bytes (pp_hands s)).
  2:{ pose proof (chunks_flat hand_bytes 8 (pp_hands s)) as Q. rewrite (wf_hands_len s W) in Q. symmetry. apply Q. intros h J. pose proof (wf_hands s W) as V. rewrite Forall_forall in V. apply (V h J). }
  rewrite map_map. f_equal. destruct s. cbn. f_equal.
  - rewrite <- (map_id pp_hands) at 2. apply map_ext. now intros [].
  - rewrite <- (map_id pp_board) at 2. apply map_ext. now intros [].
  - now destruct pp_last_move.
  - rewrite <- (map_id pp_king_square) at 2. apply map_ext. now intros [].
Qed.

(** ** What a C program sees *)
Lemma sum_bits {T} (g : T -> bool) (e : T -> N) l : NoDup l -> (forall x y, In x l -> In y l -> g x = true -> g y = true -> e x = e y -> x = y) ->
  forall i, N.testbit (fold_right N.add 0 (map (fun x => if g x then 2 ^ e x else 0) l)) i = existsb (fun x => g x && (e x =? i)) l.
Proof.
  induction l as [|x l IH]; intros D H i; [apply N.bits_0|]. inversion D as [|? ? N1 D1]; subst. cbn [map fold_right existsb].
  assert (IH' := IH D1 (fun x y a b => H x y (or_intror a) (or_intror b))). clear IH.
  destruct (g x) eqn:G; cbn [andb orb]; [|apply IH'].
  set (t := fold_right _ _ _) in *.
  assert (Z : N.land (2 ^ e x) t = 0).
  { apply N.bits_inj_0. intros j. rewrite N.land_spec, N.pow2_bits_eqb. destruct (N.eqb_spec (e x) j) as [<-|]; [|reflexivity]. cbn [andb]. rewrite IH'.
    apply not_true_iff_false. intros Q. apply existsb_exists in Q. destruct Q as (y & Iy & Q). apply andb_true_iff in Q. destruct Q as [Gy Ey].
    apply N.eqb_eq in Ey. assert (x = y) by (apply H; auto; [now left|now right]). subst. contradiction. }
  rewrite N.add_nocarry_lxor by exact Z. rewrite N.lxor_spec, N.pow2_bits_eqb, IH'.
  destruct (N.eqb_spec (e x) i) as [<-|]; [|now destruct (existsb _ l)]. cbn [orb].
  rewrite <- IH'. assert (N.testbit (N.land (2 ^ e x) t) (e x) = false) as Q by (rewrite Z; apply N.bits_0).
  rewrite N.land_spec, N.pow2_bits_eqb, N.eqb_refl in Q. cbn [andb] in Q. now rewrite Q.
Qed.
Lemma squares_nodup : NoDup squares.
Proof. unfold squares. apply FinFun.Injective_map_NoDup; [|apply seq_NoDup]. intros i j H. injection H. lia. Qed.
Lemma in_squares sq : In sq squares <-> valid_square sq.
Proof.
  unfold squares, valid_square. rewrite in_map_iff. split.
  - intros (i & <- & I). apply in_seq in I. cbn [sq_repr]. lia.
  - intros H. exists (N.to_nat (sq_repr sq)). split; [|apply in_seq; lia]. rewrite N2Nat.id. now destruct sq.
Qed.
Lemma word_bits f lo hi i :
  N.testbit (fold_right N.add 0 (map (fun sq => if f sq && (lo <=? sq_repr sq) && (sq_repr sq <=? hi) then 2 ^ (sq_repr sq - lo) else 0) squares)) i = true <->
  exists sq, valid_square sq /\ f sq = true /\ lo <= sq_repr sq <= hi /\ sq_repr sq - lo = i.
Proof.
  rewrite (sum_bits (fun sq => f sq && (lo <=? sq_repr sq) && (sq_repr sq <=? hi)) (fun sq => sq_repr sq - lo)).
  - rewrite existsb_exists. split.
    + intros (sq & I & H). exists sq. rewrite !andb_true_iff, !N.leb_le, N.eqb_eq in H. apply in_squares in I. tauto.
    + intros (sq & I & H). exists sq. rewrite !andb_true_iff, !N.leb_le, N.eqb_eq. apply in_squares in I. tauto.
  - apply squares_nodup.
  - intros x y _ _ Gx Gy Q. rewrite !andb_true_iff, !N.leb_le in Gx, Gy. apply square_inj. lia.
Qed.
Lemma board_words_valid f : valid_bb (board_words f).
Proof.
  apply valid_bb_bits. split; intros i L; apply not_true_iff_false; intros Q; cbn [board_words bb0 bb1] in Q; apply word_bits in Q;
    destruct Q as (sq & V & _ & R & <-); lia.
Qed.
Lemma board_words_member f sq : valid_square sq -> member (board_words f) sq = f sq.
Proof.
  intros V. unfold member. cbn [board_words bb0 bb1]. apply eq_true_iff_eq.
  destruct (N.leb_spec (sq_repr sq) 63); rewrite word_bits; (split; [intros (t & _ & F & R & Q); replace sq with t; [exact F|apply square_inj; unfold valid_square in V; lia]|
    intros F; exists sq; unfold valid_square in *; repeat split; auto; lia]).
Qed.
Lemma board_words_eq b f : valid_bb b -> (forall sq, valid_square sq -> member b sq = f sq) -> b = board_words f.
Proof. intros V H. apply member_ext; auto using board_words_valid. intros sq Q. rewrite H, board_words_member by auto. reflexivity. Qed.
Lemma board_words_ext f g : (forall sq, valid_square sq -> f sq = g sq) -> board_words f = board_words g.
Proof. intros H. apply board_words_eq; [apply board_words_valid|]. intros sq V. rewrite board_words_member by auto. now apply H. Qed.

Lemma at_bytes_number E m a w v : at_bytes m a (int_bytes E w v) -> number_at E m a (N.of_nat w) v.
Proof.
  intros H i L. specialize (H (N.to_nat i)). rewrite int_bytes_length, N2Nat.id in H. rewrite H by lia. rewrite int_bytes_nth, N2Nat.id by lia. reflexivity.
Qed.
Lemma at_bytes_bitboard E m a b f : b = board_words f -> at_bytes m a (bitboard_bytes E b) -> bitboard_at E m a f.
Proof.
  intros -> H. unfold bitboard_bytes in H. apply at_bytes_app in H. rewrite int_bytes_length in H. destruct H as [H1 H2].
  split; [exact (at_bytes_number E m a 8 _ H1)|exact (at_bytes_number E m _ 8 _ H2)].
Qed.
Lemma at_bytes_flat {T} (f : T -> list N) w l d m a k : (forall x, In x l -> length (f x) = w) -> at_bytes m a (flat_map f l) -> (k < length l)%nat ->
  at_bytes m (a + N.of_nat w * N.of_nat k) (f (nth k l d)).
Proof.
  revert a k. induction l as [|x l IH]; intros a k L H K; [cbn in K; lia|]. cbn [flat_map] in H. apply at_bytes_app in H. destruct H as [H1 H2].
  rewrite (L x) in H2 by now left. destruct k as [|k]; cbn [nth].
  - now rewrite N.mul_0_r, N.add_0_r.
  - specialize (IH _ k (fun y I => L y (or_intror I)) H2 ltac:(cbn in K; lia)).
    replace (a + N.of_nat w * N.of_nat (S k)) with (a + N.of_nat w + N.of_nat w * N.of_nat k) by lia. exact IH.
Qed.

Lemma field_in A E s k name o w l : In A word_alignments ->
  nth_error (position_fields A) k = Some (name, (o, w)) -> nth_error (pp_field_bytes E s) k = Some l -> In (o, l) (table A E s).
Proof.
  intros I H1 H2. unfold table. destruct (lay_facts A I) as (-> & _). 
  revert k H1 H2. generalize (position_fields A) (pp_field_bytes E s). induction l0 as [|x l0 IH]; intros l1 k H1 H2; [destruct k; discriminate|].
  destruct l1 as [|y l1]; [destruct k; discriminate|]. destruct k as [|k]; cbn in *.
  - injection H1 as ->. injection H2 as ->. now left.
  - right. eapply IH; eauto.
Qed.
Lemma field_name A k name o w : In A word_alignments -> nth_error (position_fields A) k = Some (name, (o, w)) -> forall a, field A a name = a + o.
Proof.
  intros I H a. unfold word_alignments in I.
  repeat (destruct I as [<-|I]; [do 8 (destruct k as [|k]; [cbn in H; injection H as <- <- <-; reflexivity|]); destruct k; discriminate|]). destruct I.
Qed.
Lemma fields_at_field A E m a s k name l : In A word_alignments -> fields_at A E m a s ->
  option_map fst (nth_error (position_fields A) k) = Some name -> nth_error (pp_field_bytes E s) k = Some l -> at_bytes m (field A a name) l.
Proof.
  intros I F H1 H2. destruct (nth_error (position_fields A) k) as [[n [o w]]|] eqn:Q; [|discriminate H1]. injection H1 as ->.
  rewrite (field_name A k name o w I Q). apply F. eapply field_in; eauto.
Qed.
Lemma op_byte s sq : wf s -> valid_square sq -> op_repr (nth (snum sq) (pp_board s) (OptionPiece 0)) = piece_byte (a_board (abs s) sq).
Proof.
  intros W V. cbn [abs a_board]. unfold cell. pose proof (wf_board s W) as B. rewrite Forall_forall in B.
  specialize (B (nth (snum sq) (pp_board s) (OptionPiece 0))). assert (J : In (nth (snum sq) (pp_board s) (OptionPiece 0)) (pp_board s)).
  { apply nth_In. rewrite (wf_board_len s W). now apply snum_lt. }
  specialize (B J). unfold cell_ok in B. destruct (nth (snum sq) (pp_board s) (OptionPiece 0)) as [n]. unfold op_into, nonzero_new in *. cbn [op_repr] in *.
  destruct (N.eqb_spec n 0) as [Z|Z]; [exact Z|]. cbn [option_map piece_byte]. rewrite the_piece_parts by exact B. reflexivity.
Qed.
Lemma os_byte s c : os_repr (nth (cnum c) (pp_king_square s) (OptionSquare 0)) = square_byte (a_king (abs s) c).
Proof.
  cbn [abs a_king]. unfold king_at. destruct (nth _ _ _) as [n]. unfold os_into, nonzero_new. cbn [os_repr]. destruct (N.eqb_spec n 0) as [Z|Z]; [exact Z|reflexivity].
Qed.
Lemma last_number s : wf s -> ocm_repr (pp_last_move s) = move_number (a_last (abs s)).
Proof.
  intros W. pose proof (wf_last s W) as V. cbn [abs a_last]. unfold last_at, last_compact_move in *. destruct (pp_last_move s) as [n]. unfold ocm_into, nonzero_new in *. cbn [ocm_repr] in *.
  destruct (N.eqb_spec n 0) as [Z|Z]; [exact Z|]. cbn [valid_o option_map move_number] in *. destruct V as (mv & Vm & Q). cbn [cm_repr] in Q.
  subst n. now rewrite unpack_packed.
Qed.
Lemma shows_abs A E m a s : In A word_alignments -> wf s -> fields_at A E m a s -> shows A E m a (abs s).
Proof.
  intros I W F.
  assert (G := fun k name l => fields_at_field A E m a s k name l I F).
  assert (N : forall k name, nth_error ["side"; "ply"; "hands"; "board"; "player_bb"; "piece_bb"; "last_move"; "king_square"]%string k = Some name ->
    option_map fst (nth_error (position_fields A) k) = Some name).
  { intros k name H. do 8 (destruct k as [|k]; [exact H|]). destruct k; discriminate. }
  unfold shows. split; [|split; [|split; [|split; [|split; [|split; [|split]]]]]].
  - specialize (G 0%nat "side"%string _ (N 0%nat _ eq_refl) eq_refl). specialize (G 0%nat ltac:(cbn; lia)). rewrite N.add_0_r in G. rewrite G. cbn. now destruct (pp_side s).
  - apply (at_bytes_number E m _ 2). exact (G 1%nat "ply"%string _ (N 1%nat _ eq_refl) eq_refl).
  - intros c k K. specialize (G 2%nat "hands"%string _ (N 2%nat _ eq_refl) eq_refl).
    apply (at_bytes_flat hand_bytes 8 _ hand_new _ _ (cnum c)) in G.
    2:{ intros h J. pose proof (wf_hands s W) as V. rewrite Forall_forall in V. apply (V h J). }
    2:{ rewrite (wf_hands_len s W). apply cnum_lt. }
    fold (hand_at s c) in G. specialize (G (knum k)). rewrite hand_bytes_8 in G by auto.
    replace (field A a "hands" + 8 * index_of c + (kind_number k - 1)) with (field A a "hands" + N.of_nat 8 * N.of_nat (cnum c) + N.of_nat (knum k)).
    + rewrite G; [reflexivity|]. revert K. clear. destruct k; intros K; vm_compute; try lia; cbn in K; intuition discriminate.
    + rewrite !N2Nat.id. destruct c; reflexivity.
  - intros sq V. specialize (G 3%nat "board"%string _ (N 3%nat _ eq_refl) eq_refl). specialize (G (snum sq)).
    rewrite map_length, (wf_board_len s W) in G. specialize (G (snum_lt sq V)). rewrite N2Nat.id in G. rewrite G. f_equal.
    rewrite <- (op_byte s sq W V). now rewrite <- (map_nth op_repr).
  - intros c. specialize (G 4%nat "player_bb"%string _ (N 4%nat _ eq_refl) eq_refl).
    apply (at_bytes_flat (bitboard_bytes E) 16 _ bb_empty _ _ (cnum c)) in G; [|intros; apply bitboard_bytes_length|rewrite (wf_player_len s W); apply cnum_lt].
    fold (player_at s c) in G. replace (16 * index_of c) with (N.of_nat 16 * N.of_nat (cnum c)) by (rewrite N2Nat.id; now destruct c).
    eapply at_bytes_bitboard; [|exact G]. apply board_words_eq.
    + pose proof (wf_player_valid s W) as V. rewrite Forall_forall in V. apply V. unfold player_at. apply nth_In. rewrite (wf_player_len s W). apply cnum_lt.
    + intros sq V. rewrite (wf_player s W c sq V). unfold of_color. cbn [abs a_board]. destruct (cell s sq); reflexivity.
  - intros k. specialize (G 5%nat "piece_bb"%string _ (N 5%nat _ eq_refl) eq_refl).
    apply (at_bytes_flat (bitboard_bytes E) 16 _ bb_empty _ _ (knum k)) in G; [|intros; apply bitboard_bytes_length|rewrite (wf_kind_len s W); apply knum_lt].
    fold (kind_at s k) in G. replace (16 * (kind_number k - 1)) with (N.of_nat 16 * N.of_nat (knum k)) by (rewrite N2Nat.id; reflexivity).
    eapply at_bytes_bitboard; [|exact G]. apply board_words_eq.
    + pose proof (wf_kind_valid s W) as V. rewrite Forall_forall in V. apply V. unfold kind_at. apply nth_In. rewrite (wf_kind_len s W). apply knum_lt.
    + intros sq V. rewrite (wf_kind s W k sq V). unfold of_kind. cbn [abs a_board]. destruct (cell s sq); reflexivity.
  - rewrite <- last_number by auto. apply (at_bytes_number E m _ 2). exact (G 6%nat "last_move"%string _ (N 6%nat _ eq_refl) eq_refl).
  - intros c. specialize (G 7%nat "king_square"%string _ (N 7%nat _ eq_refl) eq_refl). specialize (G (cnum c)).
    rewrite map_length, (wf_king_len s W) in G. specialize (G (cnum_lt c)). rewrite N2Nat.id in G.
    replace (index_of c) with (color_number c) by now destruct c. rewrite G. f_equal. rewrite <- os_byte. now rewrite <- (map_nth os_repr).
Qed.
Lemma shows_aeq A E m a x y : aeq x y -> shows A E m a x -> shows A E m a y.
Proof.
  intros (Q1 & Q2 & Q3 & Q4 & Q5 & Q6) (S1 & S2 & S3 & S4 & S5 & S6 & S7 & S8). unfold shows. rewrite <- Q1, <- Q2, <- Q5.
  split; [exact S1|]. split; [exact S2|]. split; [intros c k K; rewrite <- Q4 by auto; now apply S3|].
  split; [intros sq V; rewrite <- Q3 by auto; now apply S4|].
  split; [intros c; unfold bitboard_at; rewrite <- (board_words_ext (of_color x c)); [apply S5|intros sq V; unfold of_color; now rewrite Q3]|].
  split; [intros k; unfold bitboard_at; rewrite <- (board_words_ext (of_kind x k)); [apply S6|intros sq V; unfold of_kind; now rewrite Q3]|].
  split; [exact S7|]. intros c. rewrite <- Q6. apply S8.
Qed.
