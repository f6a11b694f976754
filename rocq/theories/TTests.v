(** Proofs of the property theorems on the tests of the crate (restated in Prop_Tests.v). *)
From Coq Require Import DecimalString.
From Verif Require Export MTests TSquare LSfen.
From Verif Require Import LMove LPiece LShift TBitboard LSafe.
(*PROPHEAD
Property theorems C65: the tests of the crate itself
*)

Lemma for_all_ok {A} (l : list A) body : (forall x, In x l -> body x = Ret tt) -> for_all l body = Ret tt.
Proof.
  unfold for_all. induction l as [|x l IH]; intros H; [reflexivity|]. cbn [for_each]. rewrite (H x) by now left. cbn [bind].
  apply IH. intros y Hy. apply H. now right.
Qed.
Lemma text_of_uint u : bytes (NilEmpty.string_of_uint u) = uint_text u.
Proof. induction u; cbn [NilEmpty.string_of_uint bytes uint_text]; try rewrite IHu; reflexivity. Qed.
Lemma succ_not_nil u : Decimal.Little.succ u <> Decimal.Nil.
Proof. destruct u; discriminate. Qed.
Lemma format_decimal n : format_number n = decimal n.
Proof.
  unfold format_number, decimal. rewrite <- text_of_uint. f_equal. unfold NilZero.string_of_uint.
  destruct (N.to_uint n) eqn:E; try reflexivity.
  exfalso. assert (H := f_equal N.of_uint E). rewrite DecimalN.Unsigned.of_to in H. subst n. discriminate.
Qed.
Lemma bytes_eqb_refl l : bytes_eqb l l = true.
Proof. unfold bytes_eqb. induction l; cbn; [reflexivity|]. now rewrite N.eqb_refl. Qed.
Lemma usi_text_prints (f : printer) t : prints f t -> usi_text (f _ string_sink) = Ret t.
Proof.
  intros H. apply prints_string in H. unfold usi_text, string_sink. rewrite H. cbn [bind assert]. reflexivity.
Qed.
Lemma write_u16_test_ok P : write_u16_test P = Ret tt.
Proof.
  unfold write_u16_test, upto. apply for_all_ok. intros v Hv. apply range_In in Hv. rewrite (usi_text_prints (fun W K => write_u16 P K v) (decimal v)) by (apply prints_u16; lia).
  cbn [bind]. now rewrite format_decimal, bytes_eqb_refl.
Qed.
Lemma shift_works_ok P : square_shift_works P = Ret tt.
Proof.
  unfold square_shift_works, upto. apply for_all_ok. intros file Hf. apply range_In in Hf. apply for_all_ok. intros rank Hr. apply range_In in Hr.
  assert (OB : on_board file rank) by (unfold on_board; lia).
  assert (U : is_u8 file /\ is_u8 rank) by (unfold is_u8; lia). destruct U as [Uf Ur].
  destruct (proj1 (c01_square_new_pf P file rank Uf Ur) OB) as (s & Es & Vs & EF & ER & _).
  rewrite Es. cbn [bind unwrap].
  apply for_all_ok. intros df Hdf. apply for_all_ok. intros dr Hdr.
  assert (D : forall d, In d deltas -> is_i8 d).
  { intros d Hd. unfold deltas in Hd. apply in_map_iff in Hd as (k & <- & Hk). apply range_In in Hk. unfold is_i8. lia. }
  destruct (c03_shift_translates_pf P file rank df dr OB (D _ Hdf) (D _ Hdr)) as (s' & Es' & H).
  rewrite Es in Es'. injection Es' as <-. cbv zeta in H. destruct H as [Hin Hout].
  unfold shift_reference. rewrite EF. cbn [bind]. rewrite ER. cbn [bind].
  set (f' := (Z.of_N file + df)%Z) in *. set (r' := (Z.of_N rank + dr)%Z) in *.
  destruct ((f' <=? 0) || (r' <=? 0) || (10 <=? f') || (10 <=? r'))%Z eqn:C.
  - rewrite Hout; [reflexivity|]. rewrite !orb_true_iff, !Z.leb_le in C. lia.
  - rewrite !orb_false_iff, !Z.leb_gt in C. destruct Hin as (t & E1 & E2); [lia|].
    rewrite E1. cbn [bind]. rewrite !Z.mod_small by lia. rewrite E2. cbn [bind opt_eqb]. unfold sq_eqb. now rewrite N.eqb_refl.
Qed.

(** the tests that go through many boards or moves *)
Lemma remove_single s : valid_square s -> remove (single s) s = bb_empty.
Proof.
  intros V. apply member_ext; [apply remove_valid, single_valid, V|apply bb_empty_valid|]. intros t Vt.
  rewrite member_remove, member_single, member_empty by auto. destruct (sq_eqb s t); reflexivity.
Qed.
Lemma single_nonempty s : valid_square s -> single s <> bb_empty.
Proof.
  intros V E. pose proof (member_single s s V V) as M. rewrite E, member_empty in M. unfold sq_eqb in M. rewrite N.eqb_refl in M. discriminate.
Qed.
Lemma pop_single P s : valid_square s -> bb_pop P (single s) = Ret (bb_empty, Some s).
Proof.
  intros V. destruct (bb_pop_ok P (single s) (single_valid s V) (single_nonempty s V)) as (t & -> & Vt & M & _).
  rewrite member_single in M by auto. apply sq_eqb_eq in M. subst t. now rewrite remove_single.
Qed.
Lemma remove_pair s t : valid_square s -> valid_square t -> s <> t -> remove (bb_or (single s) (single t)) s = single t.
Proof.
  intros Vs Vt NE. apply member_ext; [apply remove_valid, or_valid; now apply single_valid|now apply single_valid|]. intros u Vu.
  rewrite member_remove, member_or, !member_single by auto. destruct (sq_eqb s u) eqn:A, (sq_eqb t u) eqn:B; try reflexivity.
  apply sq_eqb_eq in A, B. congruence.
Qed.
Lemma bb_or_comm a b : bb_or a b = bb_or b a.
Proof. unfold bb_or. now rewrite N.lor_comm, (N.lor_comm (bb1 a)). Qed.
Lemma sq_eqb_refl' s : sq_eqb s s = true.
Proof. apply N.eqb_refl. Qed.
Lemma pop_works_ok P : pop_works P = Ret tt.
Proof.
  unfold pop_works. rewrite sq_all_ok. cbn [bind]. rewrite for_all_ok; cbn [bind].
  - apply for_all_ok. intros s Hs. apply valid_square_In in Hs. apply for_all_ok. intros t Ht. apply valid_square_In in Ht.
    destruct (sq_eqb s t) eqn:E; [reflexivity|]. assert (NE : s <> t) by (intros ->; now rewrite sq_eqb_refl' in E).
    rewrite !bb_single_ok by auto. cbn [bind]. cbv zeta.
    destruct (bb_pop_ok P (bb_or (single s) (single t))) as (u & -> & Vu & M & _); [apply or_valid; now apply single_valid| |].
    { intros B. pose proof (member_or (single s) (single t) s) as M. rewrite B, member_empty, member_single, sq_eqb_refl' in M by auto. discriminate. }
    cbn [bind unwrap]. rewrite member_or, !member_single in M by auto. apply orb_true_iff in M. rewrite !sq_eqb_eq in M. destruct M as [<-|<-].
    + rewrite remove_pair, pop_single by auto. cbn [bind unwrap]. rewrite !sq_eqb_refl'. reflexivity.
    + rewrite bb_or_comm, remove_pair, pop_single by auto. cbn [bind unwrap]. rewrite !sq_eqb_refl', orb_true_r. reflexivity.
  - intros s Hs. apply valid_square_In in Hs. rewrite bb_single_ok by auto. cbn [bind]. rewrite pop_single by auto. cbn [bind opt_eqb].
    rewrite sq_eqb_refl'. reflexivity.
Qed.
Lemma contains_works_ok P : contains_works P = Ret tt.
Proof.
  unfold contains_works, upto. apply for_all_ok. intros f Hf. apply range_In in Hf. apply for_all_ok. intros r Hr. apply range_In in Hr.
  assert (OB : on_board f r) by (unfold on_board; lia). pose proof (square_at_valid f r OB) as V.
  rewrite sq_new_some by auto. cbn [bind unwrap]. rewrite bb_single_ok by auto. cbn [bind].
  rewrite bb_contains_ok, member_single, sq_eqb_refl' by auto. cbn [bind assert].
  apply for_all_ok. intros f' Hf'. apply range_In in Hf'. apply for_all_ok. intros r' Hr'. apply range_In in Hr'.
  assert (OB' : on_board f' r') by (unfold on_board; lia). pose proof (square_at_valid f' r' OB') as V'.
  rewrite sq_new_some by auto. cbn [bind unwrap]. rewrite bb_contains_ok, member_single by auto. cbn [bind].
  destruct (sq_eqb (square_at f r) (square_at f' r')); reflexivity.
Qed.
Lemma square_new_works_ok P : square_new_works P = Ret tt.
Proof.
  unfold square_new_works. apply for_all_ok. intros f Hf. apply range_In in Hf. apply for_all_ok. intros r Hr. apply range_In in Hr.
  assert (D : on_board f r \/ ~ on_board f r) by (unfold on_board; lia). destruct D as [OB|OB].
  - rewrite sq_new_some by auto. cbn [bind is_some]. pose proof (square_at_valid f r OB) as V.
    replace (in_range 1 9 f && in_range 1 9 r) with true by (unfold in_range, on_board in *; lia). cbn [Bool.eqb assert bind].
    destruct (c02_relative_coordinates_pf P (square_at f r) Black V) as (f1 & r1 & E1 & E2 & E3 & E4 & _).
    destruct (c02_relative_coordinates_pf P (square_at f r) White V) as (f2 & r2 & F1 & F2 & F3 & F4 & _).
    rewrite sq_file_ok, file_of_at in E1, F1 by auto. rewrite sq_rank_ok, rank_of_at in E2, F2 by auto.
    injection E1 as <-. injection E2 as <-. injection F1 as <-. injection F2 as <-.
    rewrite sq_file_ok, sq_rank_ok, file_of_at, rank_of_at, E3, E4, F3, F4 by auto. unfold seen_by, on_board in *. cbn [bind].
    rewrite !sub_w_ok by lia. cbn [bind]. rewrite !N.eqb_refl. reflexivity.
  - rewrite sq_new_none by (auto; unfold is_u8; lia). cbn [bind is_some].
    replace (in_range 1 9 f && in_range 1 9 r) with false by (unfold in_range, on_board in *; lia). reflexivity.
Qed.
Lemma move_eqb_refl' m : move_eqb m m = true.
Proof. now apply move_eqb_eq. Qed.
Lemma from_into_works_ok P : from_into_works P = Ret tt.
Proof.
  unfold from_into_works, upto. destruct (piece_all_ok P) as (l & -> & _ & _ & IN). rewrite for_all_ok; cbn [bind].
  - apply for_all_ok. intros p Hp. apply IN in Hp. apply for_all_ok. intros t Ht. apply range_In in Ht. rewrite sq_from_u8_unchecked_ok by lia. cbn [bind]. cbv zeta.
    assert (V : valid_move (Drop p (Square t))) by (split; [exact Hp|unfold valid_square; cbn [sq_repr]; lia]).
    rewrite cm_of_move_ok by auto. cbn [bind]. rewrite move_of_cm_ok by auto. cbn [bind]. now rewrite move_eqb_refl'.
  - intros f Hf. apply range_In in Hf. rewrite sq_from_u8_unchecked_ok by lia. cbn [bind]. apply for_all_ok. intros t Ht. apply range_In in Ht.
    rewrite sq_from_u8_unchecked_ok by lia. cbn [bind]. apply for_all_ok. intros pr _. cbv zeta.
    assert (V : valid_move (Normal (Square f) (Square t) pr)) by (split; unfold valid_square; cbn [sq_repr]; lia).
    rewrite cm_of_move_ok by auto. cbn [bind]. rewrite move_of_cm_ok by auto. cbn [bind]. now rewrite move_eqb_refl'.
Qed.
Lemma normal_works_ok P : normal_works P = Ret tt.
Proof.
  unfold normal_works. rewrite sq_all_ok. cbn [bind]. apply for_all_ok. intros f Hf. apply valid_square_In in Hf. apply for_all_ok. intros t Ht.
  apply valid_square_In in Ht. apply for_all_ok. intros pr _. assert (V : valid_move (Normal f t pr)) by (split; assumption).
  rewrite cm_normal_eq. destruct (cm_all P _ V) as (-> & _ & E1 & E2 & E3 & E4). cbn [bind]. unfold cm_eqb. rewrite N.eqb_refl. cbn [assert bind].
  rewrite E1. cbn [bind mv_from opt_eqb]. rewrite sq_eqb_refl'. cbn [assert bind]. rewrite E2. cbn [bind mv_to]. rewrite sq_eqb_refl'. cbn [assert bind].
  rewrite E3, E4. cbn [mv_is_promoting mv_is_drop negb]. destruct pr; reflexivity.
Qed.
Lemma drop_works_ok P : drop_works P = Ret tt.
Proof.
  unfold drop_works. destruct (piece_all_ok P) as (l & -> & _ & _ & IN). rewrite sq_all_ok. cbn [bind]. apply for_all_ok. intros p Hp. apply IN in Hp.
  apply for_all_ok. intros t Ht. apply valid_square_In in Ht. assert (V : valid_move (Drop p t)) by (split; assumption).
  rewrite cm_drop_eq. destruct (cm_all P _ V) as (-> & _ & E1 & E2 & E3 & E4). cbn [bind]. unfold cm_eqb. rewrite N.eqb_refl. cbn [assert bind].
  rewrite E1. cbn [bind mv_from opt_eqb]. cbn [assert bind]. rewrite E2. cbn [bind mv_to]. rewrite sq_eqb_refl'. cbn [assert bind].
  rewrite E3, E4. reflexivity.
Qed.
(** the pattern of a file put together from the squares of the file *)
Definition gathered (pattern : N) : N :=
  fold_left (fun inner rank => if N.testbit pattern (rank - 1) then N.lor inner (N.shiftl 1 (rank - 1)) else inner) (range 1 10) 0.
Lemma gathered_all : forallb (fun p => gathered p =? p) (range 0 512) = true.
Proof. vm_compute. reflexivity. Qed.
Lemma for_each_fold {A S} (l : list A) (body : A -> S -> res S) g : (forall x s, In x l -> body x s = Ret (g s x)) ->
  forall s, for_each l body s = Ret (fold_left g l s).
Proof.
  induction l as [|x l IH]; intros H s; [reflexivity|]. cbn [for_each fold_left]. rewrite H by now left. cbn [bind]. apply IH. intros y t Hy. apply H. now right.
Qed.
Lemma file_members b file pattern : 1 <= file <= 9 ->
  (forall f r, on_board f r -> member b (square_at f r) = (f =? file) && N.testbit pattern (r - 1)) ->
  length (members b) = length (filter (N.testbit pattern) (range 0 9)).
Proof.
  intros Hf M. rewrite <- (map_length (fun i => square_at file (i + 1)) (filter _ _)). apply Nat.le_antisymm.
  - apply NoDup_incl_length; [apply members_NoDup|]. intros s H. apply members_In in H as [V H].
    rewrite <- (square_at_coords s V) in H |- *. assert (OB : on_board (file_of s) (rank_of s)) by (apply coords_on_board; exact V).
    rewrite M in H by auto. apply andb_prop in H as [E H]. apply N.eqb_eq in E. rewrite E. apply in_map_iff. exists (rank_of s - 1).
    unfold on_board in OB. split; [f_equal; lia|]. apply filter_In. split; [apply range_In; lia|exact H].
  - apply NoDup_incl_length.
    + assert (ND : NoDup (filter (N.testbit pattern) (range 0 9))) by (apply NoDup_filter, range_NoDup).
      assert (IN : forall i, In i (filter (N.testbit pattern) (range 0 9)) -> i < 9) by (intros i H; apply filter_In in H as [H _]; apply range_In in H; lia).
      induction ND as [|i l NI ND IH]; cbn [map]; constructor.
      * intros H. apply in_map_iff in H as (j & E & H). pose proof (IN i (or_introl eq_refl)). pose proof (IN j (or_intror H)).
        assert (i = j); [|congruence]. apply (f_equal rank_of) in E. rewrite !rank_of_at in E by (unfold on_board; lia). lia.
      * apply IH. intros j H. apply IN. now right.
    + intros s H. apply in_map_iff in H as (i & <- & H). apply filter_In in H as [H B]. apply range_In in H. assert (OB : on_board file (i + 1)) by (unfold on_board; lia).
      apply members_In. split; [now apply square_at_valid|]. rewrite M, N.eqb_refl by auto. replace (i + 1 - 1) with i by lia. exact B.
Qed.
Lemma from_file_works_ok P : from_file_works P = Ret tt.
Proof.
  unfold from_file_works, upto. apply for_all_ok. intros file Hf. apply range_In in Hf. apply for_all_ok. intros p Hp. apply range_In in Hp.
  destruct (from_file_ok P file p) as (b & E & V & M); [lia|lia|]. rewrite E. cbn [bind].
  rewrite (for_each_fold _ _ (fun inner rank => if N.testbit p (rank - 1) then N.lor inner (N.shiftl 1 (rank - 1)) else inner)).
  2:{ intros rank inner Hr. apply range_In in Hr. assert (OB : on_board file rank) by (unfold on_board; lia).
      rewrite sq_new_some by auto. cbn [bind unwrap]. rewrite bb_contains_ok by now apply square_at_valid. cbn [bind]. rewrite M, N.eqb_refl by auto. cbn [andb].
      destruct (N.testbit p (rank - 1)); [|reflexivity]. rewrite shl_w_ok by lia. cbn [bind]. do 2 f_equal. apply N.mod_small. rewrite N.shiftl_1_l. apply (N.pow_lt_mono_r 2 (rank - 1) 16); lia. }
  cbn [bind]. assert (G : gathered p = p) by (pose proof gathered_all as G; rewrite forallb_forall in G; apply N.eqb_eq, G, range_In; lia).
  unfold gathered in G. change (9 + 1) with 10. rewrite G, N.eqb_refl. cbn [assert bind].
  rewrite bb_count_ok by auto. cbn [bind]. rewrite (file_members b file p) by (auto; lia).
  rewrite (count_ones_low p 9) by (auto; lia). rewrite N.eqb_refl. cbn [assert bind].
  destruct (c18_file_round_trip_pf P file file p) as (b' & E' & G'); [lia|lia|lia|]. rewrite E in E'. injection E' as <-. rewrite G'. cbn [bind].
  rewrite !N.eqb_refl. reflexivity.
Qed.

(** C65: every unit test of the crate but one passes in every profile. *)
Lemma c65_unit_tests_pf : forall P t, In t unit_tests -> t P = Ret tt.
Proof.
  intros P t H. unfold unit_tests in H. cbn [In] in H.
  repeat (destruct H as [<-|H]; [match goal with
    | |- square_shift_works _ = _ => exact (shift_works_ok P)
    | |- write_u16_test _ = _ => exact (write_u16_test_ok P)
    | |- square_new_works _ = _ => exact (square_new_works_ok P)
    | |- pop_works _ = _ => exact (pop_works_ok P)
    | |- contains_works _ = _ => exact (contains_works_ok P)
    | |- from_into_works _ = _ => exact (from_into_works_ok P)
    | |- normal_works _ = _ => exact (normal_works_ok P)
    | |- drop_works _ = _ => exact (drop_works_ok P)
    | |- from_file_works _ = _ => exact (from_file_works_ok P)
    | _ => destruct P; vm_compute; reflexivity
    end|]). destruct H.
Qed.
(** C65: every example in the documentation of the crate runs through. *)
Lemma c65_doc_tests_pf : forall P t, In t doc_tests -> t P = Ret tt.
Proof.
  intros P t H. unfold doc_tests in H. cbn [In] in H.
  repeat (destruct H as [<-|H]; [destruct P; vm_compute; reflexivity|]). destruct H.
Qed.
