(** Which of the conditions on the unsafe functions of bitboard.rs are needed, and for what. *)
(*PROPHEAD
Which of the conditions on the unsafe functions are needed, and for what (C79).
From Verif Require Import MColor MPieceKind MPiece MBitboard MResolution SpecBase SpecBoard SpecUnsafe.
*)
From Verif Require Import LBitboard LShift MResolution SpecUnsafe.

Lemma filter_first (f : N -> bool) l t r : NoDup l -> filter f l = t :: r ->
  f t = true /\ In t l /\ filter (fun i => f i && negb (i =? t)) l = r.
Proof.
  induction l as [|a l IH]; cbn [filter]; [discriminate|]. intros D E. inversion D as [|? ? NI D']; subst.
  destruct (f a) eqn:Fa; cbn [andb].
  - injection E as -> <-. rewrite N.eqb_refl. cbn [negb]. split; auto. split; [now left|].
    apply filter_ext_in. intros i I. destruct (N.eqb_spec i t) as [->|]; [tauto|]. apply andb_true_r.
  - destruct (IH D' E) as (A & B & C). split; auto. split; [now right|]. exact C.
Qed.
Lemma seq_first (f : N -> bool) n : forall k t r, filter f (map N.of_nat (seq k n)) = t :: r ->
  forall i, N.of_nat k <= i -> i < t -> f i = false.
Proof.
  induction n as [|n IH]; intros k t r; cbn [seq map filter]; [discriminate|]. destruct (f (N.of_nat k)) eqn:F; intros E i L H.
  - injection E as <- _. lia.
  - destruct (N.eq_dec i (N.of_nat k)) as [->|X]; auto. apply (IH (Datatypes.S k) t r E i); [lia|auto].
Qed.
Lemma range_seq : range 0 128 = map N.of_nat (seq 0 128).
Proof. vm_compute. reflexivity. Qed.

Lemma first_low f t r : filter f (range 0 128) = t :: r -> forall i, 0 <= i -> i < t -> f i = false.
Proof. rewrite range_seq. intros E i H. apply (seq_first f 128 0 t r E). exact H. Qed.

Definition wide (b : bitboard) : Prop := u64_pair (bb0 b) (bb1 b).
Definition num (b : bitboard) : N := bb0 b + 2 ^ 64 * bb1 b.
Lemma set_bits_num b : set_bits b = filter (N.testbit (num b)) (range 0 128).
Proof. unfold set_bits, num. reflexivity. Qed.
Lemma num_bits b i : wide b -> N.testbit (num b) i = if i <? 64 then N.testbit (bb0 b) i else N.testbit (bb1 b) (i - 64).
Proof. intros [A B]. unfold num. rewrite N.add_comm, N.mul_comm. now apply u128_bits. Qed.
Lemma num_lt b : wide b -> num b < 2 ^ 128.
Proof. intros [A B]. unfold num. change (2 ^ 128) with (2 ^ 64 * 2 ^ 64). set (m := 2 ^ 64) in *. nia. Qed.
Definition split_num (r : N) : bitboard := Bitboard (r mod 2 ^ 64) ((r / 2 ^ 64) mod 2 ^ 64).
Lemma from_split P a : bb_from_u128_unchecked P a = Ret (split_num a).
Proof. apply from_u128_ok. Qed.
Lemma two64 : 2 ^ 64 <> 0.
Proof. apply N.pow_nonzero. lia. Qed.
Lemma split_wide r : wide (split_num r).
Proof. split; cbn [split_num bb0 bb1]; apply N.mod_lt, two64. Qed.
Lemma num_split r : r < 2 ^ 128 -> num (split_num r) = r.
Proof.
  intros H. unfold num, split_num. cbn [bb0 bb1]. rewrite (N.mod_small (r / 2 ^ 64)).
  - rewrite N.add_comm. symmetry. apply N.div_mod, two64.
  - apply N.div_lt_upper_bound; [apply two64|exact H].
Qed.
Lemma num_zero b : num b = 0 -> b = bb_empty.
Proof. unfold num. intros H. pose proof two64. apply bb_inj; cbn [bb_empty bb0 bb1]; nia. Qed.

Lemma square_low t : t < 63 -> square_at (t / 9 + 1) (t mod 9 + 1) = Square (t + 1).
Proof.
  intros H. unfold square_at. f_equal. pose proof (N.div_mod t 9 ltac:(lia)). lia.
Qed.
Lemma square_high t : 64 <= t -> square_at ((t - 64) / 9 + 8) ((t - 64) mod 9 + 1) = Square t.
Proof.
  intros H. unfold square_at. f_equal. pose proof (N.div_mod (t - 64) 9 ltac:(lia)). lia.
Qed.

Lemma pop_step P b t b' : t < 128 -> N.testbit (num b) t = true -> (forall i, i < t -> N.testbit (num b) i = false) -> wide b ->
  (sq <- (if t <? 63 then (v <- add_w P 8 (cast_w 8 t) 1;; sq_from_u8_unchecked v) else sq_from_u8_unchecked (cast_w 8 t));;
   (if debug_assertions P then (c <- bb_contains P b sq;; debug_assert P c) else Ret tt);;;
   Ret (b', Some sq)) = (s <- visit P t;; Ret (b' : bitboard, Some s)).
Proof.
  intros It Ft Lo U. unfold cast_w, modulus. change (2 ^ 8) with 256. rewrite (N.mod_small t) by lia.
  pose proof (num_bits b t U) as Bt. rewrite Ft in Bt. symmetry in Bt.
  unfold visit. destruct (N.ltb_spec t 63) as [H|H].
  + rewrite add_w_ok by (change (2 ^ 8) with 256; lia). cbn [bind]. rewrite sq_from_u8_unchecked_ok by lia. cbn [bind].
    rewrite square_low by auto. rewrite bb_contains_ok by (unfold valid_square; cbn [sq_repr]; lia).
    unfold member. cbn [sq_repr]. replace (t + 1 <=? 63) with true by lia. replace (t + 1 - 1) with t by lia.
    replace (t <? 64) with true in Bt by lia. rewrite Bt. now destruct P.
  + destruct (N.eqb_spec t 63) as [->|H1].
    * rewrite sq_from_u8_unchecked_ok by lia. cbn [bind].
      rewrite bb_contains_ok by (unfold valid_square; cbn [sq_repr]; lia).
      assert (Z : member b (Square 63) = false).
      { unfold member. cbn [sq_repr]. replace (63 <=? 63) with true by lia. replace (63 - 1) with 62 by lia.
        pose proof (Lo 62 ltac:(lia)) as X. rewrite num_bits in X by auto.
        now replace (62 <? 64) with true in X by lia. }
      rewrite Z. now destruct P.
    * destruct (N.ltb_spec t 82) as [H2|H2].
      -- rewrite sq_from_u8_unchecked_ok by lia. cbn [bind]. rewrite square_high by lia.
         rewrite bb_contains_ok by (unfold valid_square; cbn [sq_repr]; lia).
         unfold member. cbn [sq_repr]. replace (t <=? 63) with false by lia.
         replace (t <? 64) with false in Bt by lia. rewrite Bt. now destruct P.
      -- unfold sq_from_u8_unchecked, unreachable_if. replace (in_range 1 81 t) with false; [reflexivity|].
         unfold in_range. lia.
Qed.
Lemma bits_of_split n : n < 2 ^ 128 -> set_bits (split_num n) = filter (N.testbit n) (range 0 128).
Proof. intros H. now rewrite set_bits_num, num_split. Qed.
Lemma num_sum b : bb1 b * 2 ^ 64 + bb0 b = num b.
Proof. unfold num. now rewrite N.add_comm, N.mul_comm. Qed.
Lemma less_one n : n <> 0 -> n < 2 ^ 128 -> wrapping_sub_w 128 n 1 = n - 1.
Proof.
  intros H L. unfold wrapping_sub_w, modulus. replace (n + 2 ^ 128 - 1) with (n - 1 + 1 * 2 ^ 128) by lia.
  rewrite N.mod_add by (apply N.pow_nonzero; lia). rewrite N.mod_small; auto. lia.
Qed.
Lemma trailing_is n t : N.testbit n t = true -> (forall i, i < t -> N.testbit n i = false) ->
  trailing_zeros128 n = t /\ forall i, N.testbit (N.land n (n - 1)) i = N.testbit n i && negb (i =? t).
Proof.
  destruct n as [|p]; [rewrite N.bits_0; discriminate|]. intros Ft Lo.
  assert (T : t = ptz p).
  { destruct (N.lt_trichotomy t (ptz p)) as [X|[X|X]]; auto.
    - rewrite (ptz_below _ _ X) in Ft. discriminate.
    - apply Lo in X. rewrite ptz_set in X. discriminate. }
  rewrite trailing_zeros_ptz. split; auto. intros i. rewrite T. apply clear_lowest.
Qed.

(** C79: [pop] on any two words: the lowest bit decides. *)
Lemma c79_pop_pf : forall P b t r, u64_pair (bb0 b) (bb1 b) -> set_bits b = t :: r ->
  exists b', u64_pair (bb0 b') (bb1 b') /\ set_bits b' = r /\ bb_pop P b = (s <- visit P t;; Ret (b', Some s)).
Proof.
  intros P b t r U E. rewrite set_bits_num in E. pose proof (num_lt b U) as L.
  destruct (filter_first _ _ _ _ (range_NoDup 0 128) E) as (Ft & It & Er). apply range_In in It.
  assert (Lo : forall i, i < t -> N.testbit (num b) i = false).
  { intros i Hi. apply (first_low _ _ _ E); [lia|auto]. }
  destruct (trailing_is _ _ Ft Lo) as [T C].
  exists (split_num (N.land (num b) (num b - 1))).
  split; [apply split_wide|]. split.
  - rewrite bits_of_split.
    + rewrite <- Er. apply filter_ext_in. intros i _. apply C.
    + apply lt_pow2_bits. intros i Hi. rewrite C, (bits_high _ 128) by auto. reflexivity.
  - rewrite <- (pop_step P b t _ (proj2 It) Ft Lo U). unfold bb_pop. destruct U as [U0 U1]. rewrite to_u128_ok, num_sum by auto. cbn [bind].
    destruct (N.eqb_spec (num b) 0) as [Z|Z]; [rewrite Z, N.bits_0 in Ft; discriminate|].
    rewrite T, less_one, from_split by auto. cbn [bind]. reflexivity.
Qed.

Lemma no_bits b : wide b -> set_bits b = [] -> b = bb_empty.
Proof.
  intros U E. apply num_zero. apply eq0_bits. intros i. destruct (N.lt_ge_cases i 128) as [L|L].
  - destruct (N.testbit (num b) i) eqn:T; auto. exfalso.
    assert (X : In i (set_bits b)) by (rewrite set_bits_num; apply filter_In; split; auto; apply range_In; lia).
    rewrite E in X. exact X.
  - apply (bits_high _ 128); auto. now apply num_lt.
Qed.
Lemma collect_any P : forall fuel b, wide b -> (length (set_bits b) < fuel)%nat ->
  bb_collect P fuel b = (l <- map_res (visit P) (set_bits b);; Ret (Some (bb_empty, l))).
Proof.
  induction fuel as [|n IH]; intros b U H; [lia|]. cbn [bb_collect]. unfold bb_next.
  destruct (set_bits b) as [|t r] eqn:E.
  - rewrite (no_bits b U E), bb_pop_empty. reflexivity.
  - destruct (c79_pop_pf P b t r U E) as (b' & U' & E' & Q). rewrite Q. cbn [map_res].
    destruct (visit P t) as [s| |]; cbn [bind]; auto. rewrite IH; [|auto|rewrite E'; simpl in H; lia]. rewrite E'.
    destruct (map_res (visit P) r); reflexivity.
Qed.
Lemma filter_short {A} (f : A -> bool) l : (length (filter f l) <= length l)%nat.
Proof. induction l as [|a l IH]; cbn [filter]; auto. destruct (f a); cbn [length]; lia. Qed.
Lemma bits_length b : (length (set_bits b) < 129)%nat.
Proof.
  rewrite set_bits_num. eapply Nat.le_lt_trans; [apply filter_short|]. rewrite range_length.
  change (N.to_nat (128 - 0)) with 128%nat. lia.
Qed.

(** C79: walking through any two words: bit by bit, upwards. *)
Lemma c79_walk_pf : forall P b, u64_pair (bb0 b) (bb1 b) -> walk P b = map_res (visit P) (set_bits b).
Proof.
  intros P b U. unfold walk. rewrite collect_any by (auto using bits_length).
  destruct (map_res (visit P) (set_bits b)); reflexivity.
Qed.

Lemma map_res_app {A B} (f : A -> res B) l m : map_res f (l ++ m) = (x <- map_res f l;; y <- map_res f m;; Ret (x ++ y)).
Proof.
  induction l as [|a l IH]; cbn [app map_res bind]; [destruct (map_res f m); reflexivity|].
  destruct (f a); cbn [bind]; auto. rewrite IH. destruct (map_res f l); cbn [bind]; auto. destruct (map_res f m); reflexivity.
Qed.
Lemma map_res_ret {A B} (f : A -> res B) l : (forall x, In x l -> exists y, f x = Ret y) -> exists m, map_res f l = Ret m.
Proof.
  induction l as [|a l IH]; intros H; cbn [map_res]; [eauto|]. destruct (H a) as [y ->]; [now left|]. cbn [bind].
  destruct IH as [m ->]; [intros x X; apply H; now right|]. cbn [bind]. eauto.
Qed.
Lemma range_parts : range 0 128 = range 0 63 ++ [63] ++ range 64 82 ++ range 82 128.
Proof. vm_compute. reflexivity. Qed.
Lemma visit_low P t : t < 63 \/ 64 <= t < 82 -> exists s, visit P t = Ret s.
Proof.
  intros H. unfold visit. destruct (N.ltb_spec t 63); [eauto|]. destruct (N.eqb_spec t 63); [lia|].
  replace (t <? 82) with true by lia. eauto.
Qed.
Lemma visit_high P t : 82 <= t -> visit P t = UB.
Proof.
  intros H. unfold visit. replace (t <? 63) with false by lia. replace (t =? 63) with false by lia.
  now replace (t <? 82) with false by lia.
Qed.
(** what is above bit 82 is what is above bit 18 of the second word *)
Lemma high_bits b : wide b -> (filter (N.testbit (num b)) (range 82 128) = [] <-> bb1 b < 2 ^ 18).
Proof.
  intros U. split.
  - intros E. apply lt_pow2_bits. intros i Hi. destruct (N.lt_ge_cases i 64) as [L|L].
    + destruct (N.testbit (bb1 b) i) eqn:T; auto. exfalso.
      assert (X : In (i + 64) (filter (N.testbit (num b)) (range 82 128))).
      { apply filter_In. split; [apply range_In; lia|]. rewrite num_bits by auto. replace (i + 64 <? 64) with false by lia.
        now replace (i + 64 - 64) with i by lia. }
      rewrite E in X. exact X.
    + apply (bits_high _ 64); auto. apply U.
  - intros H. destruct (filter (N.testbit (num b)) (range 82 128)) as [|t r] eqn:E; auto. exfalso.
    assert (X : In t (filter (N.testbit (num b)) (range 82 128))) by (rewrite E; now left).
    apply filter_In in X as [I T]. apply range_In in I. rewrite num_bits in T by auto.
    replace (t <? 64) with false in T by lia. rewrite (bits_high _ 18) in T by (auto; lia). discriminate.
Qed.
Lemma bit63 b : wide b -> (N.testbit (num b) 63 = false <-> bb0 b < 2 ^ 63).
Proof.
  intros U. rewrite num_bits by auto. replace (63 <? 64) with true by lia. rewrite lt_pow2_bits. split; [|intros H; apply H; lia].
  intros T i Hi. destruct (N.eq_dec i 63) as [->|]; auto. apply (bits_high _ 64); [apply U|lia].
Qed.
Lemma walk_parts P b : wide b -> exists l m,
  walk P b = (x <- (if bb0 b <? 2 ^ 63 then Ret [] else (s <- visit P 63;; Ret [s]));;
              y <- (if bb1 b <? 2 ^ 18 then Ret [] else UB);; Ret (l ++ x ++ m ++ y)).
Proof.
  intros U. rewrite c79_walk_pf by auto. rewrite set_bits_num, range_parts, !filter_app, !map_res_app.
  destruct (map_res_ret (visit P) (filter (N.testbit (num b)) (range 0 63))) as [l El].
  { intros x X. apply filter_In in X as [X _]. apply range_In in X. apply visit_low. lia. }
  destruct (map_res_ret (visit P) (filter (N.testbit (num b)) (range 64 82))) as [m Em].
  { intros x X. apply filter_In in X as [X _]. apply range_In in X. apply visit_low. lia. }
  exists l, m. rewrite El, Em. cbn [bind]. clear El Em.
  assert (E1 : map_res (visit P) (filter (N.testbit (num b)) [63]) =
               (if bb0 b <? 2 ^ 63 then Ret [] else (s <- visit P 63;; Ret [s]))).
  { cbn [filter]. pose proof (bit63 b U) as B. destruct (N.testbit (num b) 63) eqn:T; destruct (N.ltb_spec (bb0 b) (2 ^ 63)) as [X|X].
    - exfalso. apply B in X. discriminate.
    - cbn [map_res]. destruct (visit P 63); reflexivity.
    - reflexivity.
    - exfalso. apply N.le_ngt in X. apply X. now apply B. }
  rewrite E1. clear E1. destruct (if bb0 b <? 2 ^ 63 then Ret [] else (s <- visit P 63;; Ret [s])) as [x| |]; cbn [bind]; auto.
  pose proof (high_bits b U) as B. destruct (filter (N.testbit (num b)) (range 82 128)) as [|t r] eqn:E.
  - destruct (N.ltb_spec (bb1 b) (2 ^ 18)) as [X|X]; [reflexivity|]. exfalso. apply N.le_ngt in X. apply X. now apply B.
  - destruct (N.ltb_spec (bb1 b) (2 ^ 18)) as [X|X]; [apply B in X; discriminate|]. cbn [map_res].
    rewrite visit_high; [reflexivity|].
    assert (Y : In t (filter (N.testbit (num b)) (range 82 128))) by (rewrite E; now left).
    apply filter_In in Y as [Y _]. apply range_In in Y. lia.
Qed.

(** C79: which words are walked through without undefined behaviour, and which without a panic. *)
Lemma c79_defined_pf : forall P b, u64_pair (bb0 b) (bb1 b) ->
  (walk P b = Panic <-> debug_assertions P = true /\ 2 ^ 63 <= bb0 b) /\
  (walk P b = UB <-> 2 ^ 18 <= bb1 b /\ (debug_assertions P = true -> bb0 b < 2 ^ 63)).
Proof.
  intros P b U. destruct (walk_parts P b U) as (l & m & ->).
  assert (V : visit P 63 = if debug_assertions P then Panic else Ret (square_at 7 9)) by reflexivity. rewrite V.
  destruct (N.ltb_spec (bb0 b) (2 ^ 63)) as [X|X], (N.ltb_spec (bb1 b) (2 ^ 18)) as [Y|Y]; cbn [bind].
  - assert (~ 2 ^ 63 <= bb0 b) by now apply N.lt_nge. assert (~ 2 ^ 18 <= bb1 b) by now apply N.lt_nge.
    repeat split; try discriminate; tauto.
  - assert (~ 2 ^ 63 <= bb0 b) by now apply N.lt_nge. repeat split; try discriminate; tauto.
  - assert (~ bb0 b < 2 ^ 63) by now apply N.le_ngt. assert (~ 2 ^ 18 <= bb1 b) by now apply N.lt_nge.
    destruct (debug_assertions P); cbn [bind]; intuition (discriminate || auto).
  - assert (~ bb0 b < 2 ^ 63) by now apply N.le_ngt.
    destruct (debug_assertions P); cbn [bind]; intuition (discriminate || auto).
Qed.

(** C79: [from_u128_unchecked] with a number that is not a valid representation: undefined behaviour follows exactly from
    the numbers of more than 82 bits; bit 63 alone only leads to a panic in a build with debug assertions. *)
Lemma c79_from_u128_pf : forall P a, a < 2 ^ 128 -> exists b, bb_from_u128_unchecked P a = Ret b /\ bb_to_u128 P b = Ret a /\
  (valid_bb b <-> a < 2 ^ 82 /\ N.testbit a 63 = false) /\
  (debug_assertions P = false -> (walk P b = UB <-> 2 ^ 82 <= a)) /\
  (debug_assertions P = true -> ((exists l, walk P b = Ret l) <-> valid_bb b)).
Proof.
  intros P a H. exists (split_num a). split; [apply from_split|]. pose proof (split_wide a) as U. pose proof (num_split a H) as E.
  split; [destruct U; rewrite to_u128_ok, num_sum, E by auto; reflexivity|].
  assert (B1 : bb1 (split_num a) < 2 ^ 18 <-> a < 2 ^ 82).
  { rewrite <- E at 2. change (2 ^ 82) with (2 ^ 18 * 2 ^ 64). unfold num. destruct U as [U0 _].
    set (m := 2 ^ 64) in *. set (k := 2 ^ 18). split; nia. }
  assert (V : valid_bb (split_num a) <-> a < 2 ^ 82 /\ N.testbit a 63 = false).
  { unfold valid_bb. rewrite B1, <- (bit63 _ U), E. tauto. }
  destruct (c79_defined_pf P (split_num a) U) as (D1 & D2).
  split; [exact V|]. split; intros DA; rewrite DA in D1, D2.
  - rewrite D2, !N.le_ngt, B1. split; [tauto|]. intros X. split; [exact X|discriminate].
  - unfold valid_bb. split.
    + intros [l L]. rewrite L in D1, D2. assert (X : bb0 (split_num a) < 2 ^ 63).
      { apply N.lt_nge. intros X. assert (Z : Ret l = Panic) by (apply D1; auto). discriminate. }
      split; auto. apply N.lt_nge. intros Y. assert (Z : Ret l = UB) by (apply D2; auto). discriminate.
    + intros [X Y]. apply N.lt_nge in X. apply N.lt_nge in Y.
      destruct (walk P (split_num a)) as [l| |]; eauto; exfalso.
      * apply X. now apply D1.
      * apply Y. now apply D2.
Qed.

Lemma land_small x y w : x < 2 ^ w -> N.land x y < 2 ^ w.
Proof. rewrite !lt_pow2_bits. intros H i Hi. rewrite N.land_spec, H by auto. reflexivity. Qed.
Lemma land_small_r x y w : y < 2 ^ w -> N.land x y < 2 ^ w.
Proof. rewrite N.land_comm. apply land_small. Qed.
Lemma shr_small x n w : x < 2 ^ w -> N.shiftr x n < 2 ^ w.
Proof. rewrite !lt_pow2_bits. intros H i Hi. rewrite shr_bits. apply H. lia. Qed.
Lemma cast_small w x v : x < 2 ^ v -> cast_w w x < 2 ^ v.
Proof. rewrite !lt_pow2_bits. intros H i Hi. rewrite cast_bits, H by auto. apply andb_false_r. Qed.
(** the arithmetic that may wrap: it panics or returns, and returns if there are no overflow checks *)
Definition comes {A} (P : profile) (r : res A) (Q : A -> Prop) : Prop :=
  (exists x, r = Ret x /\ Q x) \/ (overflow_checks P = true /\ r = Panic).
Lemma comes_bind {A B} P (r : res A) (f : A -> res B) Q R : comes P r Q -> (forall x, Q x -> comes P (f x) R) -> comes P (bind r f) R.
Proof. intros [(x & -> & H)|[O ->]] F; cbn [bind]; [auto|right; auto]. Qed.
Lemma comes_ret {A} P (x : A) (Q : A -> Prop) : Q x -> comes P (Ret x) Q.
Proof. intros H. left. eauto. Qed.
Lemma shl_comes P w a n : 0 < w -> comes P (shl_w P w a n) (fun v => v < 2 ^ w).
Proof.
  intros H. unfold shl_w, modulus. destruct (n <? w); [|destruct (overflow_checks P) eqn:O; [right; auto|]];
  (apply comes_ret; apply N.mod_lt, N.pow_nonzero; lia).
Qed.
Lemma shr_comes P w a n v : a < 2 ^ v -> comes P (shr_w P w a n) (fun x => x < 2 ^ v).
Proof. intros H. unfold shr_w. destruct (n <? w); [|destruct (overflow_checks P) eqn:O; [right; auto|]]; apply comes_ret; now apply shr_small. Qed.
Lemma sub_comes P w a b : comes P (sub_w P w a b) (fun _ => True).
Proof. unfold sub_w. destruct (b <=? a); [|destruct (overflow_checks P) eqn:O; [right; auto|]]; now apply comes_ret. Qed.
Lemma mul_comes P w a b : comes P (mul_w P w a b) (fun _ => True).
Proof. unfold mul_w. destruct (a * b <? modulus w); [|destruct (overflow_checks P) eqn:O; [right; auto|]]; now apply comes_ret. Qed.
Lemma comes_release {A} (r : res A) Q : comes Release r Q -> exists x, r = Ret x /\ Q x.
Proof. intros [H|[H _]]; [exact H|discriminate]. Qed.
Lemma comes_off {A} P (r : res A) Q : overflow_checks P = false -> comes P r Q -> exists x, r = Ret x /\ Q x.
Proof. intros O [H|[H _]]; [exact H|congruence]. Qed.
Lemma comes_any {A} P (r : res A) Q : comes P r Q -> r = Panic \/ exists x, r = Ret x /\ Q x.
Proof. intros [H|[_ H]]; auto. Qed.
Ltac comes_step := eapply comes_bind; [first [apply sub_comes|apply mul_comes|eapply shr_comes; eassumption|apply shl_comes; lia]|];
  cbv beta; intros ? ?.

(** C79: a shift by more than nine squares panics in a build with debug assertions; with overflow checks alone [shift_down] and
    [shift_up] still do. With neither, [shift_up], [shift_left] and [shift_right] make valid boards of valid boards. *)
Lemma c79_shift_outside_pf : forall P b delta, valid_bb b -> 9 < delta ->
  (P <> Release -> bb_shift_down P b delta = Panic /\ bb_shift_up P b delta = Panic) /\
  (debug_assertions P = true -> bb_shift_left P b delta = Panic /\ bb_shift_right P b delta = Panic) /\
  (debug_assertions P = false ->
   (bb_shift_left P b delta = Panic <-> overflow_checks P = true /\ 14 < delta) /\
   (bb_shift_right P b delta = Panic <-> overflow_checks P = true /\ 14 < delta) /\
   (bb_shift_left P b delta = Panic \/ exists l, bb_shift_left P b delta = Ret l /\ valid_bb l) /\
   (bb_shift_right P b delta = Panic \/ exists r, bb_shift_right P b delta = Ret r /\ valid_bb r)) /\
  (exists u, bb_shift_up Release b delta = Ret u /\ valid_bb u) /\
  (exists d, bb_shift_down Release b delta = Ret d /\ u64_pair (bb0 d) (bb1 d)).
Proof.
  intros P b delta [V0 V1] H.
  assert (X9 : delta <=? 9 = false) by lia. assert (X1 : delta <=? 1 = false) by lia. assert (X7 : delta <=? 7 = false) by lia.
  assert (D : debug_assertions P = true -> debug_assert P (delta <=? 9) = Panic) by (intros X; unfold debug_assert; rewrite X, X9; reflexivity).
  assert (E : debug_assertions P = false -> debug_assert P (delta <=? 9) = Ret tt) by (intros X; unfold debug_assert; rewrite X; reflexivity).
  assert (S : overflow_checks P = true -> sub_w P 8 9 delta = Panic).
  { intros X. unfold sub_w. replace (delta <=? 9) with false. now rewrite X. }
  split; [|split; [|split; [|split]]].
  - intros N. destruct (debug_assertions P) eqn:DA.
    + split; [unfold bb_shift_down|unfold bb_shift_up]; rewrite D by auto; reflexivity.
    + assert (OC : overflow_checks P = true) by (destruct P; auto; discriminate).
      split; [unfold bb_shift_down|unfold bb_shift_up]; rewrite E by auto; cbn [bind]; rewrite S by auto; reflexivity.
  - intros DA. split; [unfold bb_shift_left|unfold bb_shift_right]; rewrite D by auto; reflexivity.
  - intros DA. unfold bb_shift_left, bb_shift_right. rewrite E by auto. cbn [bind]. rewrite X1, X7.
    assert (O : forall (f : N -> N -> res N) (g : N -> bitboard), (forall m, f m 0 = Panic <-> overflow_checks P = true /\ 64 <= m) ->
      (n <- mul_w P 8 9 delta;; m <- sub_w P 8 n 63;; x <- f m 0;; Ret (g x)) = Panic <-> overflow_checks P = true /\ 14 < delta).
    { intros f g F. unfold mul_w, sub_w, modulus. change (2 ^ 8) with 256.
      destruct (overflow_checks P) eqn:OC.
      - destruct (N.ltb_spec (9 * delta) 256) as [L|L]; cbn [bind].
        + replace (63 <=? 9 * delta) with true by lia. cbn [bind]. split.
          * intros X. split; auto. assert (Y : f (9 * delta - 63) 0 = Panic) by (destruct (f (9 * delta - 63) 0); cbn [bind] in X; congruence).
            apply F in Y. lia.
          * intros [_ X]. assert (Y : f (9 * delta - 63) 0 = Panic) by (apply F; split; auto; lia). now rewrite Y.
        + split; [intros _; split; auto; lia|auto].
      - split; [|intros [X _]; discriminate]. intros X. exfalso.
        destruct (9 * delta <? 256); cbn [bind] in X;
        match type of X with context [63 <=? ?n] => destruct (63 <=? n); cbn [bind] in X end;
        match type of X with context [f ?m 0] => destruct (f m 0) eqn:Y; cbn [bind] in X; try discriminate; apply F in Y as [Y _]; discriminate end. }
    split; [|split; [|split]].
    + apply (O (fun m _ => shl_w P 64 (bb0 b) m) (fun x => Bitboard 0 (N.land x MASK1))). intros m. unfold shl_w.
      destruct (N.ltb_spec m 64) as [L|L]; [split; [discriminate|lia]|]. destruct (overflow_checks P); split; auto; intuition discriminate.
    + apply (O (fun m _ => shr_w P 64 (bb1 b) m) (fun x => Bitboard x 0)). intros m. unfold shr_w.
      destruct (N.ltb_spec m 64) as [L|L]; [split; [discriminate|lia]|]. destruct (overflow_checks P); split; auto; intuition discriminate.
    + apply (comes_any P). do 3 comes_step. apply comes_ret. split; cbn [bb0 bb1]; [reflexivity|]. apply land_small_r. reflexivity.
    + apply (comes_any P). do 3 comes_step. apply comes_ret. split; cbn [bb0 bb1]; [|reflexivity]. eapply N.lt_trans; [eassumption|reflexivity].
  - apply comes_release. unfold bb_shift_up. cbn [debug_assert debug_assertions bind]. pose proof (cast_small 32 _ _ V1) as V2.
    do 5 comes_step. apply comes_ret. split; cbn [bb0 bb1]; now apply land_small.
  - apply comes_release. unfold bb_shift_down. cbn [debug_assert debug_assertions bind].
    assert (T : 9241421688590303744 < 2 ^ 64) by reflexivity.
    do 5 comes_step. apply comes_ret. split; cbn [bb0 bb1]; apply land_small; auto. eapply N.lt_trans; [eassumption|reflexivity].
Qed.

Definition down_bad (delta : N) : bool :=
  match bb_shift_down Release (Bitboard MASK0 MASK1) delta with Ret b => (2 ^ 18 <=? bb1 b) && (bb0 b <? 2 ^ 64) && (bb1 b <? 2 ^ 64) | _ => false end.
(** C79: [shift_down] by 10 to 27 squares makes a board of a valid board whose iteration is undefined, in a build without overflow checks and
    debug assertions (in the others it panics, see above). *)
Lemma c79_shift_down_pf : forall delta, 9 < delta < 28 ->
  exists b d, valid_bb b /\ bb_shift_down Release b delta = Ret d /\ walk Release d = UB.
Proof.
  intros delta H. exists (Bitboard MASK0 MASK1).
  assert (B : down_bad delta = true).
  { assert (X : forallb down_bad (range 10 28) = true) by (vm_compute; reflexivity).
    rewrite forallb_forall in X. apply X. apply range_In. lia. }
  unfold down_bad in B. destruct (bb_shift_down Release (Bitboard MASK0 MASK1) delta) as [d| |]; try discriminate.
  exists d. split; [split; reflexivity|]. split; [reflexivity|]. apply andb_prop in B as [B B2]. apply andb_prop in B as [B0 B1].
  apply N.leb_le in B0. apply N.ltb_lt in B1. apply N.ltb_lt in B2. apply c79_defined_pf; [split; auto|]. split; [auto|discriminate].
Qed.

(** C79: [from_file_unchecked] with a pattern of more than nine bits: on file 9 the board that it makes is one whose
    iteration is undefined; on file 7 bit 63 is set if bit 9 of the pattern is; on the other files the board is valid. *)
Lemma c79_from_file_pf : forall P file pattern, 1 <= file <= 9 -> pattern < 65536 -> exists b,
  bb_from_file_unchecked P file pattern = Ret b /\ u64_pair (bb0 b) (bb1 b) /\
  (valid_bb b <-> ~ (file = 7 /\ N.testbit pattern 9 = true) /\ ~ (file = 9 /\ 512 <= pattern)) /\
  (walk P b = UB <-> file = 9 /\ 512 <= pattern).
Proof.
  intros P file pattern F Hp. change 65536 with (2 ^ 16) in Hp.
  set (n := if file <=? 7 then (file - 1) * 9 else (file - 8) * 9).
  set (v := N.shiftl pattern n mod 2 ^ 64).
  set (b := if file <=? 7 then Bitboard v 0 else Bitboard 0 v).
  assert (E : bb_from_file_unchecked P file pattern = Ret b).
  { unfold bb_from_file_unchecked, b, v, n. destruct (N.leb_spec file 7).
    - rewrite sub_w_ok by lia. cbn [bind]. rewrite mul_w_ok by (change (2 ^ 8) with 256; lia). cbn [bind].
      rewrite shl_w_ok by lia. reflexivity.
    - rewrite sub_w_ok by lia. cbn [bind]. rewrite mul_w_ok by (change (2 ^ 8) with 256; lia). cbn [bind].
      rewrite shl_w_ok by lia. reflexivity. }
  exists b. split; [exact E|]. clear E.
  assert (Bits : forall i, N.testbit v i = (i <? 64) && (n <=? i) && N.testbit pattern (i - n)) by (intros i; apply shl_bits).
  assert (Lv : v < 2 ^ 64) by (apply N.mod_lt, two64).
  assert (U : u64_pair (bb0 b) (bb1 b)).
  { unfold b. destruct (file <=? 7); split; cbn [bb0 bb1]; auto; reflexivity. }
  assert (P9 : 512 <= pattern <-> ~ pattern < 2 ^ 9) by (change (2 ^ 9) with 512; lia).
  assert (B1 : bb1 b < 2 ^ 18 <-> ~ (file = 9 /\ 512 <= pattern)).
  { unfold b, n in *. destruct (N.leb_spec file 7) as [L|L]; cbn [bb1].
    - split; [lia|reflexivity].
    - assert (file = 8 \/ file = 9) as [->| ->] by lia.
      + split; [lia|]. intros _. apply lt_pow2_bits. intros i Hi. rewrite Bits. rewrite (bits_high pattern 16) by (auto; lia).
        apply andb_false_r.
      + rewrite P9. change ((9 - 8) * 9) with 9 in *. split.
        * intros X [_ Y]. apply Y. apply lt_pow2_bits. intros i Hi. destruct (N.lt_ge_cases i 16) as [I|I]; [|now apply (bits_high _ 16)].
          rewrite lt_pow2_bits in X. specialize (X (i + 9) ltac:(lia)). rewrite Bits in X.
          replace (i + 9 <? 64) with true in X by lia. replace (9 <=? i + 9) with true in X by lia.
          now replace (i + 9 - 9) with i in X by lia.
        * intros X. assert (Y : pattern < 2 ^ 9) by (destruct (N.lt_ge_cases pattern (2 ^ 9)) as [Y|Y]; auto; exfalso; apply X; split; auto; now apply N.le_ngt).
          apply lt_pow2_bits. intros i Hi. rewrite Bits. rewrite (bits_high pattern 9) by (auto; lia). apply andb_false_r. }
  assert (B0 : bb0 b < 2 ^ 63 <-> ~ (file = 7 /\ N.testbit pattern 9 = true)).
  { unfold b, n in *. destruct (N.leb_spec file 7) as [L|L]; cbn [bb0].
    - assert (X : v < 2 ^ 63 <-> N.testbit v 63 = false).
      { rewrite lt_pow2_bits. split; [intros X; apply X; lia|]. intros T i Hi. destruct (N.eq_dec i 63) as [->|]; auto.
        apply (bits_high _ 64); [auto|lia]. }
      rewrite X, Bits. replace ((63 <? 64) && ((file - 1) * 9 <=? 63)) with true by lia. cbn [andb].
      destruct (N.eq_dec file 7) as [->|NE].
      + change (63 - (7 - 1) * 9) with 9. destruct (N.testbit pattern 9); split; intros Y; auto.
        * discriminate.
        * exfalso. apply Y. auto.
        * intros [_ Z]. discriminate.
      + rewrite (bits_high pattern 16) by (auto; lia). split; [intros _ [Y _]; auto|auto].
    - split; [lia|reflexivity]. }
  split; [exact U|]. split.
  - unfold valid_bb. rewrite B0, B1. tauto.
  - destruct (c79_defined_pf P b U) as (_ & R). rewrite R, N.le_ngt, B1.
    split; [|intros X; split; [tauto|]; intros _; apply B0; intros [Y _]; destruct X; congruence]. intros [X _]. assert (D : file = 9 \/ file <> 9) by lia. destruct D as [->|D].
    + split; auto. destruct (N.lt_ge_cases pattern 512) as [Y|Y]; auto. exfalso. apply X. lia.
    + exfalso. apply X. intros [Y _]. auto.
Qed.

(** C79: on a file that does not exist [from_file_unchecked] and [get_file_unchecked] panic in a build with overflow checks, except for the
    numbers 10 to 15; without them they return. No number of a file makes [get_file_unchecked] undefined or its result larger
    than nine bits. With the numbers 10 to 14 and a pattern that is not empty [from_file_unchecked] makes a board whose
    iteration is undefined in every build. *)
Lemma c79_file_outside_pf : forall P b file pattern, u64_pair (bb0 b) (bb1 b) -> file < 256 -> ~ (1 <= file <= 9) ->
  (bb_get_file_unchecked P b file = Panic \/ exists v, bb_get_file_unchecked P b file = Ret v /\ v < 512) /\
  (bb_from_file_unchecked P file pattern = Panic \/ exists d, bb_from_file_unchecked P file pattern = Ret d /\ u64_pair (bb0 d) (bb1 d)) /\
  (bb_get_file_unchecked P b file = Panic <-> overflow_checks P = true /\ (file = 0 \/ 16 <= file)) /\
  (bb_from_file_unchecked P file pattern = Panic <-> overflow_checks P = true /\ (file = 0 \/ 16 <= file)) /\
  (10 <= file <= 15 -> valid_bb b -> bb_get_file_unchecked P b file = Ret 0) /\
  (10 <= file <= 14 -> 0 < pattern < 512 -> exists d, bb_from_file_unchecked P file pattern = Ret d /\ walk P d = UB).
Proof.
  intros P b file pattern [U0 U1] H NF.
  assert (CG : comes P (bb_get_file_unchecked P b file) (fun v => v < 512)).
  { unfold bb_get_file_unchecked. eapply comes_bind.
    - instantiate (1 := fun _ => True). destruct (file <=? 7); do 2 comes_step.
      + destruct (shr_comes P 64 _ x0 _ U0) as [(v & -> & _)|X]; [now apply comes_ret|now right].
      + destruct (shr_comes P 64 _ x0 _ U1) as [(v & -> & _)|X]; [now apply comes_ret|now right].
    - intros x _. apply comes_ret. change 512 with (2 ^ 9). apply land_small_r. reflexivity. }
  assert (CF : comes P (bb_from_file_unchecked P file pattern) (fun d => u64_pair (bb0 d) (bb1 d))).
  { unfold bb_from_file_unchecked. destruct (file <=? 7); do 3 comes_step; apply comes_ret; split; cbn [bb0 bb1]; auto; reflexivity. }
  assert (Z : overflow_checks P = true -> file = 0 \/ 16 <= file -> bb_get_file_unchecked P b file = Panic /\ bb_from_file_unchecked P file pattern = Panic).
  { intros OC [->|L].
    - unfold bb_get_file_unchecked, bb_from_file_unchecked, sub_w. rewrite OC. split; reflexivity.
    - unfold bb_get_file_unchecked, bb_from_file_unchecked.
      replace (file <=? 7) with false by lia. rewrite sub_w_ok by lia. cbn [bind]. unfold mul_w, modulus. change (2 ^ 8) with 256. rewrite OC.
      destruct (N.ltb_spec ((file - 8) * 9) 256); cbn [bind]; auto. unfold shr_w, shl_w.
      replace ((file - 8) * 9 <? 64) with false by lia. rewrite OC. auto. }
  assert (R : 10 <= file <= 15 -> exists x y, bb_get_file_unchecked P b file = Ret x /\ bb_from_file_unchecked P file pattern = Ret y).
  { intros L. unfold bb_get_file_unchecked, bb_from_file_unchecked. replace (file <=? 7) with false by lia.
    rewrite sub_w_ok by lia. cbn [bind]. rewrite mul_w_ok by (change (2 ^ 8) with 256; lia). cbn [bind]. rewrite shr_w_ok, shl_w_ok by lia. cbn [bind].
    eauto. }
  split; [now apply (comes_any P)|]. split; [now apply (comes_any P)|]. split; [|split; [|split]].
  - split; [|intros [OC F]; now apply Z]. intros X. destruct CG as [(v & Y & _)|[OC _]]; [congruence|]. split; auto.
    assert (D : file = 0 \/ 16 <= file \/ 10 <= file <= 15) by lia. destruct D as [D|[D|D]]; auto. destruct (R D) as (x & y & Y & _). congruence.
  - split; [|intros [OC F]; now apply Z]. intros X. destruct CF as [(v & Y & _)|[OC _]]; [congruence|]. split; auto.
    assert (D : file = 0 \/ 16 <= file \/ 10 <= file <= 15) by lia. destruct D as [D|[D|D]]; auto. destruct (R D) as (x & y & _ & Y). congruence.
  - intros L [V0 V1]. unfold bb_get_file_unchecked. replace (file <=? 7) with false by lia.
    rewrite sub_w_ok by lia. cbn [bind]. rewrite mul_w_ok by (change (2 ^ 8) with 256; lia). cbn [bind]. rewrite shr_w_ok by lia. cbn [bind].
    replace (N.shiftr (bb1 b) ((file - 8) * 9)) with 0; [reflexivity|]. symmetry. apply eq0_bits. intros i. rewrite shr_bits.
    apply (bits_high _ 18); auto. lia.
  - intros L Hp. unfold bb_from_file_unchecked. replace (file <=? 7) with false by lia.
    rewrite sub_w_ok by lia. cbn [bind]. rewrite mul_w_ok by (change (2 ^ 8) with 256; lia). cbn [bind]. rewrite shl_w_ok by lia. cbn [bind].
    eexists. split; [reflexivity|].
    assert (U : u64_pair (bb0 (Bitboard 0 (N.shiftl pattern ((file - 8) * 9) mod 2 ^ 64))) (bb1 (Bitboard 0 (N.shiftl pattern ((file - 8) * 9) mod 2 ^ 64)))).
    { split; cbn [bb0 bb1]; [reflexivity|apply N.mod_lt, two64]. }
    assert (Big : 2 ^ 18 <= N.shiftl pattern ((file - 8) * 9) mod 2 ^ 64).
    { apply N.le_ngt. intros X. rewrite lt_pow2_bits in X. assert (PZ : pattern = 0); [|lia]. apply eq0_bits. intros i.
      destruct (N.lt_ge_cases i 9) as [I|I].
      - specialize (X (i + (file - 8) * 9) ltac:(lia)). rewrite shl_bits in X.
        replace (i + (file - 8) * 9 <? 64) with true in X by lia. replace ((file - 8) * 9 <=? i + (file - 8) * 9) with true in X by lia.
        now replace (i + (file - 8) * 9 - (file - 8) * 9) with i in X by lia.
      - apply (bits_high _ 9); auto. change (2 ^ 9) with 512. lia. }
    destruct (c79_defined_pf P _ U) as (_ & D). apply D. split; [exact Big|reflexivity].
Qed.

(** C79: [get_file_unchecked] on a file of the board returns nine bits for any two words. *)
Lemma c79_get_file_pf : forall P b file, u64_pair (bb0 b) (bb1 b) -> 1 <= file <= 9 ->
  exists v, bb_get_file_unchecked P b file = Ret v /\ v < 512 /\
  forall r, 1 <= r <= 9 -> N.testbit v (r - 1) = true <->
    In (if file <=? 7 then 9 * (file - 1) + (r - 1) else 64 + 9 * (file - 8) + (r - 1)) (set_bits b).
Proof.
  intros P b file U F. pose proof U as [U0 U1]. unfold bb_get_file_unchecked.
  assert (G : forall w, N.land (cast_w 16 w) 511 < 512) by (intros w; change 512 with (2 ^ 9); apply land_small_r; reflexivity).
  assert (K : forall w r, 1 <= r <= 9 -> N.testbit (N.land (cast_w 16 w) 511) (r - 1) = N.testbit w (r - 1)).
  { intros w r R. rewrite N.land_spec, cast_bits. replace (r - 1 <? 16) with true by lia. change 511 with (2 ^ 9 - 1).
    rewrite ones_bits. replace (r - 1 <? 9) with true by lia. cbn [andb]. apply andb_true_r. }
  assert (I : forall t, t < 128 -> In t (set_bits b) <-> N.testbit (num b) t = true).
  { intros t T. rewrite set_bits_num, filter_In, range_In. split; [tauto|]. intros X. split; [lia|auto]. }
  destruct (N.leb_spec file 7) as [L|L]; rewrite sub_w_ok by lia; cbn [bind]; rewrite mul_w_ok by (change (2 ^ 8) with 256; lia); cbn [bind];
    rewrite shr_w_ok by lia; cbn [bind]; eexists; (split; [reflexivity|]); (split; [apply G|]); intros r R;
    rewrite K, shr_bits, I, num_bits by (auto; lia).
  - replace (9 * (file - 1) + (r - 1) <? 64) with true by lia. now replace (9 * (file - 1) + (r - 1)) with (r - 1 + (file - 1) * 9) by lia.
  - replace (64 + 9 * (file - 8) + (r - 1) <? 64) with false by lia.
    now replace (64 + 9 * (file - 8) + (r - 1) - 64) with (r - 1 + (file - 8) * 9) by lia.
Qed.

Lemma bs_from_ok P a : bs_from_u128_unchecked P a = Ret (ByteSwapped (a mod 2 ^ 64) ((a / 2 ^ 64) mod 2 ^ 64)).
Proof. unfold bs_from_u128_unchecked. rewrite shr_w_ok by lia. cbn [bind]. now rewrite N.shiftr_div_pow2. Qed.
Lemma some_high x w v : x < 2 ^ v -> (2 ^ w <= x <-> exists i, w <= i < v /\ N.testbit x i = true).
Proof.
  intros H. split.
  - intros L. destruct (existsb (N.testbit x) (range w v)) eqn:E.
    + apply existsb_exists in E as (i & I & T). apply range_In in I. eauto.
    + exfalso. apply N.le_ngt in L. apply L. apply lt_pow2_bits. intros i Hi. destruct (N.lt_ge_cases i v) as [I|I]; [|now apply (bits_high _ v)].
      destruct (N.testbit x i) eqn:T; auto. assert (X : existsb (N.testbit x) (range w v) = true); [|congruence].
      apply existsb_exists. exists i. split; auto. apply range_In. lia.
  - intros (i & [L _] & T). apply N.le_ngt. intros X. rewrite (bits_high _ w) in T by auto. discriminate.
Qed.
(** C79: [ByteSwappedBitboard::from_u128_unchecked] with any number: what it makes swaps to a board whose iteration is
    undefined (without debug assertions) exactly if one of the bits 0 to 39 or 42 to 47 is set. *)
Lemma c79_swapped_pf : forall P a, a < 2 ^ 128 -> exists s, bs_from_u128_unchecked P a = Ret s /\ bs_to_u128 P s = Ret a /\
  (debug_assertions P = false -> (walk P (bs_swap_bytes s) = UB <-> exists i, (i < 40 \/ 42 <= i < 48) /\ N.testbit a i = true)) /\
  (valid_bb (bs_swap_bytes s) <-> forall i, i < 40 \/ 42 <= i < 48 \/ i = 71 -> N.testbit a i = false).
Proof.
  intros P a H. eexists. split; [apply bs_from_ok|].
  split; [unfold bs_to_u128; cbn [bs0 bs1]; change (bb_to_u128 P (split_num a) = Ret a); destruct (split_wide a); rewrite to_u128_ok, num_sum, num_split by auto; reflexivity|].
  unfold bs_swap_bytes. cbn [bs0 bs1].
  set (x := a mod 2 ^ 64). set (y := (a / 2 ^ 64) mod 2 ^ 64).
  assert (X : forall i, i < 64 -> N.testbit x i = N.testbit a i) by (intros i I; unfold x; now rewrite N.mod_pow2_bits_low).
  assert (Y : forall i, i < 64 -> N.testbit y i = N.testbit a (i + 64)).
  { intros i I. unfold y. rewrite N.mod_pow2_bits_low by auto. rewrite <- N.shiftr_div_pow2. apply shr_bits. }
  assert (U : u64_pair (bb0 (Bitboard (swap_bytes64 y) (swap_bytes64 x))) (bb1 (Bitboard (swap_bytes64 y) (swap_bytes64 x))))
    by (split; apply swap_bytes_u64).
  assert (B1 : 2 ^ 18 <= swap_bytes64 x <-> exists i, (i < 40 \/ 42 <= i < 48) /\ N.testbit a i = true).
  { rewrite (some_high _ 18 64) by apply swap_bytes_u64. split.
    - intros (i & I & T). rewrite swap_bytes_bits in T. replace (i <? 64) with true in T by lia. cbn [andb] in T.
      exists (8 * (7 - i / 8) + i mod 8). rewrite <- X by lia. split; [lia|auto].
    - intros (i & I & T). exists (8 * (7 - i / 8) + i mod 8). split; [lia|]. rewrite swap_bytes_bits.
      replace (8 * (7 - i / 8) + i mod 8 <? 64) with true by lia. cbn [andb]. rewrite X by lia. rewrite <- T. f_equal. lia. }
  assert (B0 : swap_bytes64 y < 2 ^ 63 <-> N.testbit a 71 = false).
  { replace (N.testbit a 71) with (N.testbit (swap_bytes64 y) 63).
    2:{ rewrite swap_bytes_bits. replace (63 <? 64) with true by lia. cbn [andb]. rewrite Y by lia. reflexivity. }
    rewrite lt_pow2_bits. split; [intros Z; apply Z; lia|]. intros Z i Hi. destruct (N.eq_dec i 63) as [->|]; auto.
    apply (bits_high _ 64); [apply swap_bytes_u64|lia]. }
  destruct (c79_defined_pf P _ U) as (_ & R). cbn [bb0 bb1] in R.
  split; [intros DA; rewrite R, DA, B1; split; [tauto|intros Q; split; [exact Q|discriminate]]|].
  unfold valid_bb. cbn [bb0 bb1]. rewrite B0. split.
  - intros [Z0 Z1] i [I|[I| ->]]; auto; destruct (N.testbit a i) eqn:T; auto; exfalso; apply N.lt_nge in Z1; apply Z1; apply B1; eauto.
  - intros Z. split; [apply Z; auto|]. apply N.lt_nge. intros L. apply B1 in L as (i & I & T). rewrite Z in T by tauto. discriminate.
Qed.

Definition is_UB {A} (r : res A) : bool := match r with UB => true | _ => false end.
Lemma is_UB_iff {A} (r : res A) : is_UB r = true <-> r = UB.
Proof. destruct r; cbn; split; congruence. Qed.
(** C79: the unchecked conversions from numbers: undefined exactly outside of the documented ranges. For [Piece] the conversion itself is undefined
    for 0 alone; of the other numbers without a piece those ending in the hexadecimal digits 0 and F have undefined parts and the rest look
    like White's pieces. *)
Lemma c79_numbers_pf : forall v, v < 256 ->
  (sq_from_u8_unchecked v = UB <-> ~ 1 <= v <= 81) /\ (pk_from_u8_unchecked v = UB <-> ~ 1 <= v <= 14) /\
  (gr_from_u8_unchecked v = UB <-> ~ 1 <= v <= 5) /\ (imk_from_u8_unchecked v = UB <-> ~ 1 <= v <= 7) /\
  (piece_from_u8_unchecked v = UB <-> v = 0) /\
  forall p, piece_from_u8_unchecked v = Ret p ->
    (piece_to_parts p = UB <-> v mod 16 = 0 \/ v mod 16 = 15) /\
    (31 <= v -> 1 <= v mod 16 <= 14 -> piece_to_parts p = piece_to_parts (Piece (v mod 16 + 16)) /\ ~ valid_piece p).
Proof.
  intros v H.
  set (ok v := Bool.eqb (is_UB (sq_from_u8_unchecked v)) (negb (in_range 1 81 v)) && Bool.eqb (is_UB (pk_from_u8_unchecked v)) (negb (in_range 1 14 v)) &&
    Bool.eqb (is_UB (gr_from_u8_unchecked v)) (negb (in_range 1 5 v)) && Bool.eqb (is_UB (imk_from_u8_unchecked v)) (negb (in_range 1 7 v)) &&
    Bool.eqb (is_UB (piece_to_parts (Piece v))) ((v mod 16 =? 0) || (v mod 16 =? 15))).
  assert (X : ok v = true).
  { assert (A : forallb ok (range 0 256) = true) by (vm_compute; reflexivity). rewrite forallb_forall in A. apply A. apply range_In. lia. }
  unfold ok in X. clear ok. apply andb_prop in X as [X X5]. apply andb_prop in X as [X X4]. apply andb_prop in X as [X X3]. apply andb_prop in X as [X1 X2].
  assert (K : forall lo hi, negb (in_range lo hi v) = true <-> ~ lo <= v <= hi).
  { intros lo hi. rewrite negb_true_iff, <- not_true_iff_false, in_range_iff. tauto. }
  assert (E : forall b c, Bool.eqb b c = true -> (b = true <-> c = true)) by (intros [] []; cbn; intuition congruence).
  pose proof (E _ _ X1) as Y1. pose proof (E _ _ X2) as Y2. pose proof (E _ _ X3) as Y3. pose proof (E _ _ X4) as Y4. pose proof (E _ _ X5) as Y5.
  clear E X1 X2 X3 X4 X5. rename Y1 into X1, Y2 into X2, Y3 into X3, Y4 into X4, Y5 into X5.
  rewrite is_UB_iff, K in X1. rewrite is_UB_iff, K in X2. rewrite is_UB_iff, K in X3. rewrite is_UB_iff, K in X4. rewrite is_UB_iff in X5. rewrite orb_true_iff, !N.eqb_eq in X5. clear K.
  do 4 (split; [assumption|]).
  unfold piece_from_u8_unchecked, nonzero_new_unchecked. split.
  - destruct (N.eqb_spec v 0); cbn [bind]; split; congruence.
  - intros p Q. destruct (N.eqb_spec v 0); cbn [bind] in Q; [discriminate|]. injection Q as <-. split; [assumption|].
    intros L M. split.
    + unfold piece_to_parts. cbn [piece_repr]. change 15 with (N.ones 4). rewrite !N.land_ones. change (2 ^ 4) with 16.
      replace ((v mod 16 + 16) mod 16) with (v mod 16) by (rewrite <- N.add_mod_idemp_r by lia; rewrite N.mod_same, N.add_0_r, N.mod_mod by lia; reflexivity).
      replace (16 <=? v) with true by lia. now replace (16 <=? v mod 16 + 16) with true by lia.
    + unfold valid_piece. cbn [piece_repr]. lia.
Qed.
