(*PROPHEAD
Property theorems C85: a bitboard as an iterator
*)
(** Proofs of the property theorems on bitboards as iterators (restated in Prop_Iter.v). *)
From Verif Require Import LBitboard TBitboard.
From Verif Require Export SpecIter.

(** ** The squares of a bitboard *)
Lemma ascending_unique : forall l l', ascending l -> ascending l' -> (forall s, In s l <-> In s l') -> l = l'.
Proof.
  induction l as [|x l IH]; intros [|y l'] A A' Q; [reflexivity|exfalso; apply (Q y); now left|exfalso; apply (Q x); now left|].
  destruct A as [A1 A2], A' as [A1' A2']. assert (x = y).
  { destruct (proj1 (Q x) (or_introl eq_refl)) as [<-|X]; [reflexivity|]. destruct (proj2 (Q y) (or_introl eq_refl)) as [<-|Y]; [reflexivity|]. specialize (A1 _ Y). specialize (A1' _ X). lia. }
  subst y. f_equal. apply IH; auto. intros s. split; intros I.
  - destruct (proj1 (Q s) (or_intror I)) as [<-|]; auto. specialize (A1 _ I). lia.
  - destruct (proj2 (Q s) (or_intror I)) as [<-|]; auto. specialize (A1' _ I). lia.
Qed.
Lemma members_listing P b : listing P b (members b).
Proof.
  split; [apply ascending_filter, all_squares_ascending|]. intros s. rewrite members_In. split; intros [Vs E]; split; auto; [now rewrite bb_contains_ok, E|].
  rewrite bb_contains_ok in E by auto. congruence.
Qed.
Lemma listing_members P b l : listing P b l -> l = members b.
Proof. intros [A Q]. destruct (members_listing P b) as [A' Q']. apply ascending_unique; auto. intros s. rewrite Q, Q'. tauto. Qed.

(** ** Iterators that yield a list *)
(** [R t l]: in state [t] the elements of [l] are to come, and then [None] for ever *)
Definition yields {T A : Type} (next : iter T A) (R : T -> list A -> Prop) : Prop :=
  (forall t, R t [] -> exists t', next t = Ret (t', None) /\ R t' []) /\ (forall t x l, R t (x :: l) -> exists t', next t = Ret (t', Some x) /\ R t' l).
Definition bb_run (b : bitboard) (l : list square) : Prop := valid_bb b /\ l = members b.
Lemma members_nil b : valid_bb b -> members b = [] -> b = bb_empty.
Proof. intros V M. destruct (bb_dec b bb_empty) as [|N]; auto. destruct (pop_members Debug b V N) as (s & b' & _ & _ & M'). congruence. Qed.
Lemma bb_yields P : yields (bb_next P) bb_run.
Proof.
  split.
  - intros b [V M]. rewrite (members_nil b V (eq_sym M)). exists bb_empty. split; [apply bb_pop_empty|]. split; [split; reflexivity|reflexivity].
  - intros b x l [V M]. assert (N : b <> bb_empty) by (intros ->; discriminate M). destruct (pop_members P b V N) as (s & b' & E & V' & M'). rewrite M' in M. injection M as -> ->. exists b'. split; [exact E|]. split; auto.
Qed.
Lemma try_fold_run {T A B C} (next : iter T A) R (f : B -> A -> res (B + C)) : yields next R -> forall l fuel acc t, R t l -> (length l < fuel)%nat ->
  match loop f acc l with
  | Ret (rest, r) => exists t', it_try_fold next fuel f acc t = Ret (Some (t', r)) /\ R t' rest
  | Panic => it_try_fold next fuel f acc t = Panic
  | UB => it_try_fold next fuel f acc t = UB
  end.
Proof.
  intros [Y0 Y1]. induction l as [|x l IH]; intros [|fuel] acc t Rt Le; cbn [length] in Le; try lia; cbn [loop it_try_fold].
  - destruct (Y0 t Rt) as (t' & -> & Rt'). cbn [bind]. eauto.
  - destruct (Y1 t x l Rt) as (t' & -> & Rt'). cbn [bind]. destruct (f acc x) as [[acc'|c]| |]; cbn [bind]; auto; [|eauto]. apply IH; auto. lia.
Qed.
Lemma loop_fold {A B} (f : B -> A -> B) l : forall b, loop (C := Empty_set) (fun b x => Ret (inl (f b x))) b l = Ret ([], inl (fold_left f l b)).
Proof. induction l as [|x l IH]; intros b; cbn [loop fold_left]; auto. Qed.
Lemma fold_run {T A B} (next : iter T A) R (f : B -> A -> B) l fuel b t : yields next R -> R t l -> (length l < fuel)%nat ->
  exists t', it_fold next fuel f b t = Ret (Some (t', fold_left f l b)) /\ R t' [].
Proof.
  intros Y Rt Le. pose proof (try_fold_run (C := Empty_set) next R (fun b x => Ret (inl (f b x))) Y l fuel b t Rt Le) as X. rewrite loop_fold in X. destruct X as (t' & X & Rt'). exists t'.
  unfold it_fold. rewrite X. cbn [bind]. auto.
Qed.
Lemma fold_snoc {A} (l : list A) : forall acc, fold_left (fun l x => l ++ [x]) l acc = acc ++ l.
Proof. induction l as [|x l IH]; intros acc; cbn [fold_left]; [now rewrite app_nil_r|]. rewrite IH, <- app_assoc. reflexivity. Qed.
Lemma collect_run {T A} (next : iter T A) R l fuel t : yields next R -> R t l -> (length l < fuel)%nat -> it_collect next fuel t = Ret (Some l).
Proof. intros Y Rt Le. unfold it_collect. destruct (fold_run next R (fun l x => l ++ [x]) l fuel [] t Y Rt Le) as (t' & -> & _). cbn [bind]. now rewrite fold_snoc. Qed.
Lemma bb_loop {B C} P b l fuel (f : B -> square -> res (B + C)) acc : valid_bb b -> listing P b l -> (82 <= fuel)%nat ->
  match loop f acc l with
  | Ret (rest, r) => exists b', it_try_fold (bb_next P) fuel f acc b = Ret (Some (b', r)) /\ valid_bb b' /\ listing P b' rest
  | Panic => it_try_fold (bb_next P) fuel f acc b = Panic
  | UB => it_try_fold (bb_next P) fuel f acc b = UB
  end.
Proof.
  intros V L F. apply listing_members in L. subst l. pose proof (members_length b) as Le.
  pose proof (try_fold_run (bb_next P) bb_run f (bb_yields P) (members b) fuel acc b (conj V eq_refl) ltac:(lia)) as X. destruct (loop f acc (members b)) as [[rest r]| |]; auto.
  destruct X as (b' & X & V' & M). exists b'. split; [exact X|]. split; [exact V'|]. rewrite M. apply members_listing.
Qed.

(** ** The theorems *)
(** C85: every loop over a bitboard goes through its squares from the least up, whatever the body does: it may break off, and then exactly the
    squares it has not come to are left in the bitboard; it may panic. All the methods below are such loops. *)
Lemma c85_loops_pf : forall (B C : Type) P b l fuel (f : B -> square -> res (B + C)) acc, valid_bb b -> listing P b l -> (82 <= fuel)%nat ->
  match loop f acc l with
  | Ret (rest, r) => exists b', it_try_fold (bb_next P) fuel f acc b = Ret (Some (b', r)) /\ valid_bb b' /\ listing P b' rest
  | Panic => it_try_fold (bb_next P) fuel f acc b = Panic
  | UB => it_try_fold (bb_next P) fuel f acc b = UB
  end.
Proof. intros B C P b l fuel f acc V L F. now apply bb_loop. Qed.

Lemma final_fold {A} (l : list A) : forall o, fold_left (fun _ x => Some x) l o = match final l with Some x => Some x | None => o end.
Proof. induction l as [|x l IH]; intros o; cbn [fold_left final]; [reflexivity|]. rewrite IH. now destruct (final l). Qed.
Lemma max_fold l : forall x, ascending (x :: l) -> fold_left (fun x y => match sq_cmp x y with Gt => x | _ => y end) l x = match final l with Some y => y | None => x end.
Proof.
  induction l as [|y l IH]; intros x [A1 A2]; cbn [fold_left final]; [reflexivity|]. assert (L : sq_repr x < sq_repr y) by (apply A1; now left).
  unfold sq_cmp at 2. rewrite (proj2 (N.compare_lt_iff _ _) L). rewrite IH by auto. now destruct (final l).
Qed.
Lemma min_fold l : forall x, (forall y, In y l -> sq_repr x < sq_repr y) -> fold_left (fun x y => match sq_cmp x y with Gt => y | _ => x end) l x = x.
Proof.
  induction l as [|y l IH]; intros x A; cbn [fold_left]; [reflexivity|]. unfold sq_cmp at 2. rewrite (proj2 (N.compare_lt_iff _ _) (A y (or_introl eq_refl))). apply IH. intros z I. apply A. now right.
Qed.
Lemma step_index P U i : i + 1 < 2 ^ U -> add_w P U i 1 = Ret (i + 1).
Proof. intros H. unfold add_w, modulus. now replace (i + 1 <? 2 ^ U) with true by lia. Qed.
Lemma loop_count P U (l : list square) : forall c, c + N.of_nat (length l) < 2 ^ U -> loop (C := Empty_set) (fun count _ => n <- add_w P U count 1;; Ret (inl n)) c l = Ret ([], inl (c + N.of_nat (length l))).
Proof.
  induction l as [|x l IH]; intros c H; cbn [loop length]; [do 2 f_equal; f_equal; lia|]. cbn [length] in H. rewrite step_index by lia. cbn [bind]. rewrite IH by lia.
  do 2 f_equal. f_equal. lia.
Qed.
Lemma small_index U (l : list square) : 8 <= U -> (length l <= 81)%nat -> N.of_nat (length l) < 2 ^ U.
Proof. intros H L. apply N.lt_le_trans with (2 ^ 8); [change (2 ^ 8) with 256; lia|apply N.pow_le_mono_r; lia]. Qed.
(** C85: the methods that go through all of it: [fold] (and [for_each]; behind [&mut] the empty bitboard is left), [collect], [count], which is
    the number that [Bitboard::count] gives, [last] and [max], which are the greatest square, and [min], the least. *)
Lemma c85_whole_pf : forall (B : Type) P U b l fuel (f : B -> square -> B) init, valid_bb b -> listing P b l -> (82 <= fuel)%nat -> 8 <= U ->
  it_fold (bb_next P) fuel f init b = Ret (Some (bb_empty, fold_left f l init)) /\
  it_collect (bb_next P) fuel b = Ret (Some l) /\
  (exists n, it_count P U (bb_next P) fuel b = Ret (Some n) /\ bb_count P b = Ret n /\ n = N.of_nat (length l)) /\
  it_last (bb_next P) fuel b = Ret (Some (final l)) /\
  it_max sq_cmp (bb_next P) fuel b = Ret (Some (final l)) /\
  it_min sq_cmp (bb_next P) fuel b = Ret (Some (hd_error l)).
Proof.
  intros B P U b l fuel f init V L F HU. pose proof (listing_members P b l L) as M. pose proof (members_length b) as Le. rewrite <- M in Le.
  assert (Rb : bb_run b l) by (split; auto). pose proof (bb_yields P) as Y.
  assert (Fo : forall B (f : B -> square -> B) x, it_fold (bb_next P) fuel f x b = Ret (Some (bb_empty, fold_left f l x))).
  { intros B0 f0 x. destruct (fold_run (bb_next P) bb_run f0 l fuel x b Y Rb ltac:(lia)) as (b' & X & V' & M'). now rewrite X, (members_nil b' V' (eq_sym M')). }
  split; [apply Fo|]. split; [apply (collect_run _ bb_run); auto; lia|]. split; [|split; [|split]].
  - exists (N.of_nat (length l)). unfold it_count. pose proof (bb_loop (C := Empty_set) P b l fuel (fun count _ => n <- add_w P U count 1;; Ret (inl n)) 0 V L F) as X.
    rewrite loop_count in X by (cbn; now apply small_index). destruct X as (b' & -> & _). cbn [bind]. rewrite bb_count_ok, <- M by auto. auto.
  - unfold it_last. rewrite Fo. cbn [bind]. rewrite final_fold. now destruct (final l).
  - unfold it_max, it_reduce. destruct l as [|x l]; [destruct (proj1 Y b Rb) as (b' & -> & _); reflexivity|]. destruct (proj2 Y b x l Rb) as (b' & -> & Rb'). cbn [bind length] in *.
    destruct (fold_run (bb_next P) bb_run (fun x y => match sq_cmp x y with Gt => x | _ => y end) l fuel x b' Y Rb' ltac:(lia)) as (b2 & -> & _). cbn [bind]. rewrite max_fold by apply L. cbn [final]. now destruct (final l).
  - unfold it_min, it_reduce. destruct l as [|x l]; [destruct (proj1 Y b Rb) as (b' & -> & _); reflexivity|]. destruct (proj2 Y b x l Rb) as (b' & -> & Rb'). cbn [bind length] in *.
    destruct (fold_run (bb_next P) bb_run (fun x y => match sq_cmp x y with Gt => y | _ => x end) l fuel x b' Y Rb' ltac:(lia)) as (b2 & -> & _). cbn [bind]. rewrite min_fold by apply L. reflexivity.
Qed.

Lemma loop_any (p : square -> bool) (l : list square) : loop (C := unit) (fun (_ : unit) x => Ret (if p x then inr tt else inl tt)) tt l = Ret (after p l, if existsb p l then inr tt else inl tt).
Proof. induction l as [|x l IH]; cbn [loop after existsb]; [reflexivity|]. destruct (p x); cbn [orb]; auto. Qed.
Lemma loop_all (p : square -> bool) (l : list square) : loop (C := unit) (fun (_ : unit) x => Ret (if p x then inl tt else inr tt)) tt l = Ret (after (fun s => negb (p s)) l, if forallb p l then inl tt else inr tt).
Proof. induction l as [|x l IH]; cbn [loop after forallb]; [reflexivity|]. destruct (p x); cbn [andb negb]; auto. Qed.
Lemma loop_find (p : square -> bool) (l : list square) : loop (C := square) (fun (_ : unit) x => Ret (if p x then inr x else inl tt)) tt l = Ret (after p l, match find p l with Some x => inr x | None => inl tt end).
Proof. induction l as [|x l IH]; cbn [loop after find]; [reflexivity|]. destruct (p x); auto. Qed.
Lemma loop_position P U (p : square -> bool) (l : list square) : forall i, i + N.of_nat (length l) < 2 ^ U ->
  exists r, loop (C := N) (fun i x => if p x then Ret (inr i) else (j <- add_w P U i 1;; Ret (inl j))) i l = Ret (after p l, r) /\ match place p l with Some j => r = inr (i + j) | None => exists j, r = inl j end.
Proof.
  induction l as [|x l IH]; intros i H; cbn [loop after place length] in *; [eauto|]. destruct (p x); [exists (inr i); split; auto; f_equal; lia|]. rewrite step_index by lia. cbn [bind].
  destruct (IH (i + 1) ltac:(lia)) as (r & -> & Q). exists r. split; auto. destruct (place p l); cbn [option_map]; auto. subst r. f_equal. lia.
Qed.
(** C85: the methods that stop as soon as they know: [any], [all], [find] and [position] answer for the list of the squares, and take out of
    the bitboard, which they have by [&mut], all squares up to the one that decided; the later ones are left. *)
Lemma c85_searches_pf : forall P U b l fuel p, valid_bb b -> listing P b l -> (82 <= fuel)%nat -> 8 <= U ->
  (exists b', it_any (bb_next P) fuel p b = Ret (Some (b', existsb p l)) /\ valid_bb b' /\ listing P b' (after p l)) /\
  (exists b', it_all (bb_next P) fuel p b = Ret (Some (b', forallb p l)) /\ valid_bb b' /\ listing P b' (after (fun s => negb (p s)) l)) /\
  (exists b', it_find (bb_next P) fuel p b = Ret (Some (b', find p l)) /\ valid_bb b' /\ listing P b' (after p l)) /\
  (exists b', it_position P U (bb_next P) fuel p b = Ret (Some (b', place p l)) /\ valid_bb b' /\ listing P b' (after p l)).
Proof.
  intros P U b l fuel p V L F HU. pose proof (members_length b) as Le. rewrite <- (listing_members P b l L) in Le. repeat split.
  - pose proof (bb_loop (C := unit) P b l fuel (fun (_ : unit) x => Ret (if p x then inr tt else inl tt)) tt V L F) as X. rewrite loop_any in X. destruct X as (b' & X & H). exists b'. split; [|exact H]. unfold it_any. rewrite X. cbn [bind]. now destruct (existsb p l).
  - pose proof (bb_loop (C := unit) P b l fuel (fun (_ : unit) x => Ret (if p x then inl tt else inr tt)) tt V L F) as X. rewrite loop_all in X. destruct X as (b' & X & H). exists b'. split; [|exact H]. unfold it_all. rewrite X. cbn [bind]. now destruct (forallb p l).
  - pose proof (bb_loop (C := square) P b l fuel (fun (_ : unit) x => Ret (if p x then inr x else inl tt)) tt V L F) as X. rewrite loop_find in X. destruct X as (b' & X & H). exists b'. split; [|exact H]. unfold it_find. rewrite X. cbn [bind]. now destruct (find p l).
  - pose proof (bb_loop (C := N) P b l fuel (fun i x => if p x then Ret (inr i) else (j <- add_w P U i 1;; Ret (inl j))) 0 V L F) as X.
    destruct (loop_position P U p l 0 ltac:(cbn; now apply small_index)) as (r & Q & Z). rewrite Q in X. destruct X as (b' & X & H). exists b'. split; [|exact H]. unfold it_position. rewrite X. cbn [bind].
    destruct (place p l) as [j|]; [now subst r|]. destruct Z as [j ->]. reflexivity.
Qed.
Lemma nth_run {T A} (next : iter T A) R : yields next R -> forall k l t, R t l -> exists t', it_nth next k t = Ret (t', nth_error l k) /\ R t' (skipn (S k) l).
Proof.
  intros [Y0 Y1]. induction k as [|k IH]; intros [|x l] t Rt; cbn [it_nth].
  - destruct (Y0 t Rt) as (t' & -> & Rt'). cbn [bind]. eauto.
  - destruct (Y1 t x l Rt) as (t' & -> & Rt'). cbn [bind]. eauto.
  - destruct (Y0 t Rt) as (t' & -> & Rt'). cbn [bind]. eauto.
  - destruct (Y1 t x l Rt) as (t' & -> & Rt'). cbn [bind]. exact (IH l t' Rt').
Qed.
(** C85: [nth] gives the square at that place, counted from 0, and takes out all squares up to it. *)
Lemma c85_nth_pf : forall P b l k, valid_bb b -> listing P b l ->
  exists b', it_nth (bb_next P) k b = Ret (b', nth_error l k) /\ valid_bb b' /\ listing P b' (skipn (S k) l).
Proof.
  intros P b l k V L. destruct (nth_run (bb_next P) bb_run (bb_yields P) k l b (conj V (listing_members P b l L))) as (b' & X & V' & M). exists b'. split; [exact X|]. split; [exact V'|]. rewrite M. apply members_listing.
Qed.

Lemma eq_run {T T'} (next : iter T square) (next' : iter T' square) R R' : yields next R -> yields next' R' -> forall l l' fuel t t', R t l -> R' t' l' -> (length l < fuel)%nat ->
  exists v, it_eq sq_eqb next next' fuel t t' = Ret (Some v) /\ (v = true <-> l = l').
Proof.
  intros [Y0 Y1] [Z0 Z1]. induction l as [|x l IH]; intros l' [|fuel] t t' Rt Rt' Le; cbn [length] in Le; try lia; cbn [it_eq].
  - destruct (Y0 t Rt) as (t1 & -> & _). cbn [bind]. destruct l' as [|y l']; [destruct (Z0 t' Rt') as (t2 & -> & _)|destruct (Z1 t' y l' Rt') as (t2 & -> & _)]; cbn [bind]; eexists; (split; [reflexivity|]); split; congruence.
  - destruct (Y1 t x l Rt) as (t1 & -> & Rt1). cbn [bind]. destruct l' as [|y l']; [destruct (Z0 t' Rt') as (t2 & -> & _)|destruct (Z1 t' y l' Rt') as (t2 & -> & Rt2)]; cbn [bind]; [eexists; split; [reflexivity|]; split; congruence|].
    destruct (sq_eqb x y) eqn:Q.
    + apply sq_eqb_eq in Q. subst y. destruct (IH l' fuel t1 t2 Rt1 Rt2 ltac:(lia)) as (v & -> & H). exists v. split; [reflexivity|]. rewrite H. split; congruence.
    + eexists. split; [reflexivity|]. split; [discriminate|]. intros [= -> ->]. rewrite sq_eqb_refl in Q. discriminate Q.
Qed.
Lemma in_dictionary_cons x l l' c : in_dictionary l l' c -> in_dictionary (x :: l) (x :: l') c.
Proof. intros [l0|l0 y r|l0 y r|l0 y z r r' H|l0 y z r r' H]; [constructor|apply (shorter (x :: l0))|apply (longer (x :: l0))|apply (smaller (x :: l0)), H|apply (greater (x :: l0)), H]. Qed.
Lemma cmp_run {T T'} (next : iter T square) (next' : iter T' square) R R' : yields next R -> yields next' R' -> forall l l' fuel t t', R t l -> R' t' l' -> (length l < fuel)%nat ->
  exists c, it_cmp sq_cmp next next' fuel t t' = Ret (Some c) /\ in_dictionary l l' c.
Proof.
  intros [Y0 Y1] [Z0 Z1]. induction l as [|x l IH]; intros l' [|fuel] t t' Rt Rt' Le; cbn [length] in Le; try lia; cbn [it_cmp].
  - destruct (Y0 t Rt) as (t1 & -> & _). cbn [bind]. destruct l' as [|y l']; [destruct (Z0 t' Rt') as (t2 & -> & _)|destruct (Z1 t' y l' Rt') as (t2 & -> & _)]; cbn [bind]; eexists; (split; [reflexivity|]); [constructor|apply (shorter [])].
  - destruct (Y1 t x l Rt) as (t1 & -> & Rt1). cbn [bind]. destruct l' as [|y l']; [destruct (Z0 t' Rt') as (t2 & -> & _)|destruct (Z1 t' y l' Rt') as (t2 & -> & Rt2)]; cbn [bind]; [eexists; split; [reflexivity|]; apply (longer [])|].
    destruct (sq_cmp x y) eqn:Q; unfold sq_cmp in Q.
    + apply N.compare_eq in Q. assert (x = y) by (destruct x, y; cbn in Q; congruence). subst y. destruct (IH l' fuel t1 t2 Rt1 Rt2 ltac:(lia)) as (c & -> & H). exists c. split; [reflexivity|]. now apply in_dictionary_cons.
    + eexists. split; [reflexivity|]. apply (smaller []). now apply N.compare_lt_iff.
    + eexists. split; [reflexivity|]. apply (greater []). now apply N.compare_gt_iff.
Qed.
(** C85: two bitboards compared as iterators: [Iterator::eq] is [==], and [Iterator::cmp] is the order of a dictionary on the lists of squares. *)
Lemma c85_compare_pf : forall P a b l l' fuel, valid_bb a -> valid_bb b -> listing P a l -> listing P b l' -> (82 <= fuel)%nat ->
  it_eq sq_eqb (bb_next P) (bb_next P) fuel a b = Ret (Some (bb_eqb a b)) /\
  exists c, it_cmp sq_cmp (bb_next P) (bb_next P) fuel a b = Ret (Some c) /\ in_dictionary l l' c.
Proof.
  intros P a b l l' fuel V V' L L' F. pose proof (listing_members P a l L) as M. pose proof (listing_members P b l' L') as M'. pose proof (members_length a) as Le. rewrite <- M in Le. split.
  - destruct (eq_run (bb_next P) (bb_next P) bb_run bb_run (bb_yields P) (bb_yields P) l l' fuel a b (conj V M) (conj V' M') ltac:(lia)) as (v & -> & H). do 2 f_equal.
    apply eq_true_iff_eq. rewrite H, bb_eqb_eq. split; [|now intros ->; congruence]. intros Q. apply member_ext; auto. intros s Vs. apply eq_true_iff_eq. rewrite M, M' in Q.
    split; intros X; [assert (I : In s (members a)) by (now apply members_In); rewrite Q in I|assert (I : In s (members b)) by (now apply members_In); rewrite <- Q in I]; now apply members_In in I.
  - apply (cmp_run (bb_next P) (bb_next P) bb_run bb_run (bb_yields P) (bb_yields P)); [split; auto|split; auto|lia].
Qed.
(** C85 (full statement refuted): [Iterator::cmp] is not [Ord::cmp] of bitboards. In Rust [a.cmp(b)] on two bitboards means the former,
    and [Ord::cmp(&a, &b)], which sorting and ordered maps use, the latter. *)
Lemma c85_order_refuted_pf : ~ (forall P a b fuel, valid_bb a -> valid_bb b -> (82 <= fuel)%nat -> it_cmp sq_cmp (bb_next P) (bb_next P) fuel a b = Ret (Some (bb_cmp a b))).
Proof.
  intros C. specialize (C Release (Bitboard 3 0) (Bitboard 2 0) 82%nat ltac:(split; reflexivity) ltac:(split; reflexivity) ltac:(lia)). vm_compute in C. discriminate C.
Qed.

Lemma single_or_run P : forall l acc, (forall s, In s l -> valid_square s) ->
  exists b, loop (C := Empty_set) (fun b s => x <- bb_or_square P b s;; Ret (inl x)) acc l = Ret ([], inl b) /\ (valid_bb acc -> valid_bb b) /\ forall s, valid_square s -> member b s = member acc s || existsb (sq_eqb s) l.
Proof.
  induction l as [|x l IH]; intros acc A; cbn [loop existsb]; [exists acc; split; [reflexivity|]; split; auto; intros; now rewrite orb_false_r|].
  assert (Vx : valid_square x) by (apply A; now left). unfold bb_or_square. rewrite bb_single_ok by auto. cbn [bind]. destruct (IH (bb_or acc (single x))) as (b & E & V & M); [intros s I; apply A; now right|].
  exists b. split; [exact E|]. split.
  - intros Va. apply V. apply or_valid; auto. now apply single_valid.
  - intros s Vs. rewrite M by auto. rewrite member_or, member_single, <- orb_assoc by auto. f_equal. f_equal. apply eq_true_iff_eq. rewrite !sq_eqb_eq. split; congruence.
Qed.
(** C85: a bitboard is what its squares make: adding them one after the other to the empty bitboard with [|=] gives it back, and leaves the one
    that was gone through empty. *)
Lemma c85_rebuild_pf : forall P b fuel, valid_bb b -> (82 <= fuel)%nat ->
  it_try_fold (C := Empty_set) (bb_next P) fuel (fun acc s => x <- bb_or_square P acc s;; Ret (inl x)) bb_empty b = Ret (Some (bb_empty, inl b)).
Proof.
  intros P b fuel V F. pose proof (bb_loop (C := Empty_set) P b (members b) fuel (fun acc s => x <- bb_or_square P acc s;; Ret (inl x)) bb_empty V (members_listing P b) F) as X.
  destruct (single_or_run P (members b) bb_empty) as (b' & E & V' & M); [intros s I; now apply members_In in I|]. rewrite E in X. destruct X as (b2 & -> & V2 & L2). apply listing_members in L2. rewrite (members_nil b2 V2 (eq_sym L2)).
  do 4 f_equal. apply member_ext; auto; [apply V'; split; reflexivity|]. intros s Vs. rewrite M, member_empty by auto. cbn [orb]. apply eq_true_iff_eq. rewrite existsb_exists. split.
  - intros (t & I & Q). apply sq_eqb_eq in Q. subst t. now apply members_In in I.
  - intros Q. exists s. rewrite sq_eqb_refl. split; auto. now apply members_In.
Qed.

(** ** Adaptors *)
Lemma bb_delivers P b l : valid_bb b -> listing P b l -> delivers (bb_next P) b l.
Proof.
  intros V L. apply listing_members in L. revert b V L. induction l as [|x l IH]; intros b V L.
  - destruct (proj1 (bb_yields P) b (conj V L)) as (b' & E & _). econstructor; eauto.
  - destruct (proj2 (bb_yields P) b x l (conj V L)) as (b' & E & V' & M). econstructor; eauto.
Qed.
Lemma delivers_fold {T A B} (next : iter T A) (f : B -> A -> B) : forall t l, delivers next t l -> forall fuel b, (length l < fuel)%nat -> exists t', it_fold next fuel f b t = Ret (Some (t', fold_left f l b)).
Proof.
  intros t l D. induction D as [t t' E|t t' x l E D IH]; intros [|fuel] b Le; cbn [length] in Le; try lia; unfold it_fold; cbn [it_try_fold fold_left]; rewrite E; cbn [bind]; [eauto|]. apply IH. lia.
Qed.
Lemma delivers_find {T A} (next : iter T A) (p : A -> bool) : forall t l, delivers next t l -> forall fuel, (length l < fuel)%nat ->
  exists t', it_find next fuel p t = Ret (Some (t', find p l)) /\ (find p l <> None -> delivers next t' (after p l)).
Proof.
  intros t l D. induction D as [t t' E|t t' x l E D IH]; intros [|fuel] Le; cbn [length] in Le; try lia; unfold it_find; cbn [it_try_fold find after]; rewrite E; cbn [bind]; [exists t'; split; [reflexivity|congruence]|].
  destruct (p x); cbn [bind]; [exists t'; split; auto|]. apply IH. lia.
Qed.
Lemma filter_after {A} (p : A -> bool) l : filter p l = match find p l with Some x => x :: filter p (after p l) | None => [] end.
Proof. induction l as [|x l IH]; cbn [filter find after]; [reflexivity|]. destruct (p x); auto. Qed.
Lemma after_length {A} (p : A -> bool) l : (length (after p l) <= length l)%nat.
Proof. induction l as [|x l IH]; cbn [after length]; [lia|]. destruct (p x); lia. Qed.
Lemma after_shorter {A} (p : A -> bool) l : find p l <> None -> (length (after p l) < length l)%nat.
Proof. induction l as [|x l IH]; cbn [find after length]; [congruence|]. destruct (p x); [lia|]. intros H. specialize (IH H). lia. Qed.
Lemma delivers_filter {T A} (next : iter T A) (p : A -> bool) fuel : forall n l t, (length l <= n)%nat -> delivers next t l -> (length l < fuel)%nat -> delivers (filter_next fuel p next) t (filter p l).
Proof.
  induction n as [|n IH]; intros l t Ln D Le; rewrite filter_after; destruct (delivers_find next p t l D fuel Le) as (t' & E & D').
  - destruct l; [|cbn in Ln; lia]. cbn [find] in *. apply (the_end _ t t'). unfold filter_next. now rewrite E.
  - destruct (find p l) as [x|] eqn:Q.
    + apply (one_more _ t t'); [unfold filter_next; now rewrite E|]. pose proof (after_shorter p l ltac:(congruence)). apply IH; [lia|apply D'; congruence|lia].
    + apply (the_end _ t t'). unfold filter_next. now rewrite E.
Qed.
Lemma delivers_nth {T A} (next : iter T A) : forall k t l, delivers next t l -> exists t', it_nth next k t = Ret (t', nth_error l k) /\ (nth_error l k <> None -> delivers next t' (skipn (S k) l)).
Proof.
  induction k as [|k IH]; intros t l D; destruct D as [t t' E|t t' x l E D]; cbn [it_nth]; rewrite E; cbn [bind].
  - exists t'. split; [reflexivity|cbn; congruence].
  - exists t'. split; auto.
  - exists t'. split; [reflexivity|cbn; congruence].
  - exact (IH t' l D).
Qed.
(** C85: adaptors on bitboards, one on top of the other in any number: what a bitboard delivers is the list of its squares, and whenever an
    iterator (or two) delivers a list, the adaptor delivers the list that its name says. *)
Lemma c85_adaptors_pf : forall P U,
  (forall b l, valid_bb b -> listing P b l -> delivers (bb_next P) b l) /\
  (forall T A (next : iter T A) t l fuel, delivers next t l -> (length l < fuel)%nat -> it_collect next fuel t = Ret (Some l)) /\
  (forall T A B (next : iter T A) t l (f : A -> B), delivers next t l -> delivers (map_next f next) t (map f l)) /\
  (forall T A (next : iter T A) t l p fuel, delivers next t l -> (length l < fuel)%nat -> delivers (filter_next fuel p next) t (filter p l)) /\
  (forall T A (next : iter T A) t l, delivers next t l -> N.of_nat (length l) < 2 ^ U -> delivers (enumerate_next P U next) (t, 0) (numbered 0 l)) /\
  (forall T A (next : iter T A) t l k, delivers next t l -> delivers (take_next next) (t, k) (firstn k l)) /\
  (forall T A (next : iter T A) t l k, delivers next t l -> delivers (skip_next next) (t, k) (skipn k l)) /\
  (forall T T' A B (next : iter T A) (next' : iter T' B) t t' l l', delivers next t l -> delivers next' t' l' -> delivers (zip_next next next') (t, t') (combine l l')) /\
  (forall T T' A (next : iter T A) (next' : iter T' A) t t' l l', delivers next t l -> delivers next' t' l' -> delivers (chain_next next next') (Some t, t') (l ++ l')).
Proof.
  intros P U. split; [|split; [|split; [|split; [|split; [|split; [|split; [|split]]]]]]].
  - apply bb_delivers.
  - intros T A next t l fuel D Le. unfold it_collect. destruct (delivers_fold next (fun l x => l ++ [x]) t l D fuel [] Le) as (t' & ->). cbn [bind]. now rewrite fold_snoc.
  - intros T A B next t l f D. induction D as [t t' E|t t' x l E D IH]; cbn [map]; [apply (the_end _ t t')|apply (one_more _ t t'); auto]; unfold map_next; now rewrite E.
  - intros T A next t l p fuel D Le. now apply (delivers_filter next p fuel (length l)).
  - intros T A next t l D Le. assert (G : forall i, i + N.of_nat (length l) < 2 ^ U -> delivers (enumerate_next P U next) (t, i) (numbered i l)); [|now apply G]. clear Le.
    induction D as [t t' E|t t' x l E D IH]; intros i Le; cbn [numbered length] in *; [apply (the_end _ _ (t', i)); unfold enumerate_next; cbn [fst snd]; now rewrite E|].
    apply (one_more _ _ (t', i + 1)); [|apply IH; lia]. unfold enumerate_next. cbn [fst snd]. rewrite E. cbn [bind]. unfold add_w, modulus. now replace (i + 1 <? 2 ^ U) with true by lia.
  - intros T A next t l k D. revert k. induction D as [t t' E|t t' x l E D IH]; intros [|k]; cbn [firstn].
    1, 3: apply (the_end _ _ (t, O)); reflexivity.
    + apply (the_end _ _ (t', k)). unfold take_next. cbn [fst snd]. now rewrite E.
    + apply (one_more _ _ (t', k)); auto. unfold take_next. cbn [fst snd]. now rewrite E.
  - intros T A next t l k D. assert (G : forall t l, delivers next t l -> delivers (skip_next next) (t, O) l).
    { intros t0 l0 D0. induction D0 as [t0 t' E|t0 t' x l0 E D0 IH]; [apply (the_end _ _ (t', O))|apply (one_more _ _ (t', O)); auto]; unfold skip_next; cbn [fst snd it_nth]; now rewrite E. }
    destruct (delivers_nth next k t l D) as (t' & E & D'). assert (Q : skipn k l = match nth_error l k with Some x => x :: skipn (S k) l | None => [] end).
    { clear. revert l. induction k as [|k IH]; intros [|x l]; cbn [skipn nth_error]; auto. rewrite IH. destruct (nth_error l k); auto. }
    rewrite Q. destruct (nth_error l k) as [x|] eqn:N; [apply (one_more _ _ (t', O)); [|apply G, D'; congruence]|apply (the_end _ _ (t', O))]; unfold skip_next; cbn [fst snd]; now rewrite E.
  - intros T T' A B next next' t t' l l' D. revert t' l'. induction D as [t t1 E|t t1 x l E D IH]; intros t' l' D'; cbn [combine]; [apply (the_end _ _ (t1, t')); unfold zip_next; cbn [fst snd]; now rewrite E|].
    destruct D' as [t' t2 E'|t' t2 y l' E' D']; [apply (the_end _ _ (t1, t2))|apply (one_more _ _ (t1, t2)); auto]; unfold zip_next; cbn [fst snd]; rewrite E; cbn [bind]; now rewrite E'.
  - intros T T' A next next' t t' l l' D D'. assert (G : forall t' l', delivers next' t' l' -> delivers (chain_next next next') (None, t') l').
    { intros u m Du. induction Du as [u u' E|u u' x m E Du IH]; [apply (the_end _ _ (None, u'))|apply (one_more _ _ (None, u')); auto]; unfold chain_next; cbn [fst snd]; now rewrite E. }
    induction D as [t t1 E|t t1 x l E D IH]; cbn [app].
    + destruct D' as [t' t2 E'|t' t2 y l' E' D']; [apply (the_end _ _ (None, t2))|apply (one_more _ _ (None, t2)); auto]; unfold chain_next; cbn [fst snd]; rewrite E; cbn [bind]; now rewrite E'.
    + apply (one_more _ _ (Some t1, t')); auto. unfold chain_next. cbn [fst snd]. now rewrite E.
Qed.
