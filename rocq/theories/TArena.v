(** Proofs of the property theorems on the heap of the no-std library (restated in Prop_Arena.v). *)
From Verif Require Import TRuntime THeap SpecArena.
(*PROPHEAD
Property theorems C63: the bundled allocator over the life of a program
From Verif Require Import LSampleA LSampleN.
*)

(** ** The allocator with deallocation *)
Definition allocs_of (cs : list heap_choice) : list alloc_choice := flat_map (fun c => match c with Do c => [c] | Dealloc _ _ _ => [] end) cs.
Lemma heap_run_allocs P U cs : forall s, heap_run P U s cs = alloc_run P U s (allocs_of cs).
Proof.
  induction cs as [|[c|t o l] cs IH]; intros s; cbn [heap_run heap_step allocs_of flat_map app alloc_run alloc_dealloc bind]; auto.
  destruct (alloc_step P U s c); cbn [bind]; auto.
Qed.
Lemma allocs_valid U cs : Forall (valid_heap_choice U) cs -> Forall (valid_choice U) (allocs_of cs).
Proof. induction 1 as [|[c|t o l] cs H _ IH]; cbn; auto. Qed.
Lemma heap_inv P U cs s : 17 < U -> Forall (valid_heap_choice U) cs -> heap_run P U alloc_init cs = Ret s -> alloc_inv U s.
Proof. intros HU V. rewrite heap_run_allocs. apply run_facts; auto using allocs_valid. Qed.

Lemma served_app es es' : served (es ++ es') = served es + served es'.
Proof. unfold served. induction es as [|e es IH]; cbn [app fold_right]; [reflexivity|]. destruct (ev_offset e); lia. Qed.
Lemma served_serial es : forall rem r, serial_run rem (map ev_layout es) = (r, map ev_offset es) -> served es + r <= rem.
Proof.
  induction es as [|e es IH]; intros rem r; cbn [map serial_run]; [intros [= ->]; cbn; lia|].
  destruct (serial_alloc rem (ev_layout e)) as [r1 o] eqn:E. destruct (serial_run r1 (map ev_layout es)) as [r2 os] eqn:E2. intros [= H1 H2 H3].
  subst r2 os. apply IH in E2. cbn [served fold_right]. fold (served es). rewrite <- H2. unfold serial_alloc in E. destruct (_ || _) eqn:B; injection E as <- <-; [lia|].
  apply orb_false_iff in B as [_ B]. apply N.ltb_ge in B. pose proof (round_down_le (rem - l_size (ev_layout e)) (l_align (ev_layout e))). lia.
Qed.
Lemma blocks_served n es : N.of_nat (blocks_of n es) * n <= served es.
Proof.
  unfold blocks_of. induction es as [|e es IH]; cbn [filter served fold_right]; [cbn; lia|]. fold (served es).
  destruct (ev_offset e); [|exact IH]. destruct (N.leb_spec n (l_size (ev_layout e))); cbn [length]; lia.
Qed.
(** C63: memory given back is never used again: over the whole life of the program, under every schedule and whatever is deallocated, the
    blocks handed out have no more than 128 KiB together, so there are at most 128 KiB / [n] blocks of [n] bytes. *)
Lemma c63_never_reused_pf : forall P U cs s, 17 < U -> Forall (valid_heap_choice U) cs -> heap_run P U alloc_init cs = Ret s ->
  served (finished s) + as_remaining s <= 128 * 1024 /\ (forall n, 0 < n -> N.of_nat (blocks_of n (finished s)) <= 128 * 1024 / n) /\
  (forall i j e e' x, nth_error (finished s) i = Some e -> nth_error (finished s) j = Some e' -> i <> j -> in_block e x -> in_block e' x -> False).
Proof.
  intros P U cs s HU V R. pose proof (heap_inv P U cs s HU V R) as I. pose proof (served_serial _ _ _ (ai_serial U s I)) as S.
  split; [exact S|]. split.
  - intros n Hn. pose proof (blocks_served n (finished s)). apply N.div_le_lower_bound; [lia|]. change ARENA_SIZE with (128 * 1024) in S. lia.
  - rewrite heap_run_allocs in R. intros i j e e' x. apply (c46_disjoint_pf P U (allocs_of cs) s); auto using allocs_valid.
Qed.

(** C63: once the allocator has refused a request of at most 4096 alignment, it refuses every request of that size or more that finishes later. *)
Lemma c63_stays_full_pf : forall P U cs s es e es' e', 17 < U -> Forall (valid_heap_choice U) cs -> heap_run P U alloc_init cs = Ret s ->
  finished s = es ++ e :: es' -> ev_offset e = None -> l_align (ev_layout e) <= 4096 -> In e' es' -> l_size (ev_layout e) <= l_size (ev_layout e') ->
  ev_offset e' = None.
Proof.
  intros P U cs s es e es' e' HU V R F N A I L. rewrite heap_run_allocs in R. pose proof (allocs_valid U cs V) as V'.
  destruct (c46_null_pf P U _ s es e es' HU V' R F) as [[Q _] _]. destruct (Q N) as [Q'|Q']; [lia|].
  apply in_split in I as (l1 & l2 & ->).
  assert (F2 : finished s = (es ++ e :: l1) ++ e' :: l2) by (rewrite F, <- app_assoc; reflexivity).
  destruct (c46_null_pf P U _ s _ e' l2 HU V' R F2) as [[_ Q2] _]. apply Q2. right.
  assert (M : bytes_left (es ++ e :: l1) <= bytes_left es).
  { clear - F2 V' R HU. pose proof (ai_serial U s (run_facts P U _ s HU V' R)) as S. rewrite F2, !map_app in S. cbn [map] in S. rewrite serial_run_split in S.
    rewrite serial_run_split in S. destruct (serial_run ARENA_SIZE (map ev_layout es)) as [r0 o0] eqn:E0.
    cbn [serial_run] in S. destruct (serial_alloc r0 (ev_layout e)) as [r1 o1] eqn:E1. destruct (serial_run r1 (map ev_layout l1)) as [r2 o2] eqn:E2.
    destruct (serial_alloc r2 (ev_layout e')) as [r3 o3]. destruct (serial_run r3 (map ev_layout l2)) as [r4 o4]. injection S as _ S.
    assert (L0 : length o0 = length es). { pose proof (serial_run_length (map ev_layout es) ARENA_SIZE) as L. rewrite E0 in L. cbn in L. now rewrite L, map_length. }
    assert (L2 : length o2 = length l1). { pose proof (serial_run_length (map ev_layout l1) r1) as L. rewrite E2 in L. cbn in L. now rewrite L, map_length. }
    assert (Q : forall (a b c d : list (option N)), length a = length c -> a ++ b = c ++ d -> a = c /\ b = d).
    { clear. induction a as [|x a IH]; intros b [|y c] d L H; try discriminate; auto. cbn in *. injection H as -> H. destruct (IH b c d) as [-> ->]; auto. }
    rewrite <- !app_assoc in S. cbn [app] in S. apply Q in S as [S0 S1]; [|now rewrite L0, map_length]. injection S1 as S1 S2. apply Q in S2 as [S2 _]; [|now rewrite L2, map_length].
    subst o0 o1 o2. apply bytes_left_serial in E0. change (r0 = bytes_left es) in E0.
    unfold bytes_left. rewrite fold_left_app. fold (bytes_left es). cbn [fold_left]. rewrite <- E0.
    assert (X : match ev_offset e with Some o => o | None => r0 end = r1).
    { unfold serial_alloc in E1. destruct (_ || _); injection E1 as <- <-; reflexivity. }
    rewrite X. apply bytes_left_serial in E2 as Y. rewrite <- Y. pose proof (serial_alloc_le r0 (ev_layout e)) as Z. rewrite E1 in Z. cbn in Z.
    assert (M : forall ls r, fst (serial_run r ls) <= r).
    { clear. induction ls as [|l ls IH]; intros r; cbn; [lia|]. pose proof (serial_alloc_le r l). destruct (serial_alloc r l) as [r1 o]. specialize (IH r1).
      destruct (serial_run r1 ls). cbn in *. lia. }
    specialize (M (map ev_layout l1) r1). rewrite E2 in M. cbn in M. lia. }
  lia.
Qed.

(** C63: [alloc] cannot be kept waiting: whatever the other threads do, a call is answered after at most 131073 rounds that do not fail
    spuriously. *)
Lemma c63_answered_pf : forall P U cs cs' s s' t, 17 < U -> Forall (valid_heap_choice U) cs -> Forall (valid_heap_choice U) cs' ->
  heap_run P U alloc_init cs = Ret s -> heap_run P U s cs' = Ret s' -> pending s t <> [] -> 128 * 1024 < N.of_nat (rounds t cs') ->
  (length (answered t (finished s)) < length (answered t (finished s')))%nat.
Proof.
  intros P U cs cs' s s' t HU V V' R R' Pd Rd. pose proof (heap_inv P U cs s HU V R) as I. clear R V cs.
  assert (G : forall cs s s', Forall (valid_heap_choice U) cs -> alloc_inv U s -> heap_run P U s cs = Ret s' ->
    (length (answered t (finished s)) <= length (answered t (finished s')))%nat /\
    (forall l m prev x, as_threads s t = Trying l m prev x ->
       (length (answered t (finished s)) < length (answered t (finished s')))%nat \/
       exists y prev', as_threads s' t = Trying l m prev' y /\ N.of_nat (rounds t cs) + prev' <= prev)).
  { clear - HU. intros cs. induction cs as [|c cs IH]; intros s s' V I R.
    - injection R as <-. split; [lia|]. intros l m prev x E. right. exists x, prev. split; auto. cbn. lia.
    - inversion_clear V as [|? ? V1 V2]. cbn [heap_run] in R. destruct c as [c|u o l].
      2:{ cbn [heap_step bind alloc_dealloc] in R. destruct (IH s s' V2 I R) as [G1 G2]. split; auto. }
      cbn [heap_step] in R.
      destruct (alloc_step_ok P U s c HU I V1) as (s1 & E1 & H). rewrite E1 in R. cbn [bind] in R. destruct (step_inv U s c s1 I H) as [I1 _].
      destruct (IH s1 s' V2 I1 R) as [G1 G2]. clear IH R E1 I1 V1 V2.
      assert (C : rounds t (Do c :: cs) = ((match c with Attempt u false => if Nat.eqb u t then 1 else 0 | _ => 0 end) + rounds t cs)%nat).
      { unfold rounds. cbn [filter]. destruct c as [u l|u [|]]; auto. destruct (Nat.eqb u t); auto. }
      rewrite C. clear C.
      destruct H as [u l Eu|u b Eu|u l Eu V A|u l Eu V A|u l mask prev x b Eu A|u l mask prev x y b Eu A B|u l mask x Eu A o].
      + split; [lia|]. exact G2.
      + split; [lia|]. intros l m prev x E. destruct b; [exact (G2 l m prev x E)|]. destruct (Nat.eqb_spec u t) as [->|]; [congruence|]. exact (G2 l m prev x E).
      + unfold finished in *. cbn [as_events as_threads] in *. split; auto. intros l' m prev x E. apply (G2 l' m prev x). unfold set_thread. destruct (Nat.eqb_spec t u) as [->|]; [congruence|auto].
      + rewrite answered_cons, app_length in G1, G2. fold (finished s) in *. cbn [ev_thread ev_layout as_threads] in *. split; [lia|]. intros l' m prev x E.
        destruct (Nat.eqb_spec u t) as [->|]; [congruence|]. cbn [length] in G2. rewrite Nat.add_0_r in G2. exact (G2 l' m prev x E).
      + rewrite answered_cons, app_length in G1, G2. fold (finished s) in *. cbn [ev_thread ev_layout as_threads] in *. split; [lia|]. intros l' m prev' x' E.
        destruct (Nat.eqb_spec u t) as [->|Ne]; [cbn [length] in G1; left; lia|]. cbn [length] in G2. rewrite Nat.add_0_r in G2.
        destruct (G2 l' m prev' x') as [G|G]; [unfold set_thread; destruct (Nat.eqb_spec t u); [congruence|auto]|left; exact G|right; destruct b; exact G].
      + unfold finished in *. cbn [as_events as_threads] in *. split; auto. intros l' m' prev' x' E.
        destruct (Nat.eqb_spec u t) as [->|Ne].
        * rewrite Eu in E. injection E as -> -> -> ->. destruct (G2 l' m' (as_remaining s) y) as [G|(y' & p' & Q1 & Q2)]; [unfold set_thread; now rewrite Nat.eqb_refl|left; exact G|].
          right. exists y', p'. split; auto. pose proof (ai_threads U s I t) as T. rewrite Eu in T. cbn in T. destruct T as (_ & _ & _ & T & _).
          destruct b; [lia|]. destruct B as [B|B]; [discriminate|]. lia.
        * destruct (G2 l' m' prev' x') as [G|G]; [unfold set_thread; destruct (Nat.eqb_spec t u); [congruence|auto]|left; exact G|right; destruct b; exact G].
      + rewrite answered_cons, app_length in G1, G2. fold (finished s) in *. cbn [ev_thread ev_layout as_threads] in *. split; [lia|]. intros l' m prev' x' E.
        destruct (Nat.eqb_spec u t) as [->|Ne]; [cbn [length] in G1; left; lia|]. cbn [length] in G2. rewrite Nat.add_0_r in G2.
        destruct (G2 l' m prev' x') as [G|G]; [unfold set_thread; destruct (Nat.eqb_spec t u); [congruence|auto]|left; exact G|right; exact G]. }
  destruct (G cs' s s' V' I R') as [_ G2]. unfold pending in Pd. destruct (as_threads s t) as [|l m prev x] eqn:E; [congruence|].
  destruct (G2 l m prev x eq_refl) as [D|(y & p' & _ & D)]; [exact D|]. pose proof (ai_threads U s I t) as T. rewrite E in T. cbn in T.
  destruct T as (_ & _ & _ & _ & T). change ARENA_SIZE with (128 * 1024) in T. lia.
Qed.
Lemma serial_same l k q : l_align l = 2 ^ k -> k <= 12 -> 0 < l_size l -> l_size l = q * l_align l -> forall n rem j i, rem = j * l_align l ->
  nth_error (snd (serial_run rem (repeat l n))) i =
    if (i <? n)%nat then Some (if N.of_nat (S i) * l_size l <=? rem then Some (rem - N.of_nat (S i) * l_size l) else None) else None.
Proof.
  intros A K S0 Q. assert (A0 : 0 < l_align l) by (rewrite A; apply N.neq_0_lt_0, N.pow_nonzero; lia).
  assert (A1 : l_align l <= 4096) by (rewrite A; change 4096 with (2 ^ 12); apply N.pow_le_mono_r; lia).
  induction n as [|n IH]; intros rem j i R; cbn [repeat serial_run snd]; [destruct i; reflexivity|].
  unfold serial_alloc. replace (4096 <? l_align l) with false by lia. cbn [orb].
  destruct (N.ltb_spec rem (l_size l)) as [L|L].
  - specialize (IH rem j). destruct (serial_run rem (repeat l n)) as [r os]. cbn [snd] in *. destruct i as [|i]; cbn [nth_error].
    + cbn [Nat.ltb Nat.leb]. replace (N.of_nat 1 * l_size l <=? rem) with false by (symmetry; apply N.leb_gt; lia). reflexivity.
    + rewrite IH by auto. change (S i <? S n)%nat with (i <? n)%nat. destruct (i <? n)%nat; auto.
      replace (N.of_nat (S i) * l_size l <=? rem) with false by (symmetry; apply N.leb_gt; lia).
      replace (N.of_nat (S (S i)) * l_size l <=? rem) with false by (symmetry; apply N.leb_gt; lia). reflexivity.
  - assert (Z : (rem - l_size l) / l_align l * l_align l = rem - l_size l).
    { rewrite R, Q, <- N.mul_sub_distr_r, N.div_mul by lia. reflexivity. }
    rewrite Z. specialize (IH (rem - l_size l) (j - q)). destruct (serial_run (rem - l_size l) (repeat l n)) as [r os]. cbn [snd] in *. destruct i as [|i]; cbn [nth_error].
    + cbn [Nat.ltb Nat.leb]. replace (N.of_nat 1 * l_size l <=? rem) with true by (symmetry; apply N.leb_le; lia). do 2 f_equal. lia.
    + rewrite IH by (rewrite R, Q, N.mul_sub_distr_r; reflexivity). change (S i <? S n)%nat with (i <? n)%nat. destruct (i <? n)%nat; auto. f_equal.
      destruct (N.leb_spec (N.of_nat (S i) * l_size l) (rem - l_size l)), (N.leb_spec (N.of_nat (S (S i)) * l_size l) rem); try lia; auto. f_equal. lia.
Qed.
(** C63: if all requests are for the same layout with a size that is a multiple of its alignment, as for a [Box] of one type, exactly
    the first 128 KiB / size of them are served, one block below the other. *)
Lemma c63_same_size_pf : forall P U cs s l i e, 17 < U -> Forall (valid_heap_choice U) cs -> heap_run P U alloc_init cs = Ret s ->
  (forall e, In e (finished s) -> ev_layout e = l) -> 0 < l_size l -> l_size l mod l_align l = 0 -> l_align l <= 4096 ->
  nth_error (finished s) i = Some e ->
  ev_offset e = if N.of_nat i <? 128 * 1024 / l_size l then Some (128 * 1024 - (N.of_nat i + 1) * l_size l) else None.
Proof.
  intros P U cs s l i e HU V R Al S0 M A E. pose proof (heap_inv P U cs s HU V R) as I. pose proof (ai_serial U s I) as Se.
  assert (Vl : valid_layout U l).
  { pose proof (ai_layouts U s I) as L. rewrite Forall_forall in L. specialize (L e (proj2 (in_rev _ _) (nth_error_In _ _ E))). rewrite (Al e (nth_error_In _ _ E)) in L. exact L. }
  destruct Vl as [(k & _ & Ak) _].
  assert (K : k <= 12). { destruct (N.le_gt_cases k 12); auto. rewrite Ak in A. change 4096 with (2 ^ 12) in A. apply N.pow_le_mono_r_iff in A; lia. }
  assert (Rp : map ev_layout (finished s) = repeat l (length (finished s))).
  { clear - Al. induction (finished s) as [|x es IH]; cbn; auto. rewrite (Al x (or_introl eq_refl)), IH; auto. intros y Hy. apply Al. now right. }
  assert (A0 : 0 < l_align l) by (rewrite Ak; apply N.neq_0_lt_0, N.pow_nonzero; lia).
  apply N.mod_divide in M as [q Q]; [|lia].
  pose proof (serial_same l k q Ak K S0 Q (length (finished s)) ARENA_SIZE (2 ^ (17 - k)) i) as X. rewrite <- Rp, Se in X. cbn [snd] in X.
  rewrite (event_offset s i e E) in X. assert (L : (i < length (finished s))%nat) by (apply nth_error_Some; congruence).
  replace (i <? length (finished s))%nat with true in X by (symmetry; now apply Nat.ltb_lt). specialize (X ltac:(rewrite Ak, <- N.pow_add_r; replace (17 - k + k) with 17 by lia; reflexivity)). injection X as X. rewrite X.
  change ARENA_SIZE with (128 * 1024). destruct (N.leb_spec (N.of_nat (S i) * l_size l) (128 * 1024)) as [D|D], (N.ltb_spec (N.of_nat i) (128 * 1024 / l_size l)) as [D'|D']; auto.
  - f_equal. lia.
  - exfalso. assert (N.of_nat (S i) <= 128 * 1024 / l_size l) by (apply N.div_le_lower_bound; lia). lia.
  - exfalso. assert (B : l_size l * (128 * 1024 / l_size l) <= 128 * 1024) by (apply N.mul_div_le; lia). nia.
Qed.
