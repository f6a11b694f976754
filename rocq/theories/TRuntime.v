(** Proofs of the property theorems on the no-std runtime (restated in Prop_Runtime.v). *)
From Verif Require Export LRuntime.
(*PROPHEAD
Property theorems C46-C48: the no-std runtime of the C library
From Verif Require Import LSampleA.
*)

(** ** The allocator. [U] is the number of bits of usize; an arena of 128 KiB needs at least 18. *)

Lemma run_facts P U cs s : 17 < U -> Forall (valid_choice U) cs -> alloc_run P U alloc_init cs = Ret s -> alloc_inv U s.
Proof. intros HU V E. destruct (alloc_run_ok P U cs HU alloc_init (alloc_init_inv U) V) as (s' & E' & I & _). congruence. Qed.
(** C46: under every schedule [alloc] neither panics nor overflows, and the answers are those of the calls run one after the
    other in the order in which they finished. *)
Lemma c46_serial_pf : forall P U cs, 17 < U -> Forall (valid_choice U) cs ->
  exists s, alloc_run P U alloc_init cs = Ret s /\
    serial_run (128 * 1024) (map ev_layout (finished s)) = (as_remaining s, map ev_offset (finished s)).
Proof.
  intros P U cs HU V. destruct (alloc_run_ok P U cs HU alloc_init (alloc_init_inv U) V) as (s & E & I & _). exists s. split; auto. apply (ai_serial U s I).
Qed.
Lemma event_offset s i e : nth_error (finished s) i = Some e -> nth_error (map ev_offset (finished s)) i = Some (ev_offset e).
Proof. apply map_nth_error. Qed.
(** C46: every non-null result is a block inside the arena at an offset that is a multiple of the alignment. *)
Lemma c46_inside_pf : forall P U cs s e o, 17 < U -> Forall (valid_choice U) cs -> alloc_run P U alloc_init cs = Ret s ->
  In e (finished s) -> ev_offset e = Some o ->
  o + l_size (ev_layout e) <= 128 * 1024 /\ o mod l_align (ev_layout e) = 0 /\ l_align (ev_layout e) <= 4096.
Proof.
  intros P U cs s e o HU V E Hi Ho. pose proof (run_facts P U cs s HU V E) as I. apply In_nth_error in Hi as [i Hi].
  pose proof (serial_below (map ev_layout (finished s)) ARENA_SIZE i o) as B. rewrite (ai_serial U s I) in B. cbn [snd] in B.
  rewrite (event_offset s i e Hi), Ho in B. destruct (B eq_refl) as (l & A1 & A2 & A3 & A4 & _).
  rewrite (map_nth_error ev_layout i _ Hi) in A1. injection A1 as <-. auto.
Qed.
(** C46: blocks of different calls never overlap. *)
Lemma c46_disjoint_pf : forall P U cs s i j e e' x, 17 < U -> Forall (valid_choice U) cs -> alloc_run P U alloc_init cs = Ret s ->
  nth_error (finished s) i = Some e -> nth_error (finished s) j = Some e' -> i <> j -> in_block e x -> in_block e' x -> False.
Proof.
  intros P U cs s i j e e' x HU V E Hi Hj N (o & Ho & Bo) (o' & Ho' & Bo'). pose proof (run_facts P U cs s HU V E) as I.
  pose proof (serial_ordered (map ev_layout (finished s)) ARENA_SIZE) as B. rewrite (ai_serial U s I) in B. cbn [snd] in B.
  destruct (Nat.lt_total i j) as [L|[L|L]]; [|congruence|].
  - specialize (B i j o o' (ev_layout e') L). rewrite (event_offset s i e Hi), (event_offset s j e' Hj), Ho, Ho', (map_nth_error ev_layout j _ Hj) in B.
    specialize (B eq_refl eq_refl eq_refl). lia.
  - specialize (B j i o' o (ev_layout e) L). rewrite (event_offset s i e Hi), (event_offset s j e' Hj), Ho, Ho', (map_nth_error ev_layout i _ Hi) in B.
    specialize (B eq_refl eq_refl eq_refl). lia.
Qed.
Lemma bytes_left_serial es : forall rem r, serial_run rem (map ev_layout es) = (r, map ev_offset es) ->
  r = fold_left (fun r e => match ev_offset e with Some o => o | None => r end) es rem.
Proof.
  induction es as [|e es IH]; intros rem r; cbn [map serial_run fold_left]; [congruence|].
  destruct (serial_alloc rem (ev_layout e)) as [r1 o] eqn:E. destruct (serial_run r1 (map ev_layout es)) as [r2 os] eqn:E2. intros [= H1 H2 H3].
  rewrite <- H2. subst r os. apply IH in E2. unfold serial_alloc in E. destruct (_ || _); injection E as <- <-; exact E2.
Qed.
(** C46: null is returned exactly if the alignment is above 4096 or the request does not fit below the lowest block handed out. *)
Lemma c46_null_pf : forall P U cs s es e es', 17 < U -> Forall (valid_choice U) cs -> alloc_run P U alloc_init cs = Ret s ->
  finished s = es ++ e :: es' ->
  (ev_offset e = None <-> 4096 < l_align (ev_layout e) \/ bytes_left es < l_size (ev_layout e)) /\
  (forall o, ev_offset e = Some o -> o = (bytes_left es - l_size (ev_layout e)) / l_align (ev_layout e) * l_align (ev_layout e)).
Proof.
  intros P U cs s es e es' HU V E F. pose proof (ai_serial U s (run_facts P U cs s HU V E)) as S. rewrite F, !map_app in S. cbn [map] in S.
  rewrite serial_run_split in S. destruct (serial_run ARENA_SIZE (map ev_layout es)) as [r os] eqn:E1.
  cbn [serial_run] in S. destruct (serial_alloc r (ev_layout e)) as [r1 o1] eqn:E2. destruct (serial_run r1 (map ev_layout es')) as [r2 os2]. injection S as S1 S2.
  assert (L : length os = length (map ev_offset es)).
  { pose proof (serial_run_length (map ev_layout es) ARENA_SIZE) as L. rewrite E1 in L. cbn in L. rewrite L, !map_length. reflexivity. }
  assert (Q : os = map ev_offset es /\ o1 :: os2 = ev_offset e :: map ev_offset es').
  { clear - S2 L. revert L S2. generalize (map ev_offset es). induction os as [|a os IH]; intros [|b l] L H; try discriminate; auto.
    cbn in H. injection H as -> H. destruct (IH l) as [-> ?]; auto. }
  destruct Q as [-> Q]. injection Q as Q1 Q2. apply bytes_left_serial in E1. change (r = bytes_left es) in E1. subst r.
  unfold serial_alloc in E2. destruct (_ || _) eqn:B; injection E2 as <- <-; rewrite <- Q1.
  - apply orb_true_iff in B. rewrite !N.ltb_lt in B. split; [tauto|discriminate].
  - apply orb_false_iff in B. rewrite !N.ltb_ge in B. split; [split; [discriminate|lia]|congruence].
Qed.
Lemma filter_app_one {A} (f : A -> bool) l x : filter f (l ++ [x]) = filter f l ++ if f x then [x] else [].
Proof. rewrite filter_app. reflexivity. Qed.
Lemma answered_cons t r th e es : answered t (finished (AllocState r th (e :: es))) = answered t (rev es) ++ if Nat.eqb (ev_thread e) t then [ev_layout e] else [].
Proof. unfold answered. rewrite finished_cons, filter_app_one, map_app. destruct (Nat.eqb (ev_thread e) t); reflexivity. Qed.
(** C46: every call gets exactly one answer, in the order of its thread's calls; at most the thread's last call is pending. *)
Lemma c46_answers_pf : forall P U cs s t, 17 < U -> Forall (valid_choice U) cs -> alloc_run P U alloc_init cs = Ret s ->
  answered t (finished s) ++ pending s t = calls_of t (calls P U alloc_init cs).
Proof.
  intros P U cs s t HU V.
  assert (G : forall cs, Forall (valid_choice U) cs -> forall s0 s, alloc_inv U s0 -> alloc_run P U s0 cs = Ret s ->
    answered t (finished s) ++ pending s t = (answered t (finished s0) ++ pending s0 t) ++ calls_of t (calls P U s0 cs)).
  { clear cs V s. induction cs as [|c cs IH]; intros V s0 s I E; cbn [alloc_run calls] in *.
    - injection E as <-. now rewrite app_nil_r.
    - inversion_clear V as [|? ? V1 V2]. destruct (alloc_step_ok P U s0 c HU I V1) as (s1 & E1 & H). rewrite E1 in *. cbn [bind] in E.
      destruct (step_inv U s0 c s1 I H) as [I1 _]. rewrite (IH V2 s1 s I1 E). unfold calls_of at 2. rewrite filter_app, map_app.
      fold (calls_of t (calls P U s1 cs)). rewrite !app_assoc. f_equal. clear IH E I1 V2.
      destruct H as [u l Eu|u b Eu|u l Eu V A|u l Eu V A|u l mask prev x b Eu A|u l mask prev x y b Eu A B|u l mask x Eu A o]; rewrite ?Eu in *; cbn [filter map app]; rewrite ?app_nil_r.
      + destruct (as_threads s0 u); [congruence|]. now rewrite app_nil_r.
      + reflexivity.
      + unfold finished. cbn [as_events]. rewrite <- app_assoc. f_equal. unfold pending. cbn [as_threads]. unfold set_thread. cbn [fst]. rewrite (Nat.eqb_sym t u).
        destruct (Nat.eqb_spec u t) as [->|]; [rewrite Eu; reflexivity|cbn; now rewrite app_nil_r].
      + rewrite answered_cons. fold (finished s0). cbn [ev_thread ev_layout fst]. unfold pending. cbn [as_threads]. rewrite <- !app_assoc. f_equal.
        destruct (Nat.eqb_spec u t) as [->|]; [rewrite Eu; reflexivity|]. cbn. now rewrite app_nil_r.
      + rewrite answered_cons. fold (finished s0). cbn [ev_thread ev_layout]. rewrite <- app_assoc. f_equal. unfold pending. cbn [as_threads]. unfold set_thread.
        rewrite (Nat.eqb_sym t u). destruct (Nat.eqb_spec u t) as [->|]; [rewrite Eu; reflexivity|reflexivity].
      + unfold finished. cbn [as_events]. f_equal. unfold pending. cbn [as_threads]. unfold set_thread. rewrite (Nat.eqb_sym t u).
        destruct (Nat.eqb_spec u t) as [->|]; [rewrite Eu; reflexivity|reflexivity].
      + rewrite answered_cons. fold (finished s0). cbn [ev_thread ev_layout]. rewrite <- app_assoc. f_equal. unfold pending. cbn [as_threads]. unfold set_thread.
        rewrite (Nat.eqb_sym t u). destruct (Nat.eqb_spec u t) as [->|]; [rewrite Eu; reflexivity|reflexivity]. }
  intros E. apply (G cs V alloc_init s (alloc_init_inv U) E).
Qed.
(** C46: a call that is left alone for two attempts without spurious failures finishes. *)
Lemma c46_finishes_alone_pf : forall P U cs s t, 17 < U -> Forall (valid_choice U) cs -> alloc_run P U alloc_init cs = Ret s ->
  exists s', alloc_run P U s [Attempt t false; Attempt t false] = Ret s' /\ as_threads s' t = Idle.
Proof.
  intros P U cs s t HU V E. pose proof (run_facts P U cs s HU V E) as I. cbn [alloc_run].
  destruct (alloc_step_ok P U s (Attempt t false) HU I Logic.I) as (s1 & E1 & H1). rewrite E1. cbn [bind]. destruct (step_inv U s _ s1 I H1) as [I1 _].
  destruct (alloc_step_ok P U s1 (Attempt t false) HU I1 Logic.I) as (s2 & E2 & H2). rewrite E2. cbn [bind]. exists s2. split; auto.
  assert (D : as_threads s1 t = Idle \/ exists l m x, as_threads s1 t = Trying l m (as_remaining s1) x).
  { inversion H1; subst; cbn [as_threads as_remaining] in *; unfold set_thread; rewrite ?Nat.eqb_refl; eauto. }
  clear - D H2. inversion H2; subst; cbn [as_threads as_remaining] in *; unfold set_thread; rewrite ?Nat.eqb_refl; auto.
  destruct D as [D|(l' & m' & x' & D)]; [congruence|]. exfalso. rewrite D in *. match goal with H : Trying _ _ _ _ = _ |- _ => injection H as <- <- <- <- end.
  match goal with H : _ \/ _ |- _ => destruct H as [H|H]; [discriminate H|congruence] end.
Qed.

(** C47: a pointer returned by [alloc] is aligned exactly if the arena itself is aligned that much.
    Full statement: [forall P U base cs s e o, 17 < U -> allowed_base base -> Forall (valid_choice U) cs -> alloc_run P U alloc_init cs = Ret s ->
    In e (finished s) -> ev_offset e = Some o -> alloc_pointer base o mod l_align (ev_layout e) = 0]. *)
Lemma c47_aligned_iff_partial_pf : forall P U base cs s e o, 17 < U -> Forall (valid_choice U) cs -> alloc_run P U alloc_init cs = Ret s ->
  In e (finished s) -> ev_offset e = Some o ->
  (alloc_pointer base o mod l_align (ev_layout e) = 0 <-> base mod l_align (ev_layout e) = 0).
Proof.
  intros P U base cs s e o HU V E Hi Ho. destruct (c46_inside_pf P U cs s e o HU V E Hi Ho) as (_ & M & _). unfold alloc_pointer.
  pose proof (run_facts P U cs s HU V E) as I. pose proof (ai_layouts U s I) as L. rewrite Forall_forall in L. specialize (L e (proj2 (in_rev _ _) Hi)).
  destruct L as [(k & _ & A) _]. pose proof (N.pow_nonzero 2 k ltac:(lia)). rewrite N.add_mod, M, N.add_0_r, N.mod_mod by lia. tauto.
Qed.
Lemma first_call P U l : 17 < U -> valid_layout U l -> l_align l <= 4096 -> l_size l <= ARENA_SIZE ->
  let o := (ARENA_SIZE - l_size l) / l_align l * l_align l in
  exists s, alloc_run P U alloc_init [Call 0 l; Attempt 0 false] = Ret s /\ finished s = [AllocEvent 0 l (Some o)].
Proof.
  intros HU V A S o. assert (AU : ARENA_SIZE < 2 ^ U). { change ARENA_SIZE with (2 ^ 17). apply N.pow_lt_mono_r; lia. }
  cbn [alloc_run alloc_step alloc_init as_threads as_remaining as_events]. rewrite align_mask_ok by auto. cbn [bind]. unfold MAX_SUPPORTED_ALIGN.
  replace (4096 <? l_align l) with false by lia. cbn [bind as_threads as_remaining as_events]. change (set_thread (fun _ => Idle) 0 (Trying l (not_w U (l_align l - 1)) ARENA_SIZE 0) 0%nat) with (Trying l (not_w U (l_align l - 1)) ARENA_SIZE 0).
  cbv iota. rewrite closure_ok by auto. replace (ARENA_SIZE <? l_size l) with false by lia. cbn [bind]. rewrite N.eqb_refl. cbn [andb negb bind].
  eexists. split; [reflexivity|]. reflexivity.
Qed.
(** C47: if the arena is aligned to 4096 bytes, every pointer is aligned; otherwise some call returns an unaligned one.
    Full statement: as above, for every [allowed_base base]. *)
Lemma c47_aligned_arena_partial_pf : forall P U base, 17 < U ->
  (base mod 4096 = 0 <->
   forall cs s e o, Forall (valid_choice U) cs -> alloc_run P U alloc_init cs = Ret s -> In e (finished s) -> ev_offset e = Some o ->
     alloc_pointer base o mod l_align (ev_layout e) = 0).
Proof.
  intros P U base HU. split.
  - intros B cs s e o V E Hi Ho. apply (c47_aligned_iff_partial_pf P U base cs s e o HU V E Hi Ho).
    destruct (c46_inside_pf P U cs s e o HU V E Hi Ho) as (_ & _ & A).
    pose proof (run_facts P U cs s HU V E) as I. pose proof (ai_layouts U s I) as L. rewrite Forall_forall in L. specialize (L e (proj2 (in_rev _ _) Hi)).
    destruct L as [(k & _ & Ak) _]. rewrite Ak in *. change 4096 with (2 ^ 12) in *. apply N.pow_le_mono_r_iff in A; [|lia].
    apply N.mod_divide in B; [|discriminate]. apply N.mod_divide; [apply N.pow_nonzero; lia|]. eapply N.divide_trans; [|exact B].
    exists (2 ^ (12 - k)). rewrite <- N.pow_add_r. f_equal. lia.
  - intros H. destruct (first_call P U (Layout 1 4096) HU) as (s & E & F); [split; [exists 12; split; [lia|reflexivity]|cbn; apply N.pow_gt_1; lia]|cbn; lia|cbn; unfold ARENA_SIZE; lia|].
    set (o := (ARENA_SIZE - 1) / 4096 * 4096) in *.
    assert (V : Forall (valid_choice U) [Call 0 (Layout 1 4096); Attempt 0 false]).
    { repeat constructor; cbn; [exists 12; split; [lia|reflexivity]|apply N.pow_gt_1; lia]. }
    assert (In (AllocEvent 0 (Layout 1 4096) (Some o)) (finished s)) as Hi by (rewrite F; now left).
    specialize (H _ s _ o V E Hi eq_refl). now apply (c47_aligned_iff_partial_pf P U base _ s _ o HU V E Hi eq_refl) in H.
Qed.
(** C47 is false: the type of the arena static permits placements at which [alloc] returns an unaligned pointer, whatever the alignment
    asked for above 1. Full statement: as above. *)
Lemma c47_aligned_refuted_pf : forall P U k, 17 < U -> 1 <= k <= 12 ->
  exists base cs s e o, allowed_base base /\ Forall (valid_choice U) cs /\ alloc_run P U alloc_init cs = Ret s /\
    In e (finished s) /\ ev_offset e = Some o /\ l_align (ev_layout e) = 2 ^ k /\
    alloc_pointer base o mod l_align (ev_layout e) <> 0.
Proof.
  intros P U k HU K. pose (l := Layout 1 (2 ^ k)).
  assert (K1 : 1 < 2 ^ k) by (apply N.pow_gt_1; lia). assert (K2 : 2 ^ k <= 2 ^ 12) by (apply N.pow_le_mono_r; lia).
  assert (Vl : valid_layout U l). { split; [exists k; split; [lia|reflexivity]|cbn; apply N.pow_gt_1; lia]. }
  destruct (first_call P U l HU Vl) as (s & E & F); [exact K2|cbn; unfold ARENA_SIZE; lia|].
  assert (V : Forall (valid_choice U) [Call 0 l; Attempt 0 false]) by (constructor; [exact Vl|repeat constructor]).
  set (o := (ARENA_SIZE - l_size l) / l_align l * l_align l) in *.
  assert (Hi : In (AllocEvent 0 l (Some o)) (finished s)) by (rewrite F; now left).
  exists 1, [Call 0 l; Attempt 0 false], s, (AllocEvent 0 l (Some o)), o. split; [reflexivity|]. split; auto. split; auto. split; auto. split; [reflexivity|]. split; [reflexivity|].
  intros H. apply (c47_aligned_iff_partial_pf P U 1 _ s _ o HU V E Hi eq_refl) in H. cbn [ev_layout l_align l] in H. rewrite N.mod_small in H by lia. discriminate.
Qed.

(** ** Memory routines *)
(** C48: [memcpy] between regions that do not overlap copies [n] bytes, changes nothing else, makes no invalid access and returns [dest]. *)
Lemma c48_memcpy_pf : forall m dest src n, accessible m src n -> accessible m dest n -> apart dest src n ->
  exists m', memcpy m dest src n = Ret (m', dest) /\ filled m m' dest n (fun i => m (src + i)).
Proof.
  intros m dest src n S D A. destruct (memcpy_loop m dest src n S D A) as (m' & E & F & _). exists m'. unfold memcpy. rewrite E. auto.
Qed.
(** C48: [memset] fills [n] bytes with the low byte of [c] (a two's complement i32), changes nothing else and returns [b]. *)
Lemma c48_memset_pf : forall m b c n, (- 2 ^ 31 <= c < 2 ^ 31)%Z -> accessible m b n ->
  exists m' v, memset m b c n = Ret (m', b) /\ v < 256 /\ (exists q, c = (256 * q + Z.of_N v)%Z) /\ filled m m' b n (fun _ => Some v).
Proof.
  intros m b c n C A. destruct (fill_loop m b n (i32_as_u8 c) A) as (m' & E & F & _). exists m', (i32_as_u8 c). unfold memset. rewrite E. split; auto.
  unfold i32_as_u8. pose proof (Z.mod_pos_bound c 256 ltac:(lia)). split; [lia|]. split; auto. exists (c / 256)%Z. rewrite Z2N.id by lia. apply Z.div_mod. lia.
Qed.
(** C48: [__bzero] clears [n] bytes and changes nothing else. *)
Lemma c48_bzero_pf : forall m s n, accessible m s n -> exists m', bzero m s n = Ret m' /\ filled m m' s n (fun _ => Some 0).
Proof. intros m s n A. destruct (fill_loop m s n 0 A) as (m' & E & F & _). exists m'. auto. Qed.
(** C48: [memcmp] of equal regions is 0; otherwise it is the difference of the first bytes that differ, so it has its sign, and it is not 0. *)
Lemma c48_memcmp_pf : forall P m a b n, holds_bytes m -> accessible m a n -> accessible m b n ->
  exists r, memcmp P m a b n = Ret r /\
    (r = 0%Z <-> forall i, i < n -> m (a + i) = m (b + i)) /\
    (forall i, i < n -> first_difference m a b i ->
       exists v w, m (a + i) = Some v /\ m (b + i) = Some w /\ r = (Z.of_N v - Z.of_N w)%Z /\ ((r < 0)%Z <-> v < w) /\ ((0 < r)%Z <-> w < v)).
Proof.
  intros P m a b n HB A B.
  assert (D : forall k, k <= n -> (forall i, i < k -> m (a + i) = m (b + i)) \/ exists i, i < k /\ first_difference m a b i).
  { induction k as [|k IH] using N.peano_ind; intros K; [left; intros i; lia|]. destruct IH as [IH|(i & Hi & F)]; [lia| |right; exists i; split; auto; lia].
    assert (Q : {m (a + k) = m (b + k)} + {m (a + k) <> m (b + k)}) by (decide equality; apply N.eq_dec).
    destruct Q as [Q|Q].
    - left. intros i Hi. destruct (N.eq_dec i k) as [->|]; auto. apply IH. lia.
    - right. exists k. split; [lia|]. split; auto. }
  assert (EQ : forall i, i < n -> m (a + i) = m (b + i) -> exists v, m (a + i) = Some v /\ m (b + i) = Some v).
  { intros i Hi Q. destruct (A i Hi) as [v Hv]. exists v. split; congruence. }
  unfold memcmp. destruct (D n ltac:(lia)) as [Q|(i & Hi & F)].
  - exists 0%Z. split.
    + rewrite <- (app_nil_r (range 0 n)). rewrite memcmp_app; auto. intros i Hi. apply range_In in Hi. apply EQ; [lia|]. apply Q. lia.
    + split; [tauto|]. intros i Hi [N _]. now destruct (N (Q i Hi)).
  - destruct (A i Hi) as [v Hv]. destruct (B i Hi) as [w Hw]. exists (Z.of_N v - Z.of_N w)%Z. destruct F as [F1 F2].
    pose proof (HB _ _ Hv) as Bv. pose proof (HB _ _ Hw) as Bw.
    assert (NE : v <> w) by congruence.
    split; [|split].
    + destruct (range_cut i n Hi) as [l ->]. rewrite memcmp_app.
      * cbn [memcmp_loop]. unfold mem_read. rewrite Hv, Hw. cbn [bind]. destruct (N.eqb_spec v w); [congruence|]. cbn [negb]. unfold i32_sub.
        replace ((-2147483648 <=? Z.of_N v - Z.of_N w) && (Z.of_N v - Z.of_N w <=? 2147483647))%Z with true by lia. reflexivity.
      * intros j Hj. apply range_In in Hj. apply EQ; [lia|]. apply F2. lia.
    + split; [lia|]. intros Q. specialize (Q i Hi). congruence.
    + intros j Hj [G1 G2]. assert (j = i). { destruct (N.lt_total i j) as [L|[L|L]]; auto; [now destruct (F1 (G2 i L))|now destruct (G1 (F2 j L))]. } subst j.
      exists v, w. split; auto. split; auto. split; auto. lia.
Qed.
(** C48: [memcmp] looks at no byte after the first difference. *)
Lemma c48_memcmp_stops_pf : forall P m a b n i, i < n -> holds_bytes m -> accessible m a (i + 1) -> accessible m b (i + 1) -> first_difference m a b i ->
  exists r, memcmp P m a b n = Ret r /\ r <> 0%Z.
Proof.
  intros P m a b n i Hi HB A B F. destruct (A i) as [v Hv]; [lia|]. destruct (B i) as [w Hw]; [lia|]. destruct F as [F1 F2].
  pose proof (HB _ _ Hv) as Bv. pose proof (HB _ _ Hw) as Bw. assert (NE : v <> w) by congruence.
  exists (Z.of_N v - Z.of_N w)%Z. split; [|lia]. unfold memcmp. destruct (range_cut i n Hi) as [l ->]. rewrite memcmp_app.
  - cbn [memcmp_loop]. unfold mem_read. rewrite Hv, Hw. cbn [bind]. destruct (N.eqb_spec v w); [congruence|]. cbn [negb]. unfold i32_sub.
    replace ((-2147483648 <=? Z.of_N v - Z.of_N w) && (Z.of_N v - Z.of_N w <=? 2147483647))%Z with true by lia. reflexivity.
  - intros j Hj. apply range_In in Hj. destruct (A j) as [x Hx]; [lia|]. exists x. split; auto. rewrite <- F2; auto. lia.
Qed.
