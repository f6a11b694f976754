(** Lemmas on the no-std runtime. *)
From Verif Require Export LBase LBits SpecRuntime.

(** ** Memory *)
Lemma range_0_succ n : range 0 (N.succ n) = range 0 n ++ [n].
Proof.
  unfold range. rewrite !N.sub_0_r, N2Nat.inj_succ, seq_S, map_app. cbn [map]. f_equal. f_equal. lia.
Qed.
Lemma for_each_app {A S} (l l' : list A) f (s : S) : for_each (l ++ l') f s = (s' <- for_each l f s;; for_each l' f s').
Proof. revert s. induction l as [|x l IH]; intros s; [reflexivity|]. cbn. destruct (f x s); cbn; auto. Qed.
Lemma memcpy_loop m dest src n : accessible m src n -> accessible m dest n -> apart dest src n ->
  exists m', for_each (range 0 n) (fun i m => value <- mem_read m (src + i);; mem_write m (dest + i) value) m = Ret m' /\
    filled m m' dest n (fun i => m (src + i)) /\ (forall x, m' x = None <-> m x = None).
Proof.
  intros S D A. assert (G : forall k, k <= n -> exists m', for_each (range 0 k) (fun i m => value <- mem_read m (src + i);; mem_write m (dest + i) value) m = Ret m' /\
    filled m m' dest k (fun i => m (src + i)) /\ (forall x, m' x = None <-> m x = None)).
  { induction k as [|k IH] using N.peano_ind; intros H.
    - exists m. split; [reflexivity|]. split; [split; [intros i Hi; lia|auto]|tauto].
    - destruct IH as (m' & E & [F1 F2] & F3); [lia|]. rewrite range_0_succ, for_each_app, E. cbn [bind for_each].
      destruct (S k) as [v Hv]; [lia|]. destruct (D k) as [w Hw]; [lia|].
      assert (Hs : m' (src + k) = Some v).
      { rewrite F2; auto. intros Q. apply (A (src + k)); unfold in_region in *; lia. }
      assert (Hd : m' (dest + k) = Some w). { rewrite F2; auto. unfold in_region. lia. }
      unfold mem_read at 1. rewrite Hs. cbn [bind]. unfold mem_write. rewrite Hd. cbn [bind]. eexists. split; [reflexivity|]. split; [split|].
      + intros i Hi. destruct (N.eqb_spec (dest + i) (dest + k)) as [Ei|Ni]; [replace i with k by lia; now rewrite Hv|]. apply F1. lia.
      + intros x Hx. unfold in_region in *. destruct (N.eqb_spec x (dest + k)); [lia|]. apply F2. unfold in_region. lia.
      + intros x. destruct (N.eqb_spec x (dest + k)) as [->|]; auto. rewrite Hw. split; discriminate. }
  apply G. lia.
Qed.
Lemma fill_loop m a n v : accessible m a n ->
  exists m', for_each (range 0 n) (fun i m => mem_write m (a + i) v) m = Ret m' /\ filled m m' a n (fun _ => Some v) /\ (forall x, m' x = None <-> m x = None).
Proof.
  intros D. assert (G : forall k, k <= n -> exists m', for_each (range 0 k) (fun i m => mem_write m (a + i) v) m = Ret m' /\
    filled m m' a k (fun _ => Some v) /\ (forall x, m' x = None <-> m x = None)).
  { induction k as [|k IH] using N.peano_ind; intros H.
    - exists m. split; [reflexivity|]. split; [split; [intros i Hi; lia|auto]|tauto].
    - destruct IH as (m' & E & [F1 F2] & F3); [lia|]. rewrite range_0_succ, for_each_app, E. cbn [bind for_each].
      destruct (D k) as [w Hw]; [lia|].
      assert (Hd : m' (a + k) = Some w). { rewrite F2; auto. unfold in_region. lia. }
      unfold mem_write. rewrite Hd. cbn [bind]. eexists. split; [reflexivity|]. split; [split|].
      + intros i Hi. destruct (N.eqb_spec (a + i) (a + k)) as [Ei|Ni]; auto. apply F1. lia.
      + intros x Hx. unfold in_region in *. destruct (N.eqb_spec x (a + k)); [lia|]. apply F2. unfold in_region. lia.
      + intros x. destruct (N.eqb_spec x (a + k)) as [->|]; auto. rewrite Hw. split; discriminate. }
  apply G. lia.
Qed.
Lemma memcmp_app P m a b l l' : (forall i, In i l -> exists v, m (a + i) = Some v /\ m (b + i) = Some v) ->
  memcmp_loop P m a b (l ++ l') = memcmp_loop P m a b l'.
Proof.
  induction l as [|i l IH]; intros H; [reflexivity|]. cbn [app memcmp_loop]. destruct (H i) as (v & E1 & E2); [now left|].
  unfold mem_read. rewrite E1, E2. cbn [bind]. rewrite N.eqb_refl. cbn [negb]. apply IH. intros j Hj. apply H. now right.
Qed.
Lemma range_cut i n : i < n -> exists l, range 0 n = range 0 i ++ i :: l.
Proof.
  intros H. unfold range. rewrite !N.sub_0_r. replace (N.to_nat n) with (N.to_nat i + Datatypes.S (N.to_nat (n - i - 1)))%nat by lia.
  rewrite seq_app, map_app. cbn [seq map]. exists (map (fun k => 0 + N.of_nat k) (seq (Datatypes.S (0 + N.to_nat i)) (N.to_nat (n - i - 1)))). repeat f_equal. lia.
Qed.

(** ** The allocator *)
Lemma mask_bits U k r : k <= U -> r < 2 ^ U -> N.land r (not_w U (2 ^ k - 1)) = r / 2 ^ k * 2 ^ k.
Proof.
  intros K R. rewrite <- N.shiftr_div_pow2, <- N.shiftl_mul_pow2. apply N.bits_inj. intros i. rewrite N.land_spec, not_w_bits, ones_bits.
  destruct (N.ltb_spec i k).
  - rewrite N.shiftl_spec_low by auto. destruct (N.ltb_spec i U); [apply andb_false_r|lia].
  - rewrite N.shiftl_spec_high' by auto. rewrite N.shiftr_spec'. replace (i - k + k) with i by lia.
    destruct (N.ltb_spec i U); [apply andb_true_r|]. rewrite (bits_high r U) by auto. apply andb_false_r.
Qed.
Lemma align_mask_ok P U l : valid_layout U l -> align_mask P U l = Ret (not_w U (l_align l - 1)).
Proof.
  intros [(k & K & E) _]. unfold align_mask, sub_w. rewrite E. pose proof (N.pow_nonzero 2 k ltac:(lia)).
  replace (1 <=? 2 ^ k) with true by lia. reflexivity.
Qed.
Lemma closure_ok P U l r : valid_layout U l -> r < 2 ^ U ->
  alloc_closure P U l (not_w U (l_align l - 1)) r =
  Ret (if r <? l_size l then (None, None) else (Some ((r - l_size l) / l_align l * l_align l), Some ((r - l_size l) / l_align l * l_align l))).
Proof.
  intros [(k & K & E) S] R. unfold alloc_closure. destruct (N.ltb_spec r (l_size l)); auto. unfold sub_w. replace (l_size l <=? r) with true by lia. cbn [bind].
  rewrite E. rewrite mask_bits by lia. reflexivity.
Qed.
Lemma round_down_le a b : a / b * b <= a.
Proof. destruct (N.eq_dec b 0) as [->|]; [rewrite N.mul_0_r; lia|]. pose proof (N.mul_div_le a b n). lia. Qed.

Lemma serial_alloc_le rem l : fst (serial_alloc rem l) <= rem.
Proof.
  unfold serial_alloc. destruct (_ || _) eqn:E; [cbn; lia|]. cbn [fst]. pose proof (round_down_le (rem - l_size l) (l_align l)). lia.
Qed.
Lemma serial_run_app rem ls l : serial_run rem (ls ++ [l]) =
  let (r, os) := serial_run rem ls in let (r', o) := serial_alloc r l in (r', os ++ [o]).
Proof.
  revert rem. induction ls as [|x ls IH]; intros rem; cbn [app serial_run].
  - destruct (serial_alloc rem l). reflexivity.
  - destruct (serial_alloc rem x) as [r o]. rewrite IH. destruct (serial_run r ls) as [r1 os]. destruct (serial_alloc r1 l). reflexivity.
Qed.

(** The invariant: the finished calls are a serial run, and no thread has seen fewer bytes than there are left *)
Definition thread_ok (U rem : N) (t : thread_state) : Prop :=
  match t with
  | Idle => True
  | Trying l mask prev _ => valid_layout U l /\ l_align l <= 4096 /\ mask = not_w U (l_align l - 1) /\ rem <= prev <= ARENA_SIZE
  end.
Record alloc_inv (U : N) (s : alloc_state) : Prop := {
  ai_rem : as_remaining s <= ARENA_SIZE;
  ai_threads : forall t, thread_ok U (as_remaining s) (as_threads s t);
  ai_layouts : Forall (fun e => valid_layout U (ev_layout e)) (as_events s);
  ai_serial : serial_run ARENA_SIZE (map ev_layout (finished s)) = (as_remaining s, map ev_offset (finished s))
}.
Lemma alloc_init_inv U : alloc_inv U alloc_init.
Proof. constructor; cbn; auto; try lia. Qed.
Lemma thread_ok_le U r r' t : r' <= r -> thread_ok U r t -> thread_ok U r' t.
Proof. destruct t; cbn; intuition lia. Qed.
Lemma set_thread_ok U r f t x : (forall u, thread_ok U r (f u)) -> thread_ok U r x -> forall u, thread_ok U r (set_thread f t x u).
Proof. intros H Hx u. unfold set_thread. destruct (Nat.eqb u t); auto. Qed.
Lemma finished_cons r th e es : finished (AllocState r th (e :: es)) = rev es ++ [e].
Proof. reflexivity. Qed.

(** what one step does *)
Inductive step_effect (U : N) (s : alloc_state) : alloc_choice -> alloc_state -> Prop :=
| SE_busy t l : as_threads s t <> Idle -> step_effect U s (Call t l) s
| SE_idle t b : as_threads s t = Idle -> step_effect U s (Attempt t b) s
| SE_call t l : as_threads s t = Idle -> valid_layout U l -> l_align l <= 4096 -> step_effect U s (Call t l)
    (AllocState (as_remaining s) (set_thread (as_threads s) t (Trying l (not_w U (l_align l - 1)) (as_remaining s) 0)) (as_events s))
| SE_large t l : as_threads s t = Idle -> valid_layout U l -> 4096 < l_align l -> step_effect U s (Call t l)
    (AllocState (as_remaining s) (as_threads s) (AllocEvent t l None :: as_events s))
| SE_fail t l mask prev x b : as_threads s t = Trying l mask prev x -> prev < l_size l -> step_effect U s (Attempt t b)
    (AllocState (as_remaining s) (set_thread (as_threads s) t Idle) (AllocEvent t l None :: as_events s))
| SE_retry t l mask prev x y b : as_threads s t = Trying l mask prev x -> l_size l <= prev -> (b = true \/ as_remaining s <> prev) ->
    step_effect U s (Attempt t b) (AllocState (as_remaining s) (set_thread (as_threads s) t (Trying l mask (as_remaining s) y)) (as_events s))
| SE_done t l mask x : as_threads s t = Trying l mask (as_remaining s) x -> l_size l <= as_remaining s ->
    let o := (as_remaining s - l_size l) / l_align l * l_align l in
    step_effect U s (Attempt t false) (AllocState o (set_thread (as_threads s) t Idle) (AllocEvent t l (Some o) :: as_events s)).
Lemma alloc_step_ok P U s c : 17 < U -> alloc_inv U s -> valid_choice U c ->
  exists s', alloc_step P U s c = Ret s' /\ step_effect U s c s'.
Proof.
  intros HU I V. assert (AU : ARENA_SIZE < 2 ^ U). { change ARENA_SIZE with (2 ^ 17). apply N.pow_lt_mono_r; lia. }
  destruct c as [t l|t b]; cbn [alloc_step].
  - destruct (as_threads s t) eqn:E; [|eexists; split; [reflexivity|constructor; congruence]].
    rewrite align_mask_ok by auto. cbn [bind]. unfold MAX_SUPPORTED_ALIGN. destruct (N.ltb_spec 4096 (l_align l)); eexists; (split; [reflexivity|]); constructor; auto.
  - destruct (as_threads s t) as [|l mask prev x] eqn:E; [eexists; split; [reflexivity|now constructor]|].
    pose proof (ai_threads U s I t) as T. rewrite E in T. cbn in T. destruct T as (T1 & T2 & -> & T4). rewrite closure_ok by (auto; lia). cbn [bind].
    destruct (N.ltb_spec prev (l_size l)).
    + eexists. split; [reflexivity|]. eapply SE_fail; eauto.
    + destruct (N.eqb_spec (as_remaining s) prev) as [Er|Er]; [destruct b|]; cbn [andb negb]; eexists; (split; [reflexivity|]).
      * eapply SE_retry; eauto.
      * subst prev. eapply SE_done; eauto.
      * eapply SE_retry; eauto.
Qed.
Lemma step_inv U s c s' : alloc_inv U s -> step_effect U s c s' -> alloc_inv U s' /\ as_remaining s' <= as_remaining s.
Proof.
  intros I H. destruct H as [t l E|t b E|t l E V A|t l E V A|t l mask prev x b E A|t l mask prev x y b E A B|t l mask x E A o].
  - split; [auto|lia].
  - split; [auto|lia].
  - split; [|cbn; lia]. constructor; cbn [as_remaining as_events]; try apply I. apply set_thread_ok; [apply I|]. cbn. split; auto. split; auto. split; auto. split; [lia|apply I].
  - split; [|cbn; lia]. constructor; cbn [as_remaining as_events as_threads]; try apply I; [constructor; [auto|apply I]|].
    rewrite finished_cons. fold (finished s). rewrite !map_app. cbn [map]. rewrite serial_run_app, (ai_serial U s I). cbn [ev_layout ev_offset]. unfold serial_alloc.
    replace (4096 <? l_align l) with true by lia. reflexivity.
  - split; [|cbn; lia]. pose proof (ai_threads U s I t) as T. rewrite E in T. cbn in T. destruct T as (T1 & T2 & -> & T4).
    constructor; cbn [as_remaining as_events as_threads]; try apply I; [apply set_thread_ok; [apply I|exact Logic.I]|constructor; [auto|apply I]|].
    rewrite finished_cons. fold (finished s). rewrite !map_app. cbn [map]. rewrite serial_run_app, (ai_serial U s I). cbn [ev_layout ev_offset]. unfold serial_alloc.
    replace (as_remaining s <? l_size l) with true by lia. rewrite orb_true_r. reflexivity.
  - split; [|cbn; lia]. pose proof (ai_threads U s I t) as T. rewrite E in T. cbn in T. destruct T as (T1 & T2 & -> & T4).
    constructor; cbn [as_remaining as_events as_threads]; try apply I. apply set_thread_ok; [apply I|]. cbn. split; auto. split; auto. split; auto. split; [lia|apply I].
  - pose proof (ai_threads U s I t) as T. rewrite E in T. cbn in T. destruct T as (T1 & T2 & -> & T4).
    assert (O : o <= as_remaining s). { subst o. pose proof (round_down_le (as_remaining s - l_size l) (l_align l)). lia. }
    split; [|exact O]. pose proof (ai_rem U s I).
    constructor; cbn [as_remaining as_events as_threads]; [lia| |constructor; [auto|apply I]|].
    + apply set_thread_ok; [|exact Logic.I]. intros u. eapply thread_ok_le; [exact O|apply I].
    + rewrite finished_cons. fold (finished s). rewrite !map_app. cbn [map]. rewrite serial_run_app, (ai_serial U s I). cbn [ev_layout ev_offset]. unfold serial_alloc.
      replace (as_remaining s <? l_size l) with false by lia. replace (4096 <? l_align l) with false by lia. reflexivity.
Qed.
Lemma alloc_run_ok P U cs : 17 < U -> forall s, alloc_inv U s -> Forall (valid_choice U) cs ->
  exists s', alloc_run P U s cs = Ret s' /\ alloc_inv U s' /\ as_remaining s' <= as_remaining s.
Proof.
  intros HU. induction cs as [|c cs IH]; intros s I V; cbn [alloc_run].
  - exists s. split; auto. split; auto. lia.
  - inversion_clear V as [|? ? V1 V2]. destruct (alloc_step_ok P U s c HU I V1) as (s1 & E & H). rewrite E. cbn [bind].
    destruct (step_inv U s c s1 I H) as [I1 L1]. destruct (IH s1 I1 V2) as (s2 & E2 & I2 & L2). exists s2. split; auto. split; auto. lia.
Qed.

(** ** Serial runs *)
Lemma serial_run_length ls : forall rem, length (snd (serial_run rem ls)) = length ls.
Proof. induction ls as [|l ls IH]; intros rem; cbn; auto. destruct (serial_alloc rem l) as [r o]. specialize (IH r). destruct (serial_run r ls). cbn in *. lia. Qed.
(** every later block lies below *)
Lemma serial_below ls : forall rem i o, nth_error (snd (serial_run rem ls)) i = Some (Some o) ->
  exists l, nth_error ls i = Some l /\ l_align l <= 4096 /\ o + l_size l <= rem /\ o mod l_align l = 0 /\ fst (serial_run rem ls) <= o.
Proof.
  induction ls as [|l ls IH]; intros rem i o; [destruct i; discriminate|]. cbn [serial_run].
  pose proof (serial_alloc_le rem l) as L. destruct (serial_alloc rem l) as [r x] eqn:E. cbn in L. specialize (IH r).
  assert (M : fst (serial_run r ls) <= r).
  { clear. revert r. induction ls as [|l ls IH]; intros r; cbn; [lia|]. pose proof (serial_alloc_le r l). destruct (serial_alloc r l) as [r1 o]. specialize (IH r1).
    destruct (serial_run r1 ls). cbn in *. lia. }
  destruct (serial_run r ls) as [r2 os] eqn:E2. cbn [fst snd] in *. destruct i as [|i]; cbn [nth_error].
  - intros [= ->]. exists l. split; auto. unfold serial_alloc in E. destruct (_ || _) eqn:B; [discriminate|]. apply orb_false_iff in B as [B1 B2].
    apply N.ltb_ge in B1, B2. injection E as E1 E3. subst r o. split; auto.
    pose proof (round_down_le (rem - l_size l) (l_align l)). split; [lia|]. split; [|lia].
    destruct (N.eq_dec (l_align l) 0) as [->|]; [now rewrite N.mul_0_r|]. now rewrite N.mod_mul.
  - intros H. destruct (IH i o H) as (l' & A1 & A2 & A3 & A4 & A5). exists l'. split; auto. split; auto. split; [lia|]. auto.
Qed.
Lemma serial_run_split ls ls' : forall rem, serial_run rem (ls ++ ls') =
  let (r, os) := serial_run rem ls in let (r', os') := serial_run r ls' in (r', os ++ os').
Proof.
  induction ls as [|x ls IH]; intros rem; cbn [app serial_run].
  - now destruct (serial_run rem ls').
  - destruct (serial_alloc rem x) as [r o]. rewrite IH. destruct (serial_run r ls) as [r1 os]. destruct (serial_run r1 ls'). reflexivity.
Qed.
Lemma serial_ordered ls rem i j o o' l' : (i < j)%nat -> nth_error (snd (serial_run rem ls)) i = Some (Some o) ->
  nth_error (snd (serial_run rem ls)) j = Some (Some o') -> nth_error ls j = Some l' -> o' + l_size l' <= o.
Proof.
  intros L Hi Hj Hl. pose proof (nth_error_split ls j Hl) as (l1 & l2 & E & Ej).
  subst ls. rewrite serial_run_split in Hi, Hj. pose proof (serial_run_length l1 rem) as Len. destruct (serial_run rem l1) as [r os] eqn:E1. cbn [snd] in Len.
  pose proof (serial_below (l' :: l2) r 0 o') as B. destruct (serial_run r (l' :: l2)) as [r2 os2] eqn:E2. cbn [snd fst] in *.
  rewrite nth_error_app1 in Hi by lia. rewrite nth_error_app2 in Hj by lia. replace (j - length os)%nat with 0%nat in Hj by lia.
  destruct (B Hj) as (l & Q & _ & Q2 & _). injection Q as <-.
  pose proof (serial_below l1 rem i o) as C. rewrite E1 in C. cbn [snd fst] in C. destruct (C Hi) as (_ & _ & _ & _ & _ & Q5). lia.
Qed.
