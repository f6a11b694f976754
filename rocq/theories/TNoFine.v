(*PROPHEAD
Property theorems C83: threads linked with the no-std library, interrupted inside their calls
From Verif Require Import LSampleF.
*)
(** Proofs of the property theorems on threads that are interrupted inside their calls (restated in Prop_NoFine.v). *)
From Verif Require TThreads.
From Verif Require Import TPosition LExt LRuntime TRuntime TClient THeap TArena TNoStd LSampleF TNoThreads.
From Verif Require Export SpecNoFine.

(** ** Finishing a call with the block *)
(** the block at offset [o] of the arena is free and not below what is left *)
Definition block_ok (A : N) (b : n_build) (m0 : mem) (nw : n_world) (l : layout) (o : N) : Prop :=
  nw_rem nw <= o /\ o + l_size l <= 128 * 1024 /\ o mod l_align l = 0 /\
  (forall y, in_region (nb_base b + o) (l_size l) y -> m0 y = None /\ ~ in_object (nb_box b) (nw_world nw) y /\ ~ in_vector b nw y).
Lemma block_free P U A E b env n k m0 nw st l o y : setting U A b env n k -> ninv P A E b env n k m0 nw st -> block_ok A b m0 nw l o ->
  in_region (nb_base b + o) (l_size l) y ->
  in_region (nb_base b) (128 * 1024) y /\ w_mem (nw_world nw) y = None /\ ~ in_object (nb_box b) (nw_world nw) y /\ ~ in_vector b nw y /\
  forall v, variable n k v -> ~ in_variable A env v y.
Proof.
  intros S H (B1 & B2 & B3 & B4) Y. destruct (B4 y Y) as (Z & NO & NV). assert (Ar : in_region (nb_base b) (128 * 1024) y) by (unfold in_region in *; lia).
  assert (Nv : forall v, variable n k v -> ~ in_variable A env v y) by (intros v V J; exact (var_arena U A b env n k v y S V J Ar)).
  split; [exact Ar|]. split; [|auto]. rewrite (owns_rest P A E b env n k m0 nw st y H); [exact Z|]. intros [J|[J|(v & V & J)]]; [auto|auto|exact (Nv v V J)].
Qed.

Lemma finish_new P U A E b env n k m0 pad h nw st o : setting U A b env n k -> ninv P A E b env n k m0 nw st ->
  block_ok A b m0 nw (Layout (bx_size (nb_box b)) (nb_align b)) o ->
  exists st' nw', hclient_step st (HNew h) = Fine (st', CNothing) /\ f_finish P A E b env pad (FNew h) (Layout (bx_size (nb_box b)) (nb_align b)) o nw = Ret (Answered nw' CNothing) /\
    nw_rem nw' = nw_rem nw /\ ninv P A E b env n k m0 nw' st' /\
    forall y, owns A b env n k nw' y -> owns A b env n k nw y \/ in_region (nb_base b + o) (bx_size (nb_box b)) y.
Proof.
  intros S H Bl. destruct (ni_frame _ _ _ _ _ _ _ _ _ _ H) as (m1 & H1 & F). pose proof S as (I & HU & Bd & Ba & _). pose proof Bd as (Bk & (j & J & Aj) & (q & Dv) & Sz & C & El & G).
  pose proof (ni_rem _ _ _ _ _ _ _ _ _ _ H) as R. set (w := nw_world nw) in *. pose proof Bl as (B1 & B2 & B3 & B4). cbn [l_size l_align] in *.
  assert (A0 : nb_align b <> 0) by (rewrite Aj; apply N.pow_nonzero; lia).
  assert (FB : forall a, (fun _ : mem => Some (nb_base b + o)) (w_mem w) = Some a -> aligned A a /\ forall x, in_region a (bx_size (nb_box b)) x -> w_mem w x = None).
  { intros a [= <-]. split.
    - apply N.mod_divide in Ba as [c Ba]; [|exact A0]. apply N.mod_divide in B3 as [d B3]; [|exact A0]. exists ((c + d) * q). rewrite Ba, B3, Dv. lia.
    - intros x X. apply (block_free P U A E b env n k m0 nw st _ o x S H Bl). exact X. }
  pose proof (hstep_ok P A E (nb_box b) env n k m1 (fun _ => Some (nb_base b + o)) pad (HNew h) w st I Bk FB H1 Logic.I) as X. cbn [hclient_step agrees] in X.
  destruct X as [(w' & X & H2)|[_ [Z _]]]; [|discriminate Z]. pose proof (live_new _ _ _ _ _ _ _ _ _ _ _ X) as L. cbn [f_finish hclient_step]. fold w. unfold alloc_pointer. rewrite X. cbn [bind].
  eexists. eexists. split; [reflexivity|]. split; [reflexivity|]. split; [reflexivity|].
  assert (LN : w_live w (w_next w) = None) by (apply (hi_ids _ _ _ _ _ _ _ _ _ _ H1); rewrite (hi_next _ _ _ _ _ _ _ _ _ _ H1); lia).
  assert (SV : forall id, w_live w id <> None -> set_vec (nw_vec nw) (w_next w) (0, 0) id = nw_vec nw id).
  { intros id Li. unfold set_vec. destruct (N.eqb_spec id (w_next w)) as [->|]; [congruence|reflexivity]. }
  assert (SN : set_vec (nw_vec nw) (w_next w) (0, 0) (w_next w) = (0, 0)) by (unfold set_vec; now rewrite N.eqb_refl).
  assert (LV : forall id y, w_live w' id <> None -> in_region (fst (set_vec (nw_vec nw) (w_next w) (0, 0) id)) (nb_elem b * snd (set_vec (nw_vec nw) (w_next w) (0, 0) id)) y ->
    w_live w id <> None /\ in_region (fst (nw_vec nw id)) (nb_elem b * snd (nw_vec nw id)) y).
  { intros id y Li Y. rewrite L in Li. destruct (N.eqb_spec id (w_next w)) as [->|Ne].
    - rewrite SN in Y. unfold in_region in Y. cbn [fst snd] in Y. lia.
    - rewrite SV in Y by auto. auto. }
  assert (VO : forall id y, w_live w id <> None -> in_region (fst (nw_vec nw id)) (nb_elem b * snd (nw_vec nw id)) y -> ~ in_object (nb_box b) w' y).
  { intros id y Li Y (id2 & a & ms & L2 & Y2). rewrite L in L2. destruct (N.eqb_spec id2 (w_next w)) as [->|Ne].
    - injection L2 as <- <-. destruct (B4 y Y2) as (_ & _ & N). apply N. exists id. auto.
    - apply (ni_object _ _ _ _ _ _ _ _ _ _ H y); [exists id2, a, ms; auto|exists id; auto]. }
  split.
  - constructor; cbn [nw_world nw_rem nw_vec].
    + exists m1. split; [exact H2|]. intros y N. apply F. intros (id & Li & Y). fold w in Li. apply N. exists id. cbn [nw_world nw_vec]. rewrite SV by auto. split; auto.
      rewrite L. destruct (N.eqb_spec id (w_next w)); [discriminate|auto].
    + lia.
    + intros id a ms Li. rewrite L in Li. destruct (N.eqb_spec id (w_next w)) as [->|Ne]; [injection Li as <- <-; lia|]. exact (ni_box _ _ _ _ _ _ _ _ _ _ H id a ms Li).
    + intros id y Li Y. apply LV in Y as [Li' Y]; auto. exact (ni_where _ _ _ _ _ _ _ _ _ _ H id y Li' Y).
    + intros id a ms Li. rewrite L in Li. destruct (N.eqb_spec id (w_next w)) as [->|Ne].
      * injection Li as <- <-. rewrite SN. split; [|split]; cbn [fst snd]; [intros i Lt; lia|reflexivity|intros i mv x v Z; destruct i; discriminate Z].
      * assert (Li' : w_live w id <> None) by congruence. rewrite SV by auto. apply (vec_frame b (w_mem w)); auto; [exact (ni_vec _ _ _ _ _ _ _ _ _ _ H id a ms Li)|].
        intros y Y. destruct (vec_clear P U A E b env n k m0 nw st id y S H Li' Y) as (_ & C1 & C2).
        rewrite (hi_mem _ _ _ _ _ _ _ _ _ _ H2 y), (hi_mem _ _ _ _ _ _ _ _ _ _ H1 y); eauto.
    + intros id id' y D Li Li' Y Y'. apply LV in Y as [Li2 Y]; auto. apply LV in Y' as [Li2' Y']; auto. exact (ni_apart _ _ _ _ _ _ _ _ _ _ H id id' y D Li2 Li2' Y Y').
    + intros y O (id & Li & Y). cbn [nw_world nw_vec] in *. apply LV in Y as [Li' Y]; auto. exact (VO id y Li' Y O).
    + exact (ni_low _ _ _ _ _ _ _ _ _ _ H).
    + intros y (id & Li & Y). cbn [nw_world nw_vec] in *. apply LV in Y as [Li' Y]; auto. apply (ni_free _ _ _ _ _ _ _ _ _ _ H y). exists id. auto.
  - intros y [(id & a & ms & Li & Y)|[(id & Li & Y)|Y]]; cbn [nw_world nw_vec] in *.
    + rewrite L in Li. destruct (N.eqb_spec id (w_next w)); [injection Li as <- <-; now right|]. left. left. exists id, a, ms. auto.
    + apply LV in Y as [Li' Y]; auto. left. right. left. exists id. auto.
    + left. right. now right.
Qed.

(** what a thread inside [Vec::push] has in hand *)
Definition pend_ok (b : n_build) (nw : n_world) (st : hclient) (o : h_op) (p : f_pending) (l : layout) : Prop :=
  match p with
  | FNew h => o = HNew h /\ l = Layout (bx_size (nb_box b)) (nb_align b)
  | FPush w' id len x =>
      exists h mv a x0 y ms, o = HMove h mv /\ x = unpack mv /\ object_of st h = Some (id, (x0, y, ms)) /\ snd (a_try y x) = true /\
        len = N.of_nat (length ms) /\ w_live (nw_world nw) id = Some (a, ms) /\
        (forall j, w_live w' j = if j =? id then Some (a, ms ++ [x]) else w_live (nw_world nw) j) /\
        (forall g, w_handle w' g = w_handle (nw_world nw) g) /\ w_next w' = w_next (nw_world nw) /\
        l = Layout (nb_elem b * nb_grow b len) 1 /\ snd (nw_vec nw id) = len /\ capacity (nb_grow b) (length ms) = len
  end.
Lemma object_of_in st h id x : object_of st h = Some (id, x) -> hc_object st id = Some x.
Proof. unfold object_of. destruct (hc_handle st h); [|discriminate]. destruct (hc_object st n) eqn:Q; [|discriminate]. intros [= <- <-]. exact Q. Qed.

Lemma finish_push P U A E b env n k m0 pad w' id len x l o ob nw st : setting U A b env n k -> ninv P A E b env n k m0 nw (left_state st ob) ->
  pend_ok b nw st ob (FPush w' id len x) l -> block_ok A b m0 nw l o ->
  exists st' nw', hclient_step st ob = Fine (st', CBool true) /\ f_finish P A E b env pad (FPush w' id len x) l o nw = Ret (Answered nw' (CBool true)) /\
    nw_rem nw' = nw_rem nw /\ ninv P A E b env n k m0 nw' st' /\
    forall y, owns A b env n k nw' y -> owns A b env n k nw y \/ in_region (nb_base b + o) (l_size l) y.
Proof.
  intros S H (h & mv & a & x0 & y0 & ms & -> & Ex & Ob & Ok & Len & L & Lw & Hw & Nw & -> & Sv & Cp) Bl.
  destruct (ni_frame _ _ _ _ _ _ _ _ _ _ H) as (m1 & H1 & F). pose proof S as (I & HU & Bd & Ba & _). pose proof Bd as (Bk & _ & _ & _ & C & El & G).
  pose proof Bl as (B1 & B2 & _ & B4). cbn [l_size l_align] in *. set (w := nw_world nw) in *.
  cbn [hclient_step]. unfold on_object. rewrite Ob. destruct (a_try y0 (unpack mv)) as [x' ok] eqn:Tr. rewrite Ex in Ok. rewrite Tr in Ok. cbn [snd] in Ok. subst ok.
  cbn [left_state] in H, H1. rewrite Ob, Tr in H, H1. cbn [fst] in H, H1. rewrite <- Ex.
  assert (Li : w_live w id <> None) by congruence. set (v := nw_vec nw id) in *. set (cap' := nb_grow b len) in *.
  pose proof (ni_vec _ _ _ _ _ _ _ _ _ _ H id a ms L) as (V1 & V2 & V3). fold w v in V1, V2, V3. rewrite Sv in V1, V2.
  pose proof (G len) as G'. fold cap' in G'. assert (Lc : nb_elem b * len <= nb_elem b * cap') by (apply N.mul_le_mono_l; lia).
  assert (BF : forall y, in_region (nb_base b + o) (nb_elem b * cap') y -> in_region (nb_base b) (128 * 1024) y /\ w_mem w y = None /\ ~ in_object (nb_box b) w y /\ ~ in_vector b nw y /\
    forall v, variable n k v -> ~ in_variable A env v y).
  { intros y Y. exact (block_free P U A E b env n k m0 nw _ _ o y S H Bl Y). }
  assert (Dj : forall y, in_region (fst v) (nb_elem b * len) y -> in_region (nb_base b + o) (nb_elem b * cap') y -> False).
  { intros y Y1 Y2. destruct (BF y Y2) as (_ & _ & _ & N & _). apply N. exists id. fold w v. rewrite Sv. auto. }
  (** the memory *)
  set (m2 := map_block (w_mem w) (nb_base b + o) (nb_elem b * cap') pad).
  assert (M2o : forall y, ~ in_region (nb_base b + o) (nb_elem b * cap') y -> m2 y = w_mem w y).
  { intros y N. unfold m2. rewrite map_block_inb. apply inb_not in N. now rewrite N. }
  assert (M2i : accessible m2 (nb_base b + o) (nb_elem b * cap')).
  { intros i Lt. unfold m2. rewrite map_block_inb. assert (Y : inb (nb_base b + o) (nb_elem b * cap') (nb_base b + o + i) = true) by (apply inb_iff; unfold in_region; lia). rewrite Y. eauto. }
  destruct (memcpy_loop m2 (nb_base b + o) (fst v) (nb_elem b * len)) as (m3 & Cy & [F1 F2] & F3).
  { intros i Lt. rewrite M2o; [now apply V1|]. intros Y. apply (Dj (fst v + i)); auto. unfold in_region. lia. }
  { intros i Lt. apply M2i. lia. }
  { intros y Y1 Y2. apply (Dj y Y2). unfold in_region in *. lia. }
  set (m4 := unmap_block m3 (fst v) (nb_elem b * len)).
  assert (M4 : forall y, ~ in_region (fst v) (nb_elem b * len) y -> m4 y = m3 y).
  { intros y N. unfold m4. rewrite unmap_block_inb. apply inb_not in N. now rewrite N. }
  assert (Ac4 : accessible m4 (nb_base b + o) (nb_elem b * cap')).
  { intros i Lt. rewrite M4; [|intros Y; apply (Dj _ Y); unfold in_region; lia]. destruct (m3 (nb_base b + o + i)) eqn:Q; [eauto|]. apply F3 in Q. destruct (M2i i Lt). congruence. }
  assert (Mv4 : moves_at b m4 (nb_base b + o) ms).
  { intros i mv' j x1 E1 E2. pose proof (C mv') as Cm. assert (Lj : (j < length (nb_code b mv'))%nat) by (apply nth_error_Some; congruence).
    assert (Lti : (i < length ms)%nat) by (apply nth_error_Some; congruence).
    assert (Lx : nb_elem b * (N.of_nat i + 1) <= nb_elem b * len) by (apply N.mul_le_mono_l; lia).
    rewrite M4; [|intros Y; apply (Dj _ Y); unfold in_region; lia]. replace (nb_base b + o + nb_elem b * N.of_nat i + N.of_nat j) with (nb_base b + o + (nb_elem b * N.of_nat i + N.of_nat j)) by lia. rewrite F1 by lia. rewrite M2o.
    - rewrite N.add_assoc. eapply V3; eauto.
    - intros Y. apply (Dj (fst v + (nb_elem b * N.of_nat i + N.of_nat j))); auto. unfold in_region. lia. }
  destruct (moves_push b m4 (nb_base b + o) ms x cap' C ltac:(lia) Ac4 Mv4) as (m5 & W5 & Mv5 & O5). rewrite <- Len in W5.
  assert (V' : vec_ok b m5 (nb_base b + o, cap') (ms ++ [x])).
  { split; [eapply accessible_changes; eauto|]. split; [|exact Mv5]. cbn [snd]. rewrite app_length. cbn [length]. rewrite Nat.add_1_r, capacity_S, Cp, <- Len, N.eqb_refl. reflexivity. }
  assert (M1 : forall y, ~ in_region (fst v) (nb_elem b * len) y -> ~ in_region (nb_base b + o) (nb_elem b * cap') y -> m5 y = w_mem w y).
  { intros y N1 N2. rewrite (proj1 O5) by auto. rewrite M4 by auto. rewrite F2, M2o; auto. intros Y. apply N2. unfold in_region in *. lia. }
  assert (M0 : forall y, in_region (fst v) (nb_elem b * len) y -> ~ in_region (nb_base b + o) (nb_elem b * cap') y -> m5 y = None).
  { intros y Y N. rewrite (proj1 O5) by auto. unfold m4. rewrite unmap_block_inb. apply inb_iff in Y. now rewrite Y. }
  cbn [f_finish]. fold w v. rewrite Sv. fold cap'. cbn [l_size]. unfold alloc_pointer, memcpy. fold m2. rewrite Cy. cbn [bind]. fold m4. rewrite W5. cbn [bind].
  eexists. eexists. split; [reflexivity|]. split; [reflexivity|]. split; [reflexivity|].
  (** the objects *)
  set (v' := (nb_base b + o, cap')) in *.
  assert (Lv : forall j, w_live w' j <> None <-> w_live w j <> None).
  { intros j. rewrite Lw. destruct (N.eqb_spec j id) as [->|Ne]; [|tauto]. split; [auto|discriminate]. }
  assert (SO : forall y, in_object (nb_box b) (with_mem w' m5) y <-> in_object (nb_box b) w y).
  { intros y. split; intros (j & c & mj & Lj & Y); cbn [with_mem w_live] in *.
    - rewrite Lw in Lj. destruct (N.eqb_spec j id) as [->|Ne]; [injection Lj as <- <-; exists id, a, ms; auto|exists j, c, mj; auto].
    - destruct (N.eq_dec j id) as [->|Ne]; [exists id, a, (ms ++ [x]); cbn [with_mem w_live]; rewrite Lw, N.eqb_refl; split; [reflexivity|congruence]|].
      exists j, c, mj. cbn [with_mem w_live]. rewrite Lw. destruct (N.eqb_spec j id); [contradiction|auto]. }
  set (D := fun y => inb (fst v) (nb_elem b * len) y || inb (nb_base b + o) (nb_elem b * cap') y).
  assert (HD : forall y, D y = true -> ~ in_object (nb_box b) w y /\ forall v, variable n k v -> ~ in_variable A env v y).
  { intros y Y. apply orb_true_iff in Y as [Y|Y]; apply inb_iff in Y; [|destruct (BF y Y) as (_ & _ & ? & _ & ?); auto]. rewrite <- Sv in Y. apply (vec_clear P U A E b env n k m0 nw _ id y S H Li Y). }
  pose proof (hinv_foreign P A E (nb_box b) env n k m1 w _ D m5 I Bk H1 HD) as H3.
  specialize (H3 ltac:(intros y Y; apply orb_false_iff in Y as [Y1 Y2]; apply inb_not in Y1; apply inb_not in Y2; auto)).
  assert (H4 : hinv P A E (nb_box b) env n k (fun y => if D y then m5 y else m1 y) (with_mem w' m5) (put_object st id (Some (x0, x', ms ++ [x])))).
  { constructor; cbn [with_mem w_mem w_live w_handle w_next put_object hc_local hc_handle hc_next hc_object].
    - apply H3.
    - exact (hi_tracks _ _ _ _ _ _ _ _ _ _ H3).
    - intros g. rewrite Hw. exact (hi_handle _ _ _ _ _ _ _ _ _ _ H3 g).
    - rewrite Nw. exact (hi_next _ _ _ _ _ _ _ _ _ _ H3).
    - intros j. pose proof (hi_obj _ _ _ _ _ _ _ _ _ _ H3 j) as O. cbn [with_mem w_mem w_live put_object hc_object] in O. rewrite Lw. destruct (N.eqb_spec j id) as [Ej|Ne]; [|exact O].
      rewrite Ej in O. fold w in L. rewrite L in O. split; [reflexivity|apply O].
    - intros j Lj. rewrite Lw. pose proof (hi_ids _ _ _ _ _ _ _ _ _ _ H3 j Lj) as Z. cbn [with_mem w_live] in Z. destruct (N.eqb_spec j id) as [->|]; [congruence|exact Z].
    - intros j j' c mc c' mc' y Dj' L1 L2. rewrite Lw in L1, L2.
      assert (Q1 : exists mm, w_live w j = Some (c, mm)) by (destruct (N.eqb_spec j id) as [->|]; [injection L1 as <- <-|]; eauto).
      assert (Q2 : exists mm, w_live w j' = Some (c', mm)) by (destruct (N.eqb_spec j' id) as [->|]; [injection L2 as <- <-|]; eauto).
      destruct Q1 as [q1 Q1]. destruct Q2 as [q2 Q2]. exact (hi_apart _ _ _ _ _ _ _ _ _ _ H3 j j' c q1 c' q2 y Dj' Q1 Q2).
    - intros j c mc u y L1. rewrite Lw in L1. assert (Q1 : exists mm, w_live w j = Some (c, mm)) by (destruct (N.eqb_spec j id) as [->|]; [injection L1 as <- <-|]; eauto).
      destruct Q1 as [q1 Q1]. exact (hi_vars _ _ _ _ _ _ _ _ _ _ H3 j c q1 u y Q1).
    - intros j c mc y L1. rewrite Lw in L1. assert (Q1 : exists mm, w_live w j = Some (c, mm)) by (destruct (N.eqb_spec j id) as [->|]; [injection L1 as <- <-|]; eauto).
      destruct Q1 as [q1 Q1]. exact (hi_fresh _ _ _ _ _ _ _ _ _ _ H3 j c q1 y Q1).
    - intros y N1 N2. rewrite SO in N1. exact (hi_mem _ _ _ _ _ _ _ _ _ _ H3 y N1 N2).
    - apply H3. }
  assert (Vo : forall j, j <> id -> set_vec (nw_vec nw) id v' j = nw_vec nw j) by (intros j Ne; unfold set_vec; destruct (N.eqb_spec j id); [congruence|reflexivity]).
  assert (Vi : set_vec (nw_vec nw) id v' id = v') by (unfold set_vec; now rewrite N.eqb_refl).
  assert (Ap : forall j y, j <> id -> w_live w j <> None -> in_region (fst (nw_vec nw j)) (nb_elem b * snd (nw_vec nw j)) y ->
    ~ in_region (fst v) (nb_elem b * len) y /\ ~ in_region (fst v') (nb_elem b * snd v') y).
  { intros j y Ne Lj Y. split.
    - intros Y'. rewrite <- Sv in Y'. exact (ni_apart _ _ _ _ _ _ _ _ _ _ H j id y Ne Lj Li Y Y').
    - intros Y'. destruct (BF y Y') as (_ & _ & _ & N & _). apply N. exists j. auto. }
  split.
  - constructor; cbn [nw_world nw_rem nw_vec with_mem w_mem w_live].
    + eexists. split; [exact H4|]. cbn beta. intros y Nv. destruct (D y) eqn:Z.
      * assert (N1 : ~ in_region (fst v') (nb_elem b * snd v') y).
        { intros Y. apply Nv. exists id. cbn [nw_world nw_vec with_mem w_live]. rewrite Vi. split; auto. now apply Lv. }
        apply orb_true_iff in Z as [Z|Z]; apply inb_iff in Z; [|contradiction]. rewrite M0 by auto. symmetry. apply (ni_free _ _ _ _ _ _ _ _ _ _ H y). exists id. fold w v. rewrite Sv. auto.
      * apply F. intros (j & Lj & Y). apply Nv. exists j. cbn [nw_world nw_vec with_mem w_live]. split; [now apply Lv|].
        destruct (N.eq_dec j id) as [->|Ne]; [|now rewrite Vo by auto]. apply orb_false_iff in Z as [Z _]. apply inb_not in Z. fold v in Y. rewrite Sv in Y. contradiction.
    + apply H.
    + intros j c mj Lj. rewrite Lw in Lj. assert (exists mm, w_live w j = Some (c, mm)) as [mm Lm] by (destruct (N.eqb_spec j id) as [->|]; [injection Lj as <- <-|]; eauto).
      exact (ni_box _ _ _ _ _ _ _ _ _ _ H j c mm Lm).
    + intros j y Lj Y. apply Lv in Lj. destruct (N.eq_dec j id) as [->|Ne].
      * rewrite Vi in Y. cbn [v' fst snd] in Y. unfold in_region in Y. lia.
      * rewrite Vo in Y by auto. exact (ni_where _ _ _ _ _ _ _ _ _ _ H j y Lj Y).
    + intros j c mj Lj. rewrite Lw in Lj. destruct (N.eqb_spec j id) as [->|Ne].
      * injection Lj as <- <-. rewrite Vi. exact V'.
      * rewrite Vo by auto. assert (Lj' : w_live w j <> None) by congruence. apply (vec_frame b (w_mem w)); auto; [exact (ni_vec _ _ _ _ _ _ _ _ _ _ H j c mj Lj)|].
        intros y Y. destruct (Ap j y Ne Lj' Y). now apply M1.
    + intros j j' y D1 Lj Lj' Y Y'. apply Lv in Lj. apply Lv in Lj'. destruct (N.eq_dec j id) as [->|Ne], (N.eq_dec j' id) as [->|Ne']; try congruence.
      * rewrite Vi in Y. rewrite Vo in Y' by auto. now apply (Ap j' y Ne' Lj' Y').
      * rewrite Vi in Y'. rewrite Vo in Y by auto. now apply (Ap j y Ne Lj Y).
      * rewrite Vo in Y, Y' by auto. exact (ni_apart _ _ _ _ _ _ _ _ _ _ H j j' y D1 Lj Lj' Y Y').
    + intros y O (j & Lj & Y). cbn [nw_world nw_vec with_mem w_live] in *. apply Lv in Lj. assert (O' : in_object (nb_box b) w y) by now apply SO. destruct (N.eq_dec j id) as [->|Ne].
      * rewrite Vi in Y. destruct (BF y Y) as (_ & _ & N & _). auto.
      * rewrite Vo in Y by auto. apply (ni_object _ _ _ _ _ _ _ _ _ _ H y); [exact O'|exists j; auto].
    + exact (ni_low _ _ _ _ _ _ _ _ _ _ H).
    + intros y (j & Lj & Y). cbn [nw_world nw_vec with_mem w_live] in *. apply Lv in Lj. destruct (N.eq_dec j id) as [->|Ne].
      * rewrite Vi in Y. apply (B4 y Y).
      * rewrite Vo in Y by auto. apply (ni_free _ _ _ _ _ _ _ _ _ _ H y). exists j. auto.
  - intros y [O|[(j & Lj & Y)|Y]]; cbn [nw_world nw_vec with_mem w_live] in *.
    + left. left. now apply SO.
    + apply Lv in Lj. destruct (N.eq_dec j id) as [->|Ne]; [rewrite Vi in Y; now right|]. rewrite Vo in Y by auto. left. right. left. exists j. auto.
    + left. right. now right.
Qed.

(** ** Beginning a call *)
Lemma owns_sub A b env n k nw nw' y : (forall id z, w_live (nw_world nw') id = Some z -> exists z', w_live (nw_world nw) id = Some z' /\ fst z = fst z') ->
  (forall id, w_live (nw_world nw') id <> None -> nw_vec nw' id = nw_vec nw id) -> owns A b env n k nw' y -> owns A b env n k nw y.
Proof.
  intros L Vc [(id & a & ms & Li & Y)|[(id & Li & Y)|Y]].
  - destruct (L id _ Li) as ([a' ms'] & L' & Q). cbn [fst] in Q. subst a'. left. exists id, a, ms'. auto.
  - destruct (w_live (nw_world nw') id) as [z|] eqn:Z; [|congruence]. destruct (L id z Z) as (z' & L' & _). rewrite Vc in Y by congruence. right. left. exists id. split; [congruence|exact Y].
  - right. now right.
Qed.
Lemma same_move P A E B env alloc pad h mv w w' r : h_step P A E B env alloc pad (HMove h mv) w = Ret (w', r) -> (forall g, w_handle w' g = w_handle w g) /\ w_next w' = w_next w.
Proof.
  cbn [h_step]. unfold Position_make_compact_move. destruct (deref w (w_handle w h)) as [[id [a ms]]| |]; try discriminate. intros Q. cbn [bind] in Q.
  destruct (load_pp A E (w_mem w) (a + bx_initial B)) as [s0| |]; try discriminate Q. cbn [bind] in Q.
  destruct (load_pp A E (w_mem w) (a + bx_inner B)) as [s| |]; try discriminate Q. cbn [bind] in Q. destruct (pos_make_compact_move _ _ _) as [[p ok]| |]; try discriminate Q. cbn [bind] in Q.
  destruct (store_pp _ _ _ _ _ _) as [m| |]; try discriminate Q. cbn [bind] in Q. injection Q as <- <-. split; reflexivity.
Qed.
Lemma pow_arena U : 18 < U -> 128 * 1024 < 2 ^ (U - 1).
Proof. intros HU. change (128 * 1024) with (2 ^ 17). apply N.pow_lt_mono_r; lia. Qed.

(** what the first step of call [o] may lead to *)
Definition begun P U A E b env n k m0 (o : h_op) (nw : n_world) (st st' : hclient) (r : c_result) (out : f_outcome) : Prop :=
  match out with
  | Answered nw' r' =>
      r' = r /\ op_requests b st o = [] /\ nw_rem nw' = nw_rem nw /\ ninv P A E b env n k m0 nw' st' /\ forall y, owns A b env n k nw' y -> owns A b env n k nw y
  | Turned m' rem' ph =>
      rem' = nw_rem nw /\ ninv P A E b env n k m0 (n_shared m' (nw_rem nw) nw) (left_state st o) /\
      exists l, op_requests b st o = [l] /\
        match ph with
        | FHung => snd (serial_alloc (nw_rem nw) l) = None
        | FAsking p l' mask prev _ => l' = l /\ pend_ok b nw st o p l /\ valid_layout U l /\ l_align l <= 4096 /\ mask = not_w U (l_align l - 1) /\ prev = nw_rem nw
        | _ => False
        end
  end.
Lemma begin_plain P U A E b env n k m0 pad o nw st st' r : match o with HNew _ | HMove _ _ => False | _ => True end ->
  setting U A b env n k -> ninv P A E b env n k m0 nw st -> hop_fine n k o -> hclient_step st o = Fine (st', r) ->
  exists nw', n_step P U A E b env pad o nw = Ret (nw', r) /\ begun P U A E b env n k m0 o nw st st' r (Answered nw' r).
Proof.
  intros T S H V Q. pose proof (nstep_ok P U A E b env n k m0 pad o nw st S H V) as X. rewrite Q in X. assert (Rq : op_requests b st o = []) by (destruct o; try reflexivity; contradiction).
  rewrite Rq in X. cbn [n_agrees serial_run] in X. destruct X as [_ X]. destruct (X ltac:(intros [])) as (nw' & Y & Rm & H'). exists nw'. split; [exact Y|]. cbn [begun].
  split; [reflexivity|]. split; [exact Rq|]. split; [exact Rm|]. split; [exact H'|]. intros y.
  assert (G : (forall id z, w_live (nw_world nw') id = Some z -> w_live (nw_world nw) id = Some z) /\ nw_vec nw' = nw_vec nw).
  { destruct o as [c|h|h|h g|h mv|h q|h t|i h|i h]; try contradiction; cbn [n_step] in Y;
      try (match type of Y with bind ?t _ = _ => destruct t as [[w' r']| |] eqn:Z end; try discriminate Y; cbn [bind] in Y; injection Y as <- <-; cbn [nw_world nw_vec];
           split; [intros id z Lz; erewrite <- live_other; [exact Lz| |exact Z]; exact Logic.I|reflexivity]).
    destruct (deref (nw_world nw) (w_handle (nw_world nw) h)) as [[id [a ms]]| |] eqn:Dr; try discriminate Y. cbn [bind] in Y.
    match type of Y with bind ?t _ = _ => destruct t as [[w' r']| |] eqn:Z end; try discriminate Y. cbn [bind] in Y. injection Y as <- <-. cbn [nw_world nw_vec].
    split; [|reflexivity]. intros j z Lz. match type of Z with h_step _ _ _ _ _ _ _ _ ?w1 = _ => assert (Dr' : deref w1 (w_handle w1 h) = Ret (id, (a, ms))) by exact Dr end.
    rewrite (live_free _ _ _ _ _ _ _ _ _ _ _ _ _ _ Dr' Z j) in Lz. cbn [with_mem w_live] in Lz.
    destruct (j =? id); [discriminate Lz|exact Lz]. }
  destruct G as [G1 G2]. apply owns_sub; [intros id z Lz; exists z; split; [now apply G1|reflexivity]|]. intros. now rewrite G2.
Qed.
Lemma ask_ok P U m rem p l : valid_layout U l -> f_ask P U m rem p l =
  Ret (Turned m rem (if 4096 <? l_align l then FHung else FAsking p l (not_w U (l_align l - 1)) rem 0)).
Proof. intros V. unfold f_ask. rewrite align_mask_ok by auto. reflexivity. Qed.
Lemma begin_ok P U A E b env n k m0 pad o nw st st' r : setting U A b env n k -> ninv P A E b env n k m0 nw st -> hop_fine n k o -> hclient_step st o = Fine (st', r) ->
  exists out, f_begin P U A E b env pad o nw = Ret out /\ begun P U A E b env n k m0 o nw st st' r out.
Proof.
  intros S H V Q. pose proof S as (I & HU & Bd & Ba & _). pose proof Bd as (Bk & (j & J & Aj) & _ & Sz & C & El & G).
  destruct o as [c|h|h|h g|h mv|h q|h t|i h|i h];
    try (match type of V with hop_fine _ _ ?o => destruct (begin_plain P U A E b env n k m0 pad o nw st st' r Logic.I S H V Q) as (nw' & X & Y) end;
         eexists; split; [cbn [f_begin]; rewrite X; reflexivity|exact Y]).
  - cbn [f_begin]. rewrite ask_ok by (split; cbn [l_align l_size]; eauto). cbn [l_align]. eexists. split; [reflexivity|]. cbn [begun]. split; [reflexivity|]. split; [rewrite n_shared_same; exact H|].
    eexists. split; [reflexivity|]. destruct (N.ltb_spec 4096 (nb_align b)) as [Lt|Ge].
    + unfold serial_alloc. cbn [l_align]. replace (4096 <? nb_align b) with true by lia. reflexivity.
    + cbn [pend_ok l_align]. split; [reflexivity|]. split; [split; reflexivity|]. split; [split; cbn [l_align l_size]; eauto|]. auto.
  - pose proof (nstep_ok P U A E b env n k m0 pad (HMove h mv) nw st S H V) as X.
    pose proof (left_ok P U A E b env n k m0 pad (HMove h mv) nw st _ S H V Q) as Lo.
    destruct (ni_frame _ _ _ _ _ _ _ _ _ _ H) as (m1 & H1 & F).
    pose proof (hstep_ok P A E (nb_box b) env n k m1 (fun _ => None) pad (HMove h mv) (nw_world nw) st I Bk (no_alloc A (nb_box b) (nw_world nw)) H1 V) as Y.
    pose proof (deref_ok P A E (nb_box b) env n k m1 (nw_world nw) st h H1) as Dr. rewrite Q in X, Y. cbn [agrees] in Y.
    cbn [n_step] in X. cbn [f_begin]. cbn [n_left] in Lo. cbn [hclient_step] in Q. unfold on_object in Q.
    destruct (object_of st h) as [[id [[x0 x] ms]]|] eqn:Ob; [|discriminate Q]. destruct Dr as (a & Dr & L & _ & Ho). rewrite Dr in X |- *. cbn [bind] in X |- *.
    destruct Y as [(w' & Y & H2)|[_ [_ [h' Z]]]]; [|discriminate Z]. rewrite Y in X, Lo |- *. cbn [bind] in X |- *.
    destruct (live_move P A E (nb_box b) env (fun _ => None) pad h mv _ w' _ id a ms Dr Y) as (ms' & Lw). destruct (same_move _ _ _ _ _ _ _ _ _ _ _ _ Y) as [Hw Nw].
    destruct (a_try x (unpack mv)) as [x' ok] eqn:Tr. injection Q as <- <-.
    assert (Ms : ms' = if ok then ms ++ [unpack mv] else ms).
    { pose proof (hi_obj _ _ _ _ _ _ _ _ _ _ H2 id) as O. rewrite Lw, N.eqb_refl in O. cbn [put_object hc_object] in O. rewrite N.eqb_refl in O. apply O. }
    assert (Su : forall vec y, (forall j, w_live (nw_world nw) j <> None -> vec j = nw_vec nw j) -> forall m, owns A b env n k (NWorld (with_mem w' m) (nw_rem nw) vec) y -> owns A b env n k nw y).
    { intros vec y Hv m. apply owns_sub; cbn [nw_world nw_vec with_mem w_live].
      - intros i z Lz. rewrite Lw in Lz. destruct (N.eqb_spec i id) as [Ei|]; [injection Lz as <-; rewrite Ei; eexists; split; [exact L|reflexivity]|eauto].
      - intros i Li. apply Hv. rewrite Lw in Li. destruct (N.eqb_spec i id) as [Ei|]; [rewrite Ei; congruence|exact Li]. }
    pose proof (ni_vec _ _ _ _ _ _ _ _ _ _ H id a ms L) as (_ & Vc & _).
    destruct ok.
    + rewrite move_of_cm_unpack in X |- * by auto. cbn [bind] in X |- *. unfold begun. cbn [op_requests] in X |- *. rewrite Ob in X |- *. rewrite Tr in X |- *. cbn [snd] in X |- *. unfold push_request in X |- *.
      rewrite <- Vc in X |- *. unfold vec_push in X. destruct (N.eqb_spec (N.of_nat (length ms)) (snd (nw_vec nw id))) as [Eq|Ne].
      * rewrite <- Eq in *. rewrite N.eqb_refl. pose proof (pow_arena U HU) as Pw.
        destruct (N.leb_spec (2 ^ (U - 1)) (nb_elem b * nb_grow b (N.of_nat (length ms)))) as [Big|Sm].
        -- eexists. split; [reflexivity|]. cbn beta iota. split; [reflexivity|]. split; [exact Lo|]. eexists. split; [reflexivity|]. unfold serial_alloc. cbn [l_size l_align].
           pose proof (ni_rem _ _ _ _ _ _ _ _ _ _ H). replace (nw_rem nw <? nb_elem b * nb_grow b (N.of_nat (length ms))) with true by lia. now rewrite orb_true_r.
        -- assert (VL : valid_layout U (Layout (nb_elem b * nb_grow b (N.of_nat (length ms))) 1)).
           { split; cbn [l_size l_align]; [exists 0; split; [lia|reflexivity]|]. assert (2 ^ (U - 1) <= 2 ^ U) by (apply N.pow_le_mono_r; lia). lia. }
           rewrite ask_ok by exact VL. change (4096 <? l_align (Layout (nb_elem b * nb_grow b (N.of_nat (length ms))) 1)) with false. cbv iota.
           eexists. split; [reflexivity|]. cbn beta iota. split; [reflexivity|]. split; [exact Lo|]. eexists. split; [reflexivity|]. cbv iota. split; [reflexivity|].
           split; [|split; [exact VL|split; [cbn; lia|auto]]]. cbn [pend_ok]. exists h, mv, a, x0, x, ms. subst ms'. rewrite Tr. repeat (split; [first [reflexivity|assumption]|]).
           split; [symmetry; exact Eq|congruence].
      * replace (snd (nw_vec nw id) =? N.of_nat (length ms)) with false in * by (symmetry; apply N.eqb_neq; congruence). cbn [bind n_agrees serial_run] in X. destruct X as [_ X].
        destruct (X ltac:(intros [])) as (nw' & Z & Rm & H'). destruct (write_bytes _ _ _) as [m'| |]; cbn [bind] in Z |- *; try discriminate Z. injection Z as <-.
        eexists. split; [reflexivity|]. cbn beta iota. split; [reflexivity|]. split; [reflexivity|]. split; [reflexivity|]. split; [exact H'|].
        intros y. apply Su. intros i _. unfold set_vec. destruct (N.eqb_spec i id) as [Ei|]; [now rewrite Ei|reflexivity].
    + unfold begun. cbn [op_requests] in X |- *. rewrite Ob in X |- *. rewrite Tr in X |- *. cbn [snd n_agrees serial_run] in X |- *. destruct X as [_ X].
      destruct (X ltac:(intros [])) as (nw' & Z & Rm & H'). injection Z as <-. eexists. split; [reflexivity|]. cbn beta iota. split; [reflexivity|]. split; [reflexivity|]. split; [reflexivity|]. split; [exact H'|].
      intros y O. apply (Su (nw_vec nw) y (fun _ _ => eq_refl) (w_mem w')). replace (with_mem w' (w_mem w')) with w' by (destruct w'; reflexivity). exact O.
Qed.

(** ** The system *)
Definition fnow (m : mem) (rem : N) (t : f_thread) : n_world := n_shared m rem (ft_world t).
Definition phase_ok (U : N) (b : n_build) (prog : list h_op) (rem : N) (t : f_thread) (a : a_thread) (st : hclient) : Prop :=
  match ft_phase t with
  | FReady => ft_todo t = at_todo a /\ ft_results t = at_results a /\ at_hung a = false /\ st = at_state a
  | FHung => exists o rest, ft_todo t = o :: rest /\ at_todo a = o :: rest /\ ft_results t = at_results a /\ at_hung a = true /\ st = left_state (at_state a) o
  | FAsking p l mask prev _ =>
      exists o rest, ft_todo t = o :: rest /\ at_todo a = o :: rest /\ ft_results t = at_results a /\ at_hung a = false /\ st = left_state (at_state a) o /\
        op_requests b (at_state a) o = [l] /\ pend_ok b (ft_world t) (at_state a) o p l /\ valid_layout U l /\ l_align l <= 4096 /\
        mask = not_w U (l_align l - 1) /\ rem <= prev <= 128 * 1024
  | FServed p l off =>
      exists st0 o r, ft_todo t = o :: at_todo a /\ at_results a = ft_results t ++ [r] /\ at_hung a = false /\ hclient_step st0 o = Fine (at_state a, r) /\
        st = left_state st0 o /\ (exists before, before ++ ft_todo t = prog /\ hclient_run hclient_start before = Fine (st0, ft_results t)) /\
        op_requests b st0 o = [l] /\ pend_ok b (ft_world t) st0 o p l /\ rem <= off /\ off + l_size l <= 128 * 1024 /\ off mod l_align l = 0
  end.
Record fsinv (P : profile) (U A : N) (E : endian) (b : n_build) (envs : nat -> c_env) (n k : nat -> nat) (programs : nat -> list h_op) (m : mem) (sys : f_system) (s : a_system) : Prop := {
  fv_rem : fs_rem sys = as_rem s;
  fv_fine : forall i, Forall (hop_fine (n i) (k i)) (ft_todo (fs_thread sys i));
  fv_right : forall i, exists x, hclient_run (at_state (as_thread s i)) (at_todo (as_thread s i)) = Fine x;
  fv_hist : forall i, exists before, before ++ at_todo (as_thread s i) = programs i /\ hclient_run hclient_start before = Fine (at_state (as_thread s i), at_results (as_thread s i));
  fv_each : forall i, exists m0 st, ninv P A E b (envs i) (n i) (k i) m0 (fnow (fs_mem sys) (fs_rem sys) (fs_thread sys i)) st /\
            phase_ok U b (programs i) (fs_rem sys) (fs_thread sys i) (as_thread s i) st;
  fv_apart : forall i j y, i <> j -> holds A b (envs i) (n i) (k i) (fs_thread sys i) y -> holds A b (envs j) (n j) (k j) (fs_thread sys j) y -> False;
  fv_block : forall i y, reserved b (fs_thread sys i) y -> ~ owns A b (envs i) (n i) (k i) (ft_world (fs_thread sys i)) y;
  fv_rest : forall y, (forall i, ~ owns A b (envs i) (n i) (k i) (ft_world (fs_thread sys i)) y) -> fs_mem sys y = m y
}.
Lemma f_put_same ts i t : f_put ts i t i = t.
Proof. unfold f_put. now rewrite Nat.eqb_refl. Qed.
Lemma f_put_other ts i t j : j <> i -> f_put ts i t j = ts j.
Proof. intros N. unfold f_put. destruct (Nat.eqb_spec j i); [contradiction|reflexivity]. Qed.
Lemma phase_le U b prog rem rem' t a st : rem' <= rem -> phase_ok U b prog rem t a st -> phase_ok U b prog rem' t a st.
Proof.
  intros L. unfold phase_ok. destruct (ft_phase t); auto.
  - intros (o & rest & H1 & H2 & H3 & H4 & H5 & H6 & H7 & H8 & H9 & H10 & H11). exists o, rest. repeat (split; [assumption|]). lia.
  - intros (st0 & c & r & H1 & H2 & H3 & H4 & H5 & H5' & H6' & H6 & H7 & H8 & H9). exists st0, c, r. repeat (split; [assumption|]). split; [lia|]. auto.
Qed.
Lemma reserved_region P U A E b env n k prog m0 rem m t a st y : ninv P A E b env n k m0 (fnow m rem t) st -> phase_ok U b prog rem t a st -> reserved b t y ->
  nb_base b + rem <= y < nb_base b + 128 * 1024.
Proof.
  intros H Ph. unfold phase_ok, reserved in *. destruct (ft_phase t); try contradiction. destruct Ph as (st0 & c & r & _ & _ & _ & _ & _ & _ & _ & _ & H7 & H8 & _). unfold in_region. lia.
Qed.
(** nobody holds what is left *)
Lemma low_unheld P U A E b envs n k programs m sys s i y : all_set U A b envs n k -> fsinv P U A E b envs n k programs m sys s -> in_region (nb_base b) (fs_rem sys) y ->
  holds A b (envs i) (n i) (k i) (fs_thread sys i) y -> False.
Proof.
  intros St V Y Hd. destruct (fv_each _ _ _ _ _ _ _ _ _ _ _ _ V i) as (m0 & st & H & Ph). destruct Hd as [O|Rs].
  - destruct (low_free P U A E b (envs i) (n i) (k i) m0 _ st y (St i) H Y) as (Z & Z1 & Z2). destruct O as [O|[O|(v & Kv & O)]]; [exact (Z1 O)|exact (Z2 O)|].
    apply (var_arena U A b (envs i) (n i) (k i) v y (St i) Kv O). pose proof (ni_rem _ _ _ _ _ _ _ _ _ _ H). cbn [fnow n_shared nw_rem] in *. unfold in_region in *. lia.
  - pose proof (reserved_region P U A E b _ _ _ _ m0 _ _ _ _ st y H Ph Rs). unfold in_region in Y. lia.
Qed.
Lemma f_held P U A E b envs n k programs m sys s i y : fsinv P U A E b envs n k programs m sys s -> owns A b (envs i) (n i) (k i) (ft_world (fs_thread sys i)) y -> fs_mem sys y <> None.
Proof. intros V J. destruct (fv_each _ _ _ _ _ _ _ _ _ _ _ _ V i) as (m0 & st & H & _). exact (owns_mapped _ _ _ _ _ _ _ _ _ _ y H J). Qed.

(** what thread [i] holds more after a step was free before *)
Definition f_takes (A : N) (b : n_build) (envs : nat -> c_env) (n k : nat -> nat) (i : nat) (sys sys' : f_system) : Prop :=
  fs_rem sys' <= fs_rem sys /\ (forall j, j <> i -> fs_thread sys' j = fs_thread sys j) /\
  (forall y, holds A b (envs i) (n i) (k i) (fs_thread sys' i) y -> holds A b (envs i) (n i) (k i) (fs_thread sys i) y \/ in_region (nb_base b) (fs_rem sys) y) /\
  forall y, ~ owns A b (envs i) (n i) (k i) (ft_world (fs_thread sys i)) y -> ~ owns A b (envs i) (n i) (k i) (ft_world (fs_thread sys' i)) y -> fs_mem sys' y = fs_mem sys y.
(** whether the next step ends a call *)
Definition f_answers (b : n_build) (t : f_thread) (a : a_thread) : bool :=
  match ft_todo t with
  | [] => false
  | o :: _ => match ft_phase t with FServed _ _ _ => true | FReady => match op_requests b (at_state a) o with [] => true | _ => false end | _ => false end
  end.
(** thread [i] has done something *)
Lemma fupd P U A E b envs n k programs m sys s i m0 st m' r' t' s' st' : all_set U A b envs n k -> arena_free b m -> fsinv P U A E b envs n k programs m sys s ->
  ninv P A E b (envs i) (n i) (k i) m0 (fnow (fs_mem sys) (fs_rem sys) (fs_thread sys i)) st ->
  ninv P A E b (envs i) (n i) (k i) m0 (fnow m' r' t') st' -> phase_ok U b (programs i) r' t' (as_thread s' i) st' ->
  r' <= fs_rem sys -> as_rem s' = r' -> (forall j, j <> i -> as_thread s' j = as_thread s j) ->
  Forall (hop_fine (n i) (k i)) (ft_todo t') -> (exists x, hclient_run (at_state (as_thread s' i)) (at_todo (as_thread s' i)) = Fine x) ->
  (exists before, before ++ at_todo (as_thread s' i) = programs i /\ hclient_run hclient_start before = Fine (at_state (as_thread s' i), at_results (as_thread s' i))) ->
  (forall y, holds A b (envs i) (n i) (k i) t' y -> holds A b (envs i) (n i) (k i) (fs_thread sys i) y \/ in_region (nb_base b) (fs_rem sys) y) ->
  (forall y, reserved b t' y -> ~ owns A b (envs i) (n i) (k i) (ft_world t') y) ->
  fsinv P U A E b envs n k programs m (FSystem m' r' (f_put (fs_thread sys) i t')) s' /\ f_takes A b envs n k i sys (FSystem m' r' (f_put (fs_thread sys) i t')).
Proof.
  intros St Af V H H' Ph Le Rm Ot Fi Ri Hi Hd Bl. set (t := fs_thread sys i) in *.
  assert (Fr : forall j y, j <> i -> holds A b (envs j) (n j) (k j) (fs_thread sys j) y -> ~ holds A b (envs i) (n i) (k i) t y /\ ~ holds A b (envs i) (n i) (k i) t' y).
  { intros j y N J. assert (N1 : ~ holds A b (envs i) (n i) (k i) t y) by (intros K; exact (fv_apart _ _ _ _ _ _ _ _ _ _ _ _ V j i y N J K)).
    split; auto. intros K. destruct (Hd y K) as [K'|K']; [auto|]. exact (low_unheld P U A E b envs n k programs m sys s j y St V K' J). }
  assert (Me : forall y, ~ owns A b (envs i) (n i) (k i) (ft_world t) y -> ~ owns A b (envs i) (n i) (k i) (ft_world t') y -> m' y = fs_mem sys y).
  { intros y N1 N2. change m' with (w_mem (nw_world (fnow m' r' t'))). rewrite (owns_rest _ _ _ _ _ _ _ _ _ _ y H' N2). symmetry. exact (owns_rest _ _ _ _ _ _ _ _ _ _ y H N1). }
  split; [|split; [exact Le|]; split; cbn [fs_thread fs_rem fs_mem]; [intros j N; now apply f_put_other|rewrite f_put_same; split; [exact Hd|exact Me]]].
  constructor; cbn [fs_mem fs_rem fs_thread].
  - now symmetry.
  - intros j. destruct (Nat.eq_dec j i) as [->|N]; [now rewrite f_put_same|]. rewrite f_put_other by auto. apply V.
  - intros j. destruct (Nat.eq_dec j i) as [->|N]; [exact Ri|]. rewrite Ot by auto. apply V.
  - intros j. destruct (Nat.eq_dec j i) as [->|N]; [exact Hi|]. rewrite Ot by auto. apply V.
  - intros j. destruct (Nat.eq_dec j i) as [->|N]; [rewrite f_put_same; eauto|]. rewrite f_put_other, Ot by auto.
    destruct (fv_each _ _ _ _ _ _ _ _ _ _ _ _ V j) as (mj & sj & Hj & Pj). eexists. exists sj. split; [|exact (phase_le _ _ _ _ _ _ _ _ Le Pj)].
    refine (ninv_env P U A E b (envs j) (n j) (k j) mj (fnow (fs_mem sys) (fs_rem sys) (fs_thread sys j)) sj m' r' (St j) Hj _ _ _).
    + exact Le.
    + intros y Y. exact (proj1 (low_free P U A E b (envs i) (n i) (k i) m0 _ st' y (St i) H' Y)).
    + intros y Y. destruct (Fr j y N (or_introl Y)) as [F1 F2]. apply Me; intros K; [apply F1|apply F2]; now left.
  - intros j l y N J K. destruct (Nat.eq_dec j i) as [->|Nj], (Nat.eq_dec l i) as [->|Nl]; [congruence| | |].
    + rewrite f_put_same in J. rewrite f_put_other in K by auto. exact (proj2 (Fr l y Nl K) J).
    + rewrite f_put_same in K. rewrite f_put_other in J by auto. exact (proj2 (Fr j y Nj J) K).
    + rewrite f_put_other in J, K by auto. exact (fv_apart _ _ _ _ _ _ _ _ _ _ _ _ V j l y N J K).
  - intros j y. destruct (Nat.eq_dec j i) as [->|N]; [rewrite f_put_same; apply Bl|]. rewrite f_put_other by auto. apply V.
  - intros y N. assert (Ni : ~ owns A b (envs i) (n i) (k i) (ft_world t') y) by (specialize (N i); now rewrite f_put_same in N).
    assert (Nj : forall j, j <> i -> ~ owns A b (envs j) (n j) (k j) (ft_world (fs_thread sys j)) y) by (intros j D; specialize (N j); now rewrite f_put_other in N by auto).
    destruct (TProgram.opt_eq_dec (fs_mem sys y) None) as [Z|Z].
    + assert (No : ~ owns A b (envs i) (n i) (k i) (ft_world t) y) by (intros K; exact (f_held _ _ _ _ _ _ _ _ _ _ _ _ i y V K Z)).
      rewrite Me by auto. apply V. intros j. destruct (Nat.eq_dec j i) as [->|D]; auto.
    + destruct (TProgram.opt_eq_dec (m0 y) None) as [Z0|Z0].
      * change m' with (w_mem (nw_world (fnow m' r' t'))). rewrite (owns_rest _ _ _ _ _ _ _ _ _ _ y H' Ni), Z0. symmetry.
        destruct (TProgram.opt_eq_dec (m y) None) as [Zm|Zm]; [exact Zm|]. exfalso.
        assert (No : ~ owns A b (envs i) (n i) (k i) (ft_world t) y).
        { intros K. destruct (owns_free _ _ _ _ _ _ _ _ _ _ _ H K) as [Kv|[Kr _]]; [apply Ni; right; now right|]. apply Zm, Af, Kr. }
        apply Z. change (fs_mem sys y) with (w_mem (nw_world (fnow (fs_mem sys) (fs_rem sys) t)) y). now rewrite (owns_rest _ _ _ _ _ _ _ _ _ _ y H No).
      * assert (No : ~ owns A b (envs i) (n i) (k i) (ft_world t) y).
        { intros K. destruct (owns_free _ _ _ _ _ _ _ _ _ _ _ H K) as [Kv|[_ Kr]]; [apply Ni; right; now right|auto]. }
        rewrite Me by auto. apply V. intros j. destruct (Nat.eq_dec j i) as [->|D]; auto.
Qed.
Lemma ninv_rem P U A E b env n k m0 nw st r' : setting U A b env n k -> ninv P A E b env n k m0 nw st -> r' <= nw_rem nw -> ninv P A E b env n k m0 (n_shared (w_mem (nw_world nw)) r' nw) st.
Proof.
  intros S H Le. destruct (ni_frame _ _ _ _ _ _ _ _ _ _ H) as (m1 & H1 & F). pose proof (ni_rem _ _ _ _ _ _ _ _ _ _ H) as R.
  constructor; cbn [n_shared nw_world nw_rem nw_vec with_mem w_mem w_live]; try apply H.
  - exists m1. split; [|exact F]. destruct (nw_world nw). exact H1.
  - lia.
  - intros id a ms L. destruct (ni_box _ _ _ _ _ _ _ _ _ _ H id a ms L). lia.
  - intros id y L Y. pose proof (ni_where _ _ _ _ _ _ _ _ _ _ H id y L Y). lia.
  - intros y Y. apply (ni_low _ _ _ _ _ _ _ _ _ _ H y). unfold in_region in *. lia.
Qed.

(** ** One step *)
Lemma a_turn_go b i s o rest st' r : at_hung (as_thread s i) = false -> at_todo (as_thread s i) = o :: rest -> hclient_step (at_state (as_thread s i)) o = Fine (st', r) ->
  a_turn b i s = let (rem', os) := serial_run (as_rem s) (op_requests b (at_state (as_thread s i)) o) in
    Fine (if granted os then ASystem rem' (set_a (as_thread s) i (AThread rest st' (at_results (as_thread s i) ++ [r]) false))
          else ASystem (as_rem s) (set_a (as_thread s) i (AThread (o :: rest) (at_state (as_thread s i)) (at_results (as_thread s i)) true))).
Proof. intros Hu To Q. unfold a_turn. now rewrite Hu, To, Q. Qed.
Lemma pend_world b nw nw' st o p l : nw_world nw' = nw_world nw \/ (w_live (nw_world nw') = w_live (nw_world nw) /\ w_handle (nw_world nw') = w_handle (nw_world nw) /\ w_next (nw_world nw') = w_next (nw_world nw)) ->
  nw_vec nw' = nw_vec nw -> pend_ok b nw st o p l -> pend_ok b nw' st o p l.
Proof.
  intros W Vc. assert (W' : w_live (nw_world nw') = w_live (nw_world nw) /\ w_handle (nw_world nw') = w_handle (nw_world nw) /\ w_next (nw_world nw') = w_next (nw_world nw)) by (destruct W as [->|W]; auto).
  destruct W' as (W1 & W2 & W3). unfold pend_ok. destruct p; auto. now rewrite W1, W2, W3, Vc.
Qed.
Definition f_moves (b : n_build) (i : nat) (t t' : f_thread) (s s' : a_system) : Prop := if takes_effect t t' then a_turn b i s = Fine s' else s' = s.
Lemma right_next st o rest x : hclient_run st (o :: rest) = Fine x -> exists st' r, hclient_step st o = Fine (st', r) /\ exists x', hclient_run st' rest = Fine x'.
Proof.
  cbn [hclient_run]. destruct (hclient_step st o) as [[st' r]| |]; try discriminate. intros Q. exists st', r. split; [reflexivity|]. destruct (hclient_run st' rest); try discriminate Q. eauto.
Qed.
Lemma hist_next prog st rs o rest st' r : (exists before, before ++ o :: rest = prog /\ hclient_run hclient_start before = Fine (st, rs)) -> hclient_step st o = Fine (st', r) ->
  exists before, before ++ rest = prog /\ hclient_run hclient_start before = Fine (st', rs ++ [r]).
Proof.
  intros (be & Q & R) Hs. exists (be ++ [o]). split; [now rewrite <- app_assoc|]. rewrite hrun_app, R. cbn [hclient_run]. now rewrite Hs.
Qed.
Lemma fstep_ok P U A E b envs n k programs pads m i sp sys s : all_set U A b envs n k -> arena_free b m -> fsinv P U A E b envs n k programs m sys s ->
  exists sys' s', f_step P U A E b envs pads i sp sys = Ret sys' /\ f_moves b i (fs_thread sys i) (fs_thread sys' i) s s' /\
    ft_todo (fs_thread sys' i) = (if f_answers b (fs_thread sys i) (as_thread s i) then tl (ft_todo (fs_thread sys i)) else ft_todo (fs_thread sys i)) /\
    fsinv P U A E b envs n k programs m sys' s' /\ f_takes A b envs n k i sys sys'.
Proof.
  intros St Af V. unfold f_step. set (t := fs_thread sys i). destruct (fv_each _ _ _ _ _ _ _ _ _ _ _ _ V i) as (m0 & st & H & Ph). fold t in H, Ph.
  pose proof (fv_hist _ _ _ _ _ _ _ _ _ _ _ _ V i) as Hi. pose proof (fv_right _ _ _ _ _ _ _ _ _ _ _ _ V i) as Ri. pose proof (fv_fine _ _ _ _ _ _ _ _ _ _ _ _ V i) as Fi. fold t in Fi. pose proof (fv_rem _ _ _ _ _ _ _ _ _ _ _ _ V) as Rm.
  set (a := as_thread s i) in *. destruct (ft_todo t) as [|o rest] eqn:To.
  { exists sys, s. split; [reflexivity|]. split; [|split; [fold t; unfold f_answers; rewrite To; reflexivity|split; [exact V|split; [lia|auto]]]]. unfold f_moves, takes_effect, got_block, asking. fold t. unfold phase_ok in Ph.
    destruct (ft_phase t); cbn [negb andb].
    - destruct Ph as (T1 & _ & T2 & _). unfold a_turn. fold a. rewrite T2, <- T1, To. reflexivity.
    - destruct Ph as (o & rest & T1 & _). congruence.
    - destruct Ph as (? & o1 & r & T1 & _). congruence.
    - destruct Ph as (o & rest & T1 & _). congruence. }
  inversion Fi as [|? ? Vo Vr]; subst. unfold phase_ok in Ph. destruct (ft_phase t) as [|p l mask prev al|p l off|] eqn:Hp; cbn [f_act].
  - (** the call begins *)
    destruct Ph as (T1 & T2 & T3 & ->). rewrite To in T1. destruct Ri as [x Ri]. rewrite <- T1 in Ri. destruct (right_next _ _ _ _ Ri) as (st' & r & Hs & Ri').
    destruct (begin_ok P U A E b (envs i) (n i) (k i) m0 (pads i (ft_tick t)) o (fnow (fs_mem sys) (fs_rem sys) t) (at_state a) st' r (St i) H Vo Hs) as (out & X & B).
    unfold fnow in X. rewrite X. pose proof (a_turn_go b i s o rest st' r T3 (eq_sym T1) Hs) as Tu. fold a in Tu. destruct out as [nw' r'|m' rem' ph]; cbn [begun] in B.
    + destruct B as (-> & Rq & Re & H' & Su). rewrite Rq in Tu. cbn [serial_run granted forallb] in Tu. eexists. eexists. split; [reflexivity|]. cbn [fs_thread]. rewrite f_put_same.
      split; [unfold f_moves, takes_effect, got_block, asking; rewrite Hp; cbn [negb andb ft_phase]; exact Tu|].
      cbn [fnow n_shared nw_rem] in Re. split; [fold t; unfold f_answers; rewrite To, Hp; cbn [ft_todo tl]; fold a; rewrite ?Rq; reflexivity|]. eapply (fupd P U A E b envs n k programs m sys s i m0 (at_state a) _ _ _ _ st'); eauto; cbn [as_thread as_rem ft_todo ft_phase].
      * unfold fnow. cbn [ft_world]. rewrite n_shared_same. exact H'.
      * unfold phase_ok. cbn [ft_phase ft_todo ft_results]. rewrite set_a_same. cbn [at_todo at_results at_hung at_state]. rewrite T2. auto.
      * lia.
      * rewrite <- Rm. lia.
      * intros j D. now rewrite set_a_other.
      * rewrite set_a_same. exact Ri'.
      * rewrite set_a_same. cbn [at_todo at_state at_results]. fold a in Hi. rewrite <- T1 in Hi. exact (hist_next _ _ _ _ _ _ _ Hi Hs).
      * intros y [K|K]; [|destruct K]. left. left. fold t. apply Su in K. exact K.
    + destruct B as (Er & H' & l & Rq & B). cbn [fnow n_shared nw_rem] in Er. subst rem'. cbn [fnow n_shared nw_rem] in H', B.
      destruct ph as [|p l' mask prev al| |]; try contradiction.
      * destruct B as (-> & Pd & VL & La & -> & ->). exists (FSystem m' (fs_rem sys) (f_put (fs_thread sys) i (FThread (o :: rest) (ft_world t) (ft_tick t) (ft_results t) (FAsking p l (not_w U (l_align l - 1)) (fs_rem sys) al)))), s.
        split; [reflexivity|]. cbn [fs_thread]. rewrite f_put_same.
        split; [unfold f_moves, takes_effect, got_block, asking; cbn [ft_phase negb]; rewrite andb_false_r; reflexivity|].
        split; [fold t; unfold f_answers; rewrite To, Hp; cbn [ft_todo tl]; fold a; rewrite ?Rq; reflexivity|]. eapply (fupd P U A E b envs n k programs m sys s i m0 (at_state a) _ _ _ _ (left_state (at_state a) o)); eauto; cbn [ft_todo ft_phase].
        -- unfold phase_ok. cbn [ft_phase ft_todo ft_results ft_world]. fold a. exists o, rest. rewrite <- T1. repeat (split; [first [reflexivity|assumption]|]).
           pose proof (ni_rem _ _ _ _ _ _ _ _ _ _ H) as R. cbn [fnow n_shared nw_rem] in R. lia.
        -- lia.
        -- fold a. rewrite <- T1. eauto.
        -- intros y [K|K]; [|destruct K]. left. left. exact K.
      * eexists. exists (ASystem (as_rem s) (set_a (as_thread s) i (AThread (o :: rest) (at_state a) (at_results a) true))). split; [reflexivity|]. cbn [fs_thread]. rewrite f_put_same.
        split; [unfold f_moves, takes_effect, got_block, asking; rewrite Hp; cbn [negb andb ft_phase]; rewrite Tu, Rq; cbn [serial_run]; rewrite <- Rm; destruct (serial_alloc (fs_rem sys) l) as [q1 q2]; cbn [snd] in B; subst q2; reflexivity|].
        split; [fold t; unfold f_answers; rewrite To, Hp; cbn [ft_todo tl]; fold a; rewrite ?Rq; reflexivity|]. eapply (fupd P U A E b envs n k programs m sys s i m0 (at_state a) _ _ _ _ (left_state (at_state a) o)); eauto; cbn [granted forallb as_thread as_rem ft_todo ft_phase].
        -- unfold phase_ok. cbn [ft_phase ft_todo ft_results ft_world]. rewrite set_a_same. cbn [at_todo at_results at_hung at_state]. exists o, rest. auto.
        -- lia.
        -- intros j D. now rewrite set_a_other.
        -- rewrite set_a_same. cbn [at_state at_todo]. eauto.
        -- rewrite set_a_same. cbn [at_todo at_state at_results]. fold a in Hi. rewrite <- T1 in Hi. exact Hi.
        -- intros y [K|K]; [|destruct K]. left. left. exact K.
  - (** a round of [fetch_update] *)
    destruct Ph as (o1 & rest1 & T0 & T1 & T2 & T3 & Es & Rq & Pd & VL & La & Mk & Pr). rewrite To in T0. injection T0 as <- <-. subst st mask. fold a in T1, T2, T3, Rq, Pd, Hi. rewrite T1 in Hi.
    destruct Ri as [x Ri]. rewrite T1 in Ri. destruct (right_next _ _ _ _ Ri) as (st' & r & Hs & Ri'). pose proof (St i) as (_ & HU & _).
    pose proof (a_turn_go b i s o rest st' r T3 T1 Hs) as Tu. fold a in Tu. rewrite Rq in Tu. cbn [serial_run] in Tu.
    assert (Pw : prev < 2 ^ U). { assert (2 ^ 18 <= 2 ^ U) by (apply N.pow_le_mono_r; lia). change (2 ^ 18) with (2 * (128 * 1024)) in *. lia. }
    unfold f_round. rewrite closure_ok by auto. cbn [n_shared nw_world nw_rem with_mem w_mem]. destruct (N.ltb_spec prev (l_size l)) as [Lt|Ge]; cbn [bind].
    + eexists. exists (ASystem (as_rem s) (set_a (as_thread s) i (AThread (o :: rest) (at_state a) (at_results a) true))). split; [reflexivity|]. cbn [fs_thread]. rewrite f_put_same.
      split.
      { unfold f_moves, takes_effect, got_block, asking. rewrite Hp. cbn [negb andb ft_phase]. rewrite Tu. unfold serial_alloc. replace (as_rem s <? l_size l) with true by lia. rewrite orb_true_r. reflexivity. }
      cbn [granted forallb]. split; [fold t; unfold f_answers; rewrite To, Hp; cbn [ft_todo tl]; fold a; rewrite ?Rq; reflexivity|]. eapply (fupd P U A E b envs n k programs m sys s i m0 _ _ _ _ _ (left_state (at_state a) o)); eauto; cbn [as_thread as_rem ft_todo ft_phase].
      * unfold phase_ok. cbn [ft_phase ft_todo ft_results ft_world]. rewrite set_a_same. cbn [at_todo at_results at_hung at_state]. exists o, rest. auto.
      * lia.
      * intros j D. now rewrite set_a_other.
      * rewrite set_a_same. cbn [at_state at_todo]. eauto.
      * rewrite set_a_same. cbn [at_todo at_state at_results]. exact Hi.
      * intros y [K|K]; [|destruct K]. left. left. exact K.
    + destruct (N.eqb_spec (fs_rem sys) prev) as [Eq|Ne]; [destruct sp|]; cbn [negb andb].
      2: { set (off := (prev - l_size l) / l_align l * l_align l).
        assert (Lo : off + l_size l <= prev) by (pose proof (round_down_le (prev - l_size l) (l_align l)); unfold off; lia).
        assert (A0 : l_align l <> 0) by (destruct VL as [(q & _ & ->) _]; apply N.pow_nonzero; lia).
        eexists. exists (ASystem off (set_a (as_thread s) i (AThread rest st' (at_results a ++ [r]) false))). split; [reflexivity|]. cbn [fs_thread]. rewrite f_put_same. split.
        { unfold f_moves, takes_effect, got_block, asking. rewrite Hp. cbn [negb andb ft_phase]. rewrite Tu. unfold serial_alloc. replace (as_rem s <? l_size l) with false by lia.
          replace (4096 <? l_align l) with false by lia. cbn [orb]. rewrite <- Rm, Eq. fold off. cbn [granted forallb andb]. reflexivity. }
        split; [fold t; unfold f_answers; rewrite To, Hp; cbn [ft_todo tl]; fold a; rewrite ?Rq; reflexivity|]. eapply (fupd P U A E b envs n k programs m sys s i m0 _ _ _ _ _ (left_state (at_state a) o)); eauto; cbn [as_thread as_rem ft_todo ft_phase].
        - exact (ninv_rem P U A E b (envs i) (n i) (k i) m0 (fnow (fs_mem sys) (fs_rem sys) t) _ off (St i) H ltac:(cbn [fnow n_shared nw_rem]; lia)).
        - unfold phase_ok. cbn [ft_phase ft_todo ft_results ft_world]. rewrite set_a_same. cbn [at_todo at_results at_hung at_state]. exists (at_state a), o, r. rewrite T2.
          repeat (split; [first [reflexivity|assumption]|]). split; [lia|]. unfold off. apply N.mod_mul. exact A0.
        - lia.
        - intros j D. now rewrite set_a_other.
        - rewrite set_a_same. cbn [at_state at_todo]. exact Ri'.
        - rewrite set_a_same. cbn [at_todo at_state at_results]. exact (hist_next _ _ _ _ _ _ _ Hi Hs).
        - intros y [K|K]; [left; left; exact K|]. right. unfold reserved in K. cbn [ft_phase] in K. unfold in_region in *. lia.
        - intros y K O. unfold reserved in K. cbn [ft_phase ft_world] in *. apply (low_unheld P U A E b envs n k programs m sys s i y St V); [unfold in_region in *; lia|left; exact O]. }
      all: (exists (FSystem (fs_mem sys) (fs_rem sys) (f_put (fs_thread sys) i (FThread (o :: rest) (ft_world t) (ft_tick t) (ft_results t)
              (FAsking p l (not_w U (l_align l - 1)) (fs_rem sys) ((prev - l_size l) / l_align l * l_align l))))), s; split; [reflexivity|]; cbn [fs_thread]; rewrite f_put_same;
        split; [unfold f_moves, takes_effect, got_block, asking; cbn [ft_phase negb]; rewrite andb_false_r; reflexivity|];
        split; [fold t; unfold f_answers; rewrite To, Hp; cbn [ft_todo tl]; fold a; rewrite ?Rq; reflexivity|]; eapply (fupd P U A E b envs n k programs m sys s i m0 _ _ _ _ _ (left_state (at_state a) o)); eauto; cbn [ft_todo ft_phase];
        [ unfold phase_ok; cbn [ft_phase ft_todo ft_results ft_world]; fold a; exists o, rest; repeat (split; [first [reflexivity|assumption]|]); lia
        | lia
        | fold a; rewrite T1; eauto
        | fold a; rewrite T1; exact Hi
        | intros y [K|K]; [|destruct K]; left; left; exact K ]).
  - (** the call goes on with its block *)
    destruct Ph as (st0 & o1 & r & T0 & T1 & T2 & Hs & Es & Hb & _ & Pd & B1 & B2 & B3). rewrite To in T0. injection T0 as <- Er. subst st. fold a in T1, T2, Hs, Er.
    assert (Rs : forall y, in_region (nb_base b + off) (l_size l) y -> reserved b t y) by (intros y Y; unfold reserved; now rewrite Hp).
    assert (Bl : block_ok A b m0 (fnow (fs_mem sys) (fs_rem sys) t) l off).
    { split; [exact B1|]. split; [exact B2|]. split; [exact B3|]. intros y Y. pose proof (fv_block _ _ _ _ _ _ _ _ _ _ _ _ V i y (Rs y Y)) as N. fold t in N.
      split; [|split; intros K; apply N; [now left|right; now left]]. rewrite <- (owns_rest _ _ _ _ _ _ _ _ _ _ y H N). cbn [fnow n_shared nw_world with_mem w_mem].
      rewrite (fv_rest _ _ _ _ _ _ _ _ _ _ _ _ V y); [apply Af; unfold in_region in *; lia|]. intros j K. destruct (Nat.eq_dec j i) as [->|D]; [exact (N K)|].
      exact (fv_apart _ _ _ _ _ _ _ _ _ _ _ _ V j i y D (or_introl K) (or_intror (Rs y Y))). }
    assert (Pd' : pend_ok b (fnow (fs_mem sys) (fs_rem sys) t) st0 o p l) by (apply (pend_world b (ft_world t)); [right; split; [|split]; reflexivity|reflexivity|exact Pd]).
    assert (X : exists nw', f_finish P A E b (envs i) (pads i (ft_tick t)) p l off (fnow (fs_mem sys) (fs_rem sys) t) = Ret (Answered nw' r) /\ nw_rem nw' = fs_rem sys /\
      ninv P A E b (envs i) (n i) (k i) m0 nw' (at_state a) /\ forall y, owns A b (envs i) (n i) (k i) nw' y -> owns A b (envs i) (n i) (k i) (ft_world t) y \/ in_region (nb_base b + off) (l_size l) y).
    { destruct p as [h|w' id len x].
      - destruct Pd' as [-> ->]. destruct (finish_new P U A E b (envs i) (n i) (k i) m0 (pads i (ft_tick t)) h _ st0 off (St i) H Bl) as (st' & nw' & Q1 & Q2 & Q3 & Q4 & Q5).
        rewrite Hs in Q1. injection Q1 as <- ->. exists nw'. auto.
      - destruct (finish_push P U A E b (envs i) (n i) (k i) m0 (pads i (ft_tick t)) w' id len x l off o _ st0 (St i) H Pd' Bl) as (st' & nw' & Q1 & Q2 & Q3 & Q4 & Q5).
        rewrite Hs in Q1. injection Q1 as <- ->. exists nw'. auto. }
    destruct X as (nw' & X & Re & H' & Su). unfold fnow in X. rewrite X. exists (FSystem (w_mem (nw_world nw')) (nw_rem nw') (f_put (fs_thread sys) i (FThread rest nw' (S (ft_tick t)) (ft_results t ++ [r]) FReady))), s.
    split; [reflexivity|]. split; [unfold f_moves, takes_effect, got_block; rewrite Hp; reflexivity|].
    split; [cbn [fs_thread]; rewrite f_put_same; fold t; unfold f_answers; rewrite To, Hp; cbn [ft_todo tl]; fold a; rewrite ?Rq; reflexivity|]. eapply (fupd P U A E b envs n k programs m sys s i m0 _ _ _ _ _ (at_state a)); eauto; cbn [ft_todo ft_phase].
    + unfold fnow. cbn [ft_world]. rewrite n_shared_same. exact H'.
    + unfold phase_ok. cbn [ft_phase ft_todo ft_results]. fold a. auto.
    + lia.
    + lia.
    + intros y [K|K]; [|destruct K]. cbn [ft_world] in K. left. destruct (Su y K) as [K'|K']; [left; exact K'|right; apply Rs, K'].
  - (** the thread hangs *)
    destruct Ph as (o1 & rest1 & T0 & T1 & T2 & T3 & Es). rewrite To in T0. injection T0 as <- <-. subst st. fold a in T1, T2, T3. cbn [n_shared nw_world nw_rem with_mem w_mem].
    exists (FSystem (fs_mem sys) (fs_rem sys) (f_put (fs_thread sys) i (FThread (o :: rest) (ft_world t) (ft_tick t) (ft_results t) FHung))), s. split; [reflexivity|]. cbn [fs_thread]. rewrite f_put_same.
    split; [unfold f_moves, takes_effect, got_block, asking; rewrite Hp; cbn [negb andb ft_phase]; unfold a_turn; fold a; now rewrite T3|].
    split; [fold t; unfold f_answers; rewrite To, Hp; cbn [ft_todo tl]; fold a; rewrite ?Rq; reflexivity|]. eapply (fupd P U A E b envs n k programs m sys s i m0 _ _ _ _ _ (left_state (at_state a) o)); eauto; cbn [ft_todo ft_phase].
    + unfold phase_ok. cbn [ft_phase ft_todo ft_results]. fold a. exists o, rest. auto.
    + lia.
    + intros y [K|K]; [|destruct K]. left. left. exact K.
Qed.

(** ** Runs *)
Lemma fsinv_start P U A E b envs n k programs m : arena_free b m -> variables_apart A envs n k m -> (forall i, Forall (hop_fine (n i) (k i)) (programs i)) ->
  (forall i, exists x, hclient_run hclient_start (programs i) = Fine x) -> fsinv P U A E b envs n k programs m (f_start m programs) (a_start programs).
Proof.
  intros Af [Pl Ap] V Fi.
  assert (Ow : forall i y, owns A b (envs i) (n i) (k i) (n_start m) y -> exists v, variable (n i) (k i) v /\ in_variable A (envs i) v y).
  { intros i y [(id & a & ms & L & _)|[(id & L & _)|J]]; [discriminate L|elim L; reflexivity|exact J]. }
  constructor; cbn [f_start a_start fs_rem as_rem fs_thread as_thread ft_todo at_todo at_results ft_world at_state fs_mem]; auto.
  - intros i. exists []. auto.
  - intros i. exists m, hclient_start. split; [exact (ninv_start P A E b (envs i) (n i) (k i) m Af (Pl i))|]. cbn. auto.
  - intros i j y N [J|[]] [K|[]]. apply Ow in J as (v & Kv & J). apply Ow in K as (w & Kw & K). exact (Ap i j v w y N Kv J Kw K).
Qed.
Lemma frun_ok P U A E b envs n k programs pads m cs : all_set U A b envs n k -> arena_free b m -> forall sys s, fsinv P U A E b envs n k programs m sys s ->
  exists sys' s', f_run P U A E b envs pads cs sys = Ret sys' /\ a_turns b (effects P U A E b envs pads cs sys) s = Fine s' /\ fsinv P U A E b envs n k programs m sys' s'.
Proof.
  intros St Af. induction cs as [|[i sp] cs IH]; intros sys s V; cbn [f_run effects]; [exists sys, s; auto|].
  destruct (fstep_ok P U A E b envs n k programs pads m i sp sys s St Af V) as (sys1 & s1 & X & M & _ & V1 & _). rewrite X. cbn [bind].
  destruct (IH sys1 s1 V1) as (sys2 & s2 & Y & T & V2). exists sys2, s2. split; [exact Y|]. split; [|exact V2].
  unfold f_moves in M. destruct (takes_effect _ _); cbn [app a_turns]; [now rewrite M|now subst s1].
Qed.
Lemma ninv_shows P U A E b env n k m0 m rem nw st : setting U A b env n k -> ninv P A E b env n k m0 (n_shared m rem nw) st -> thread_shows A E b env n k m nw st.
Proof.
  intros S H. destruct (ni_frame _ _ _ _ _ _ _ _ _ _ H) as (m1 & H1 & F).
  destruct S as (I & _ & Bd & _). destruct (hinv_shows P A E (nb_box b) env n k m1 _ _ I (proj1 Bd) H1) as (S1 & S2 & S3 & S4 & S5).
  split; [exact S1|]. split; [exact S2|]. split; [|exact S4]. intros id x0 x ms Ho. destruct (S3 id x0 x ms Ho) as (a & L & O). exists a. split; [exact L|]. split; [exact O|].
  apply (ni_vec _ _ _ _ _ _ _ _ _ _ H id a ms L).
Qed.
Lemma fsinv_stands P U A E b envs n k programs m sys s i : all_set U A b envs n k -> fsinv P U A E b envs n k programs m sys s ->
  stands A E b (envs i) (n i) (k i) (fs_mem sys) (fs_thread sys i) (as_thread s i).
Proof.
  intros St V. destruct (fv_each _ _ _ _ _ _ _ _ _ _ _ _ V i) as (m0 & st & H & Ph). apply (ninv_shows P U A E b (envs i) (n i) (k i) m0 (fs_mem sys) (fs_rem sys) _ _ (St i)) in H.
  unfold stands, phase_ok, asking in *. destruct (ft_phase (fs_thread sys i)); cbn [negb].
  - destruct Ph as (H1 & H2 & H3 & ->). auto.
  - destruct Ph as (o & rest & H1 & H2 & H3 & H4 & -> & _). exists o, rest. auto.
  - destruct Ph as (st0 & c & r & H1 & H2 & H3 & H4 & -> & _). exists st0, c, r. auto.
  - destruct Ph as (o & rest & H1 & H2 & H3 & H4 & ->). exists o, rest. auto.
Qed.
Lemma before_done {T} (before rest prog : list T) : before ++ rest = prog -> firstn (length before) prog = before /\ skipn (length before) prog = rest.
Proof. intros <-. rewrite firstn_app, skipn_app, firstn_all, skipn_all, Nat.sub_diag. cbn. now rewrite app_nil_r. Qed.

(** ** The theorems *)
(** C83: the threads of C82 may be interrupted inside their calls, before every [compare_exchange_weak] of the allocator and after the last
    one, and it may fail for no reason: they still have no undefined behaviour. A thread whose call has come back has what it would have if
    the calls happened at once, one after the other, in the order in which they get their memory, find that there is none or come back
    without asking; and so does what is left in the arena. No two threads hold a byte in common, counting blocks that are handed out and not yet
    used, and memory that belongs to nobody does not change. *)
Lemma c83_atomic_pf : forall P U A E b envs n k pads programs m cs, In A word_alignments -> 18 < U -> build_ok U A b -> nb_base b mod nb_align b = 0 ->
  arena_free b m -> variables_apart A envs n k m -> (forall i, Forall (hop_fine (n i) (k i)) (programs i)) ->
  (forall i, exists x, hclient_run hclient_start (programs i) = Fine x) ->
  exists sys s, f_run P U A E b envs pads cs (f_start m programs) = Ret sys /\
    a_turns b (effects P U A E b envs pads cs (f_start m programs)) (a_start programs) = Fine s /\ fs_rem sys = as_rem s /\
    (forall i, stands A E b (envs i) (n i) (k i) (fs_mem sys) (fs_thread sys i) (as_thread s i)) /\
    (forall i j y, i <> j -> holds A b (envs i) (n i) (k i) (fs_thread sys i) y -> ~ holds A b (envs j) (n j) (k j) (fs_thread sys j) y) /\
    (forall y, (forall i, ~ owns A b (envs i) (n i) (k i) (ft_world (fs_thread sys i)) y) -> fs_mem sys y = m y).
Proof.
  intros P U A E b envs n k pads programs m cs I HU Bd Ba Af Pl V Fi. pose proof (all_set_intro U A b envs n k m I HU Bd Ba Af Pl) as St.
  destruct (frun_ok P U A E b envs n k programs pads m cs St Af _ _ (fsinv_start P U A E b envs n k programs m Af Pl V Fi)) as (sys & s & X & T & H).
  exists sys, s. split; [exact X|]. split; [exact T|]. split; [apply H|]. split; [|split].
  - intros i. exact (fsinv_stands P U A E b envs n k programs m sys s i St H).
  - intros i j y N J K. exact (fv_apart _ _ _ _ _ _ _ _ _ _ _ _ H i j y N J K).
  - apply H.
Qed.

(** C83: the same against the threads of C82 whose calls happen at once: they run in the order in which the calls of the interrupted threads
    take effect, what is left in the arena is the same, and every thread that is not inside a call, or hangs, has made the same calls with the
    same results; one that waits for memory has not made its call there and does not hang, and one that has got it has made it. *)
Lemma c83_calls_pf : forall P U A E b envs n k pads programs m cs, In A word_alignments -> 18 < U -> build_ok U A b -> nb_base b mod nb_align b = 0 ->
  arena_free b m -> variables_apart A envs n k m -> (forall i, Forall (hop_fine (n i) (k i)) (programs i)) ->
  (forall i, exists x, hclient_run hclient_start (programs i) = Fine x) ->
  exists sys whole, f_run P U A E b envs pads cs (f_start m programs) = Ret sys /\
    nsys_run P U A E b envs pads (effects P U A E b envs pads cs (f_start m programs)) (nsys_start m programs) = Ret whole /\ fs_rem sys = ns_rem whole /\
    forall i, let t := fs_thread sys i in let t' := ns_thread whole i in
      nt_hung t' = (match ft_phase t with FHung => true | _ => false end) /\
      if got_block t then exists o r, ft_todo t = o :: nt_todo t' /\ nt_results t' = ft_results t ++ [r]
      else ft_todo t = nt_todo t' /\ ft_results t = nt_results t'.
Proof.
  intros P U A E b envs n k pads programs m cs I HU Bd Ba Af Pl V Fi.
  destruct (c83_atomic_pf P U A E b envs n k pads programs m cs I HU Bd Ba Af Pl V Fi) as (sys & s & X & T & Rm & S & _).
  pose proof (c82_threads_pf P U A E b envs n k pads programs m (effects P U A E b envs pads cs (f_start m programs)) I HU Bd Ba Af Pl V) as Q. rewrite T in Q.
  destruct Q as (whole & Y & Rm' & W & _). exists sys, whole. split; [exact X|]. split; [exact Y|]. split; [congruence|]. intros i t t'.
  destruct (W i) as (W1 & W2 & W3 & _). specialize (S i). fold t in S. fold t' in W1, W2, W3. unfold stands, got_block, asking in *. rewrite W1, W2, W3. destruct (ft_phase t) as [|p l mask prev al|p l off|]; cbn [negb] in S.
  - tauto.
  - destruct S as (o & rest & H1 & H2 & H3 & H4 & _). rewrite H2. auto.
  - destruct S as (st0 & o & r & H1 & H2 & H3 & _). eauto.
  - destruct S as (o & rest & H1 & H2 & H3 & H4 & _). rewrite H2. auto.
Qed.

(** C83: a thread has at any moment the results of the first calls of its program when it runs alone, and memory shows its state. Inside a call
    it shows the state before the call, but for the move that [Position_make_compact_move] has made in the position and not added to the
    list; a thread that has got its block and not used it has it to itself, at the right alignment, inside the arena and above what is left. *)
Lemma c83_alone_pf : forall P U A E b envs n k pads programs m cs, In A word_alignments -> 18 < U -> build_ok U A b -> nb_base b mod nb_align b = 0 ->
  arena_free b m -> variables_apart A envs n k m -> (forall i, Forall (hop_fine (n i) (k i)) (programs i)) ->
  (forall i, exists x, hclient_run hclient_start (programs i) = Fine x) ->
  exists sys, f_run P U A E b envs pads cs (f_start m programs) = Ret sys /\
    forall i, let t := fs_thread sys i in
      exists done st, hclient_run hclient_start (firstn done (programs i)) = Fine (st, ft_results t) /\ ft_todo t = skipn done (programs i) /\
        match ft_phase t with
        | FReady => thread_shows A E b (envs i) (n i) (k i) (fs_mem sys) (ft_world t) st
        | FHung => exists o rest, ft_todo t = o :: rest /\ granted (snd (serial_run (fs_rem sys) (op_requests b st o))) = false /\
            thread_shows A E b (envs i) (n i) (k i) (fs_mem sys) (ft_world t) (left_state st o)
        | FAsking _ l _ prev _ => exists o rest, ft_todo t = o :: rest /\ op_requests b st o = [l] /\ fs_rem sys <= prev /\
            thread_shows A E b (envs i) (n i) (k i) (fs_mem sys) (ft_world t) (left_state st o)
        | FServed _ l off => exists o rest, ft_todo t = o :: rest /\ op_requests b st o = [l] /\
            fs_rem sys <= off /\ off + l_size l <= 128 * 1024 /\ off mod l_align l = 0 /\
            (forall y, in_region (nb_base b + off) (l_size l) y -> ~ owns A b (envs i) (n i) (k i) (ft_world t) y /\ fs_mem sys y = m y) /\
            thread_shows A E b (envs i) (n i) (k i) (fs_mem sys) (ft_world t) (left_state st o)
        end.
Proof.
  intros P U A E b envs n k pads programs m cs I HU Bd Ba Af Pl V Fi. pose proof (all_set_intro U A b envs n k m I HU Bd Ba Af Pl) as St.
  destruct (frun_ok P U A E b envs n k programs pads m cs St Af _ _ (fsinv_start P U A E b envs n k programs m Af Pl V Fi)) as (sys & s & X & T & H).
  exists sys. split; [exact X|]. intros i t. destruct (fv_each _ _ _ _ _ _ _ _ _ _ _ _ H i) as (m0 & st & Hn & Ph). fold t in Hn, Ph.
  pose proof (ninv_shows P U A E b (envs i) (n i) (k i) m0 (fs_mem sys) (fs_rem sys) _ _ (St i) Hn) as W.
  destruct (fv_hist _ _ _ _ _ _ _ _ _ _ _ _ H i) as (be & Q1 & Q2). destruct (before_done _ _ _ Q1) as [D1 D2].
  unfold phase_ok in Ph. destruct (ft_phase t) as [|p l mask prev al|p l off|] eqn:Hp.
  - destruct Ph as (H1 & H2 & H3 & ->). exists (length be), (at_state (as_thread s i)). rewrite D1, D2, H1, H2. auto.
  - destruct Ph as (o & rest & H1 & H2 & H3 & H4 & -> & H5 & _ & _ & _ & _ & H6). exists (length be), (at_state (as_thread s i)). rewrite D1, D2, H1, H2, H3. split; [exact Q2|]. split; [reflexivity|]. exists o, rest. repeat (split; [first [reflexivity|assumption|lia]|]). exact W.
  - destruct Ph as (st0 & o & r & H1 & H2 & H3 & H4 & -> & (b0 & R1 & R2) & H5 & _ & H6 & H7 & H8). destruct (before_done _ _ _ R1) as [D1' D2'].
    exists (length b0), st0. rewrite D1', D2'. split; [exact R2|]. split; [reflexivity|]. exists o, (at_todo (as_thread s i)). split; [exact H1|]. split; [exact H5|]. split; [exact H6|]. split; [exact H7|]. split; [exact H8|]. split; [|exact W].
    intros y Y. assert (Rs : reserved b (fs_thread sys i) y) by (unfold reserved; fold t; now rewrite Hp). pose proof (fv_block _ _ _ _ _ _ _ _ _ _ _ _ H i y Rs) as N. split; [exact N|].
    apply (fv_rest _ _ _ _ _ _ _ _ _ _ _ _ H). intros j K. destruct (Nat.eq_dec j i) as [->|D]; [exact (N K)|]. exact (fv_apart _ _ _ _ _ _ _ _ _ _ _ _ H j i y D (or_introl K) (or_intror Rs)).
  - destruct Ph as (o & rest & H1 & H2 & H3 & H4 & ->). exists (length be), (at_state (as_thread s i)). rewrite D1, D2, H1, H2, H3. split; [exact Q2|]. split; [reflexivity|]. exists o, rest. split; [reflexivity|]. split; [|exact W].
    destruct (follows_turns b programs (effects P U A E b envs pads cs (f_start m programs)) Fi [] (a_start programs) (follows_start b programs)) as (s' & T' & F). rewrite T in T'. injection T' as <-.
    destruct (F i) as (d & _ & _ & G). rewrite H4 in G. destruct G as [_ (o' & rest' & G1 & G2)]. rewrite H2 in G1. injection G1 as <- <-. rewrite (fv_rem _ _ _ _ _ _ _ _ _ _ _ _ H). exact G2.
Qed.

(** ** Enough memory *)
Lemma effects_incl P U A E b envs pads cs : forall sys threads, incl (map fst cs) threads -> incl (effects P U A E b envs pads cs sys) threads.
Proof.
  induction cs as [|[i sp] cs IH]; intros sys threads J; cbn [effects map fst] in *; [intros x []|]. destruct (f_step _ _ _ _ _ _ _ _ _ _) as [sys'| |]; [|intros x []|intros x []].
  intros x K. apply in_app_or in K. destruct K as [K|K]; [|apply (IH sys' threads); auto; intros y Y; apply J; now right].
  destruct (takes_effect _ _); [|destruct K]. destruct K as [<-|[]]. apply J. now left.
Qed.
(** C83: where all that the threads will ever ask for, with the most that alignment can cost, fits into the arena, no thread hangs however
    they are interrupted and however often [compare_exchange_weak] fails. *)
Lemma c83_enough_pf : forall P U A E b envs n k pads programs m cs threads, In A word_alignments -> 18 < U -> build_ok U A b -> nb_base b mod nb_align b = 0 ->
  arena_free b m -> variables_apart A envs n k m -> (forall i, Forall (hop_fine (n i) (k i)) (programs i)) ->
  (forall i, exists x, hclient_run hclient_start (programs i) = Fine x) ->
  nb_align b <= 4096 -> NoDup threads -> incl (map fst cs) threads -> spend_all b programs threads <= 128 * 1024 ->
  exists sys, f_run P U A E b envs pads cs (f_start m programs) = Ret sys /\ forall i, ft_phase (fs_thread sys i) <> FHung.
Proof.
  intros P U A E b envs n k pads programs m cs threads I HU Bd Ba Af Pl V Fi Al D In_ Sp.
  destruct (c83_atomic_pf P U A E b envs n k pads programs m cs I HU Bd Ba Af Pl V Fi) as (sys & s & X & T & _ & S & _). exists sys. split; [exact X|].
  pose proof (enough_turns U A b threads _ Bd Al D (effects_incl P U A E b envs pads cs (f_start m programs) threads In_) _ _ T (fun _ => eq_refl) Sp) as Hu.
  intros i Z. specialize (S i). unfold stands, asking in S. rewrite Z in S. destruct S as (o & rest & _ & _ & _ & H & _). rewrite Hu in H. discriminate H.
Qed.

(** ** Progress *)
Definition rank (ph : f_phase) (rem : N) : nat :=
  match ph with FHung => 0 | FServed _ _ _ => 1 | FAsking _ _ _ prev _ => if rem =? prev then 2 else 3 | FReady => 3 end.
Lemma ask_rank P U m rem p l m' r ph : f_ask P U m rem p l = Ret (Turned m' r ph) -> ph = FHung \/ (rank ph r < 3)%nat.
Proof.
  unfold f_ask. destruct (align_mask P U l) as [mask| |]; cbn [bind]; try discriminate. intros [= <- <- <-]. destruct (_ <? _); [now left|right]. cbn [rank]. rewrite N.eqb_refl. lia.
Qed.
Lemma begin_rank P U A E b env pad o nw m r ph : f_begin P U A E b env pad o nw = Ret (Turned m r ph) -> ph = FHung \/ (rank ph r < 3)%nat.
Proof.
  assert (G : forall X : res (n_world * c_result), ('(nw', r) <- X;; Ret (Answered nw' r)) = Ret (Turned m r ph) -> ph = FHung \/ (rank ph r < 3)%nat).
  { intros [[? ?]| |]; discriminate. }
  unfold f_begin. destruct o; try apply G; [apply ask_rank|].
  destruct (deref _ _) as [[id [a ms]]| |]; cbn [bind]; try discriminate. destruct (h_step _ _ _ _ _ _ _ _ _) as [[w' res]| |]; cbn [bind]; try discriminate.
  destruct res as [|[]| | | | | |]; try discriminate. destruct (move_of_cm _ _) as [x| |]; cbn [bind]; try discriminate. destruct (_ =? _).
  - destruct (_ <=? _); [intros [= <- <- <-]; now left|apply ask_rank].
  - destruct (write_bytes _ _ _); discriminate.
Qed.
Lemma act_rank P U A E b env pad ph o nw m r ph' : f_act P U A E b env pad false ph o nw = Ret (Turned m r ph') -> ph' = FHung \/ (rank ph' r < rank ph (nw_rem nw))%nat.
Proof.
  destruct ph as [|p l mask prev al|p l off|]; cbn [f_act].
  - apply begin_rank.
  - unfold f_round. destruct (alloc_closure P U l mask prev) as [[next asg]| |]; cbn [bind]; try discriminate. destruct next as [next|]; [|intros [= <- <- <-]; now left].
    cbn [negb]. rewrite andb_true_r. destruct (nw_rem nw =? prev) eqn:Q; intros [= <- <- <-]; right; cbn [rank]; rewrite ?Q, ?N.eqb_refl; lia.
  - unfold f_finish. destruct p as [h|w id len x]; [destruct (h_step _ _ _ _ _ _ _ _ _) as [[? ?]| |]; discriminate|].
    destruct (memcpy _ _ _ _) as [[? ?]| |]; cbn [bind]; try discriminate. destruct (write_bytes _ _ _); discriminate.
  - intros [= <- <- <-]. now left.
Qed.
Lemma step_rank P U A E b envs pads i sys sys' : f_step P U A E b envs pads i false sys = Ret sys' -> let t := fs_thread sys i in let t' := fs_thread sys' i in
  ft_todo t = [] \/ ft_phase t' = FHung \/ (length (ft_results t) < length (ft_results t'))%nat \/
  (ft_todo t' = ft_todo t /\ ft_results t' = ft_results t /\ (rank (ft_phase t') (fs_rem sys') < rank (ft_phase t) (fs_rem sys))%nat).
Proof.
  intros Q t t'. unfold f_step in Q. fold t in Q. destruct (ft_todo t) as [|o rest] eqn:To; [now left|right].
  destruct (f_act _ _ _ _ _ _ _ _ _ _ _) as [[nw r|m r ph]| |] eqn:X; try discriminate Q; injection Q as <-; unfold t'; cbn [fs_thread fs_rem]; rewrite f_put_same; cbn [ft_phase ft_results ft_todo]; auto.
  - right. left. rewrite app_length. cbn [length]. lia.
  - apply act_rank in X. cbn [n_shared nw_rem] in X. destruct X as [->|X]; [now left|]. right. right. auto.
Qed.
Lemma step_more P U A E b envs pads i sp sys sys' : f_step P U A E b envs pads i sp sys = Ret sys' ->
  (length (ft_results (fs_thread sys i)) <= length (ft_results (fs_thread sys' i)))%nat /\ (ft_phase (fs_thread sys i) = FHung -> ft_phase (fs_thread sys' i) = FHung).
Proof.
  unfold f_step. destruct (ft_todo _) as [|o rest]; [intros [= <-]; auto|]. destruct (f_act _ _ _ _ _ _ _ _ _ _ _) as [[nw r|m r ph]| |] eqn:X; try discriminate;
    intros [= <-]; cbn [fs_thread]; rewrite f_put_same; cbn [ft_phase ft_results]; (split; [rewrite ?app_length; lia|]); auto; intros Z; rewrite Z in X; cbn [f_act] in X; [discriminate X|now injection X as <- <- <-].
Qed.
Lemma solo_more P U A E b envs pads i q : forall sys sys', f_run P U A E b envs pads (repeat (i, false) q) sys = Ret sys' ->
  (length (ft_results (fs_thread sys i)) <= length (ft_results (fs_thread sys' i)))%nat /\ (ft_phase (fs_thread sys i) = FHung -> ft_phase (fs_thread sys' i) = FHung).
Proof.
  induction q as [|q IH]; intros sys sys'; cbn [repeat f_run]; [intros [= <-]; auto|]. destruct (f_step _ _ _ _ _ _ _ _ _ _) as [sys1| |] eqn:X; try discriminate. cbn [bind]. intros Q.
  destruct (step_more _ _ _ _ _ _ _ _ _ _ _ X), (IH _ _ Q). split; [lia|auto].
Qed.
Lemma solo_rank P U A E b envs pads i q : forall sys sys', f_run P U A E b envs pads (repeat (i, false) q) sys = Ret sys' -> (rank (ft_phase (fs_thread sys i)) (fs_rem sys) <= q)%nat ->
  ft_todo (fs_thread sys i) = [] \/ ft_phase (fs_thread sys' i) = FHung \/ (length (ft_results (fs_thread sys i)) < length (ft_results (fs_thread sys' i)))%nat.
Proof.
  induction q as [|q IH]; intros sys sys'; cbn [repeat f_run].
  - intros [= <-] L. right. left. unfold rank in L. destruct (ft_phase (fs_thread sys i)); try (exfalso; lia); [destruct (_ =? _); exfalso; lia|reflexivity].
  - destruct (f_step _ _ _ _ _ _ _ _ _ _) as [sys1| |] eqn:X; try discriminate. cbn [bind]. intros Q L. destruct (solo_more _ _ _ _ _ _ _ _ _ _ _ Q) as [M1 M2].
    destruct (step_rank _ _ _ _ _ _ _ _ _ _ X) as [Z|[Z|[Z|(Z1 & Z2 & Z3)]]]; auto; [right; right; lia|].
    destruct (IH _ _ Q ltac:(lia)) as [Y|[Y|Y]]; [left; congruence|auto|]. right. right. rewrite <- Z2. exact Y.
Qed.
Lemma f_run_app P U A E b envs pads cs cs' sys : f_run P U A E b envs pads (cs ++ cs') sys = (sys' <- f_run P U A E b envs pads cs sys;; f_run P U A E b envs pads cs' sys').
Proof. revert sys. induction cs as [|[i sp] cs IH]; intros sys; cbn [app f_run bind]; [reflexivity|]. destruct (f_step _ _ _ _ _ _ _ _ _ _); cbn [bind]; auto. Qed.
(** C83: no thread waits for another. Wherever the threads have been interrupted, three steps of one of them without the others, in which
    [compare_exchange_weak] does not fail for no reason, bring it to the end of a call, or it hangs because there is no memory. *)
Lemma c83_progress_pf : forall P U A E b envs n k pads programs m cs sys i, In A word_alignments -> 18 < U -> build_ok U A b -> nb_base b mod nb_align b = 0 ->
  arena_free b m -> variables_apart A envs n k m -> (forall i, Forall (hop_fine (n i) (k i)) (programs i)) ->
  (forall i, exists x, hclient_run hclient_start (programs i) = Fine x) -> f_run P U A E b envs pads cs (f_start m programs) = Ret sys ->
  exists sys', f_run P U A E b envs pads [(i, false); (i, false); (i, false)] sys = Ret sys' /\
    (ft_todo (fs_thread sys i) = [] \/ ft_phase (fs_thread sys' i) = FHung \/ (length (ft_results (fs_thread sys i)) < length (ft_results (fs_thread sys' i)))%nat).
Proof.
  intros P U A E b envs n k pads programs m cs sys i I HU Bd Ba Af Pl V Fi R.
  destruct (c83_atomic_pf P U A E b envs n k pads programs m (cs ++ repeat (i, false) 3) I HU Bd Ba Af Pl V Fi) as (sys' & _ & X & _). rewrite f_run_app, R in X. cbn [bind] in X.
  exists sys'. split; [exact X|]. apply (solo_rank _ _ _ _ _ _ _ _ _ _ _ X). unfold rank. destruct (ft_phase (fs_thread sys i)); try lia. destruct (_ =? _); lia.
Qed.

(** ** Who asks first *)
(** C83 (full statement refuted): the thread that asked first is not always served first. Of two threads that create a position, with room for
    one, the one that had loaded [remaining] before the other began its call may be overtaken, and hangs. *)
Lemma c83_order_refuted_pf : ~ (forall P U A E b envs n k pads programs m cs later sys sys' i j h h' rest rest', In A word_alignments -> 18 < U -> build_ok U A b ->
  nb_base b mod nb_align b = 0 -> arena_free b m -> variables_apart A envs n k m -> (forall i, Forall (hop_fine (n i) (k i)) (programs i)) ->
  (forall i, exists x, hclient_run hclient_start (programs i) = Fine x) -> f_run P U A E b envs pads cs (f_start m programs) = Ret sys ->
  asking (fs_thread sys i) = true -> ft_phase (fs_thread sys j) = FReady -> ft_todo (fs_thread sys i) = HNew h :: rest -> ft_todo (fs_thread sys j) = HNew h' :: rest' ->
  f_run P U A E b envs pads later sys = Ret sys' -> ft_phase (fs_thread sys' i) = FHung -> ft_results (fs_thread sys' j) = ft_results (fs_thread sys j)).
Proof.
  intros C. assert (I : In 8 word_alignments) by (unfold word_alignments; cbn; auto). assert (HU : 18 < 64) by lia.
  set (envs := fun _ : nat => env1). set (pads := fun (_ _ : nat) (_ : N) => 0). set (run := f_run Release 64 8 Little build4 envs pads).
  assert (Af : arena_free build4 ram1) by exact arena1_free.
  assert (K : match run [step0] (f_start ram1 five) with
    | Ret sys => asking (fs_thread sys 0%nat) = true /\ ft_phase (fs_thread sys 1%nat) = FReady /\ ft_todo (fs_thread sys 0%nat) = five 0 /\ ft_todo (fs_thread sys 1%nat) = five 1 /\ ft_results (fs_thread sys 1%nat) = [] /\
        match run overtaken sys with Ret sys' => ft_phase (fs_thread sys' 0%nat) = FHung /\ ft_results (fs_thread sys' 1%nat) = [CNothing] | _ => False end
    | _ => False end).
  { vm_compute. repeat split; reflexivity. }
  destruct (run [step0] (f_start ram1 five)) as [sys| |] eqn:R; try contradiction. destruct K as (K1 & K2 & K3 & K4 & K5 & K6).
  destruct (run overtaken sys) as [sys'| |] eqn:R'; try contradiction. destruct K6 as (K6 & K7).
  specialize (C Release 64 8 Little build4 envs (fun _ => 0%nat) (fun _ => 0%nat) pads five ram1 [step0] overtaken sys sys' 0%nat 1%nat 0%nat 0%nat _ _ I HU build4_ok eq_refl Af (no_variables _ _ _) (five_fine 0 0) five_runs R K1 K2 K3 K4 R' K6).
  rewrite K5, K7 in C. discriminate C.
Qed.
