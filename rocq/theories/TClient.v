(*PROPHEAD
Property theorems C58, C59: positions in the memory of a C program
From Verif Require Import LSampleC.
*)
(** C58, C59: positions in the memory of a C program. *)
From Coq Require Import String.
From Verif Require Import TPosition TSfen LExt LRuntime TRuntime.
From Verif Require Export LClient.
Close Scope string_scope.
Notation length := List.length.

(** C58: a position stored in memory has its fields where the header says, reads back as it was, and nothing else is touched. *)
Lemma c58_store_pf : forall P A E pad m a s x, In A word_alignments -> reachable P s -> sees P s x ->
  aligned A a -> accessible m a (position_size A) ->
  exists m', store_pp A E pad m a s = Ret m' /\ shows A E m' a x /\ load_pp A E m' a = Ret s /\ only_changes m m' a (position_size A).
Proof.
  intros P A E pad m a s x I R S Al Ac. pose proof (reachable_wf P s R) as W. apply sees_iff in S; auto.
  unfold store_pp. rewrite check_aligned_ok by auto. cbn [bind]. rewrite <- (image_length A E pad s I) in Ac.
  destruct (write_bytes_ok _ _ _ Ac) as (m' & Q & B & O). exists m'. split; [exact Q|]. apply image_fields in B; auto.
  split; [apply (shows_aeq A E m' a (abs s)); auto; now apply shows_abs|]. split; [now apply load_ok|]. now rewrite <- (image_length A E pad s I).
Qed.

Lemma map_res_ext {T U} (f g : T -> res U) l : (forall x, In x l -> f x = g x) -> map_res f l = map_res g l.
Proof. induction l as [|x l IH]; intros H; [reflexivity|]. cbn [map_res]. rewrite (H x) by now left. destruct (g x); cbn [bind]; auto. rewrite IH; auto. intros; apply H; now right. Qed.
Lemma field_bounds A o l : In A word_alignments -> In (o, l) (combine (pp_offsets A) (pp_field_lays A)) -> o + lay_size l <= position_size A.
Proof.
  intros I J. destruct (lay_facts A I) as (HO & HS & _ & _).
  assert (Q : map (fun x => (fst x, lay_size (snd x))) (combine (pp_offsets A) (pp_field_lays A)) = map snd (position_fields A)).
  { unfold word_alignments in I. repeat (destruct I as [<-|I]; [vm_compute; reflexivity|]). destruct I. }
  apply (spaced_lower _ _ _ (o, lay_size l) (fields_spaced A I)). rewrite <- Q. apply in_map_iff. exists (o, l). auto.
Qed.
Lemma in_range_iff n i : In i (range 0 n) <-> i < n.
Proof.
  unfold range. rewrite in_map_iff. split; [intros (k & <- & J); apply in_seq in J; lia|]. intros H. exists (N.to_nat i). split; [lia|apply in_seq; lia].
Qed.
Lemma load_ext A E m m' a b : In A word_alignments -> aligned A a -> aligned A b ->
  (forall i, i < position_size A -> m (a + i) = m' (b + i)) -> load_pp A E m a = load_pp A E m' b.
Proof.
  intros I Aa Ab H. unfold load_pp. rewrite !check_aligned_ok by auto. cbn [bind].
  rewrite (map_res_ext _ (fun x => read_bytes m' (b + fst x) (lay_size (snd x)))); [reflexivity|].
  intros [o l] J. pose proof (field_bounds A o l I J). cbn [fst snd]. apply map_res_ext. intros i Q. apply in_range_iff in Q.
  unfold mem_read. rewrite <- !N.add_assoc, H by lia. reflexivity.
Qed.
Lemma memcpy_self m a n : accessible m a n -> exists m', memcpy m a a n = Ret (m', a) /\ forall x, m' x = m x.
Proof.
  intros Ac. assert (G : forall k, k <= n -> exists m', for_each (range 0 k) (fun i m => value <- mem_read m (a + i);; mem_write m (a + i) value) m = Ret m' /\ forall x, m' x = m x).
  { induction k as [|k IH] using N.peano_ind; intros H; [exists m; split; [reflexivity|auto]|].
    destruct IH as (m' & Q & F); [lia|]. rewrite range_0_succ, for_each_app, Q. cbn [bind for_each].
    destruct (Ac k) as [v Hv]; [lia|]. unfold mem_read at 1. rewrite F, Hv. cbn [bind]. unfold mem_write. rewrite F, Hv. cbn [bind].
    eexists. split; [reflexivity|]. intros x. cbv beta. destruct (N.eqb_spec x (a + k)) as [->|]; auto. }
  destruct (G n) as (m' & Q & F); [lia|]. exists m'. unfold memcpy. rewrite Q. auto.
Qed.
(** C58: copying the bytes of a position copies the position: a struct assignment in C, which compiles to [memcpy], and no bytes elsewhere change. *)
Lemma c58_copy_pf : forall A E m dest src, In A word_alignments -> aligned A dest -> aligned A src ->
  accessible m dest (position_size A) -> accessible m src (position_size A) ->
  dest = src \/ apart dest src (position_size A) ->
  exists m', c_assign A m dest src = Ret m' /\ load_pp A E m' dest = load_pp A E m src /\ load_pp A E m' src = load_pp A E m src /\
    only_changes m m' dest (position_size A).
Proof.
  intros A E m dest src I Ad As Cd Cs D. unfold c_assign. destruct (lay_facts A I) as (_ & _ & -> & _).
  destruct D as [->|D].
  - destruct (memcpy_self m src (position_size A) Cs) as (m' & Q & F). rewrite Q. cbn [bind]. exists m'. split; [reflexivity|].
    assert (load_pp A E m' src = load_pp A E m src) by (apply load_ext; auto). repeat split; auto; intros H1; rewrite ?F in *; auto.
  - unfold memcpy. destruct (memcpy_loop m dest src (position_size A) Cs Cd D) as (m' & -> & [F1 F2] & F3). cbn [bind]. exists m'. split; [reflexivity|].
    split; [apply load_ext; auto|]. split; [|split; auto]. apply load_ext; auto. intros i L. apply F2. intros Q. apply (D (src + i)); auto. unfold in_region. lia.
Qed.

Lemma read_bytes_total m a n : accessible m a n -> exists l, read_bytes m a n = Ret l /\ length l = N.to_nat n /\ at_bytes m a l.
Proof.
  intros Ac. exists (map (fun i => match m (a + i) with Some v => v | None => 0 end) (range 0 n)).
  assert (L : length (map (fun i => match m (a + i) with Some v => v | None => 0 end) (range 0 n)) = N.to_nat n) by (unfold range; rewrite !map_length, seq_length; lia).
  split; [|split; [exact L|]].
  - unfold read_bytes. apply map_res_map. intros x J. apply in_range_iff in J. destruct (Ac x J) as [v Hv]. unfold mem_read. now rewrite Hv.
  - intros i Hi. rewrite L in Hi. 
    set (f := fun i => match m (a + i) with Some v => v | None => 0 end). rewrite (nth_indep _ 0 (f 0)) by (fold f in L; lia).
    rewrite map_nth. unfold range. rewrite (nth_indep _ 0 (0 + N.of_nat 0)) by (rewrite map_length, seq_length; lia).
    rewrite (map_nth (fun k => 0 + N.of_nat k)), seq_nth by lia. rewrite Nat.add_0_l, N.add_0_l. unfold f. destruct (Ac (N.of_nat i)) as [v ->]; [lia|]. reflexivity.
Qed.
(** C58: reading a position at an aligned address is defined exactly if the byte of the side to move is 1 or 2. *)
Lemma c58_load_defined_pf : forall A E m a, In A word_alignments -> accessible m a (position_size A) ->
  (aligned A a -> m a = Some 1 \/ m a = Some 2 -> exists s, load_pp A E m a = Ret s) /\
  (aligned A a -> m a <> Some 1 -> m a <> Some 2 -> load_pp A E m a = UB) /\
  (~ aligned A a -> load_pp A E m a = UB).
Proof.
  intros A E m a I Ac.
  assert (G : aligned A a -> exists fs, load_pp A E m a =
    (side <- color_from_byte (match m a with Some v => v | None => 0 end);; Ret (fs side)) ).
  { intros Al. unfold load_pp. rewrite check_aligned_ok by auto. cbn [bind].
    assert (R : exists fs, map_res (fun x => read_bytes m (a + fst x) (lay_size (snd x))) (combine (pp_offsets A) (pp_field_lays A)) =
              Ret (map (fun x => match read_bytes m (a + fst x) (lay_size (snd x)) with Ret l => l | _ => [] end) (combine (pp_offsets A) (pp_field_lays A))) /\
              fs = map (fun x => match read_bytes m (a + fst x) (lay_size (snd x)) with Ret l => l | _ => [] end) (combine (pp_offsets A) (pp_field_lays A))).
    { eexists. split; [|reflexivity]. apply map_res_map. intros [o l] J. pose proof (field_bounds A o l I J) as B. cbn [fst snd].
      destruct (read_bytes_total m (a + o) (lay_size l)) as (bs & -> & _); [|reflexivity]. intros i L. destruct (Ac (o + i)) as [v Hv]; [lia|]. exists v. rewrite <- Hv. f_equal. lia. }
    destruct R as (fs & -> & Hfs). rewrite <- Hfs. cbn [bind].
    assert (H0 : nth 0 (nth 0 fs []) 0 = match m a with Some v => v | None => 0 end).
    { assert (Q : exists rest l1, combine (pp_offsets A) (pp_field_lays A) = (0, l1) :: rest /\ lay_size l1 = 1).
      { unfold word_alignments in I. repeat (destruct I as [<-|I]; [do 2 eexists; split; [vm_compute; reflexivity|reflexivity]|]). destruct I. }
      destruct Q as (rest & l1 & Q & L1). rewrite Q in Hfs. subst fs. cbn [map nth fst snd]. rewrite N.add_0_r, L1.
      unfold read_bytes. change (range 0 1) with [0]. cbn [map_res]. rewrite N.add_0_r. unfold mem_read. destruct (Ac 0) as [v Hv].
      { unfold word_alignments in I. repeat (destruct I as [<-|I]; [reflexivity|]). destruct I. }
      rewrite N.add_0_r in Hv. rewrite Hv. reflexivity. }
    rewrite H0. eexists (fun side => PartialPosition side _ _ _ _ _ _ _). reflexivity. }
  split; [|split].
  - intros Al [H|H]; destruct (G Al) as (fs & ->); rewrite H; cbn [color_from_byte bind]; eauto.
  - intros Al H1 H2. destruct (G Al) as (fs & ->). destruct (m a) as [v|]; [|reflexivity].
    destruct v as [|[?|[?|?|]|]]; try reflexivity; congruence.
  - intros Na. unfold load_pp, check_aligned. destruct (lay_facts A I) as (_ & _ & _ & ->).
    destruct (N.eqb_spec (a mod position_align A) 0) as [Z|Z]; [|reflexivity]. exfalso. apply Na. exists (a / position_align A).
    assert (position_align A <> 0) by (unfold word_alignments in I; repeat (destruct I as [<-|I]; [discriminate|]); destruct I).
    pose proof (N.div_mod a (position_align A) H). lia.
Qed.

(** C58: if [memcmp] finds no difference between two positions in memory, they are equal.
    The converse is false, see the next theorem. *)
Lemma c58_memcmp_pf : forall P A E m a b, In A word_alignments -> holds_bytes m -> aligned A a -> aligned A b ->
  accessible m a (position_size A) -> accessible m b (position_size A) ->
  memcmp P m a b (position_size A) = Ret 0%Z -> load_pp A E m a = load_pp A E m b.
Proof.
  intros P A E m a b I B Aa Ab Ca Cb H. destruct (c48_memcmp_pf P m a b (position_size A) B Ca Cb) as (r & Q & Z & _). rewrite Q in H. injection H as ->.
  apply load_ext; auto. intros i L. apply (proj1 Z); auto.
Qed.

Lemma nth_byte (l : list N) i : Forall (fun y => y < 256) l -> nth i l 0 < 256.
Proof. intros F. destruct (nth_in_or_default i l 0) as [J| ->]; [rewrite Forall_forall in F; auto|lia]. Qed.
Lemma some_inj {T} (x y : T) : Some x = Some y -> x = y.
Proof. congruence. Qed.
(** C58: equal positions may differ in memory, in their padding: [memcmp] does not decide equality. *)
Lemma c58_memcmp_padding_pf : forall P A E s, In A word_alignments -> reachable P s ->
  exists m a b r, holds_bytes m /\ load_pp A E m a = Ret s /\ load_pp A E m b = Ret s /\
    memcmp P m a b (position_size A) = Ret r /\ r <> 0%Z.
Proof.
  intros P A E s I R. pose proof (reachable_wf P s R) as W.
  assert (Al : aligned A 0) by (exists 0; reflexivity). assert (Al' : aligned A 4096).
  { unfold aligned. unfold word_alignments in I. destruct I as [<-|[<-|[<-|[<-|[]]]]]; [exists 2048|exists 2048|exists 1024|exists 512]; reflexivity. }
  set (m0 := fun x : N => Some 0). assert (SZ : position_size A < 4096 /\ 1 < position_size A).
  { unfold word_alignments in I. destruct I as [<-|[<-|[<-|[<-|[]]]]]; split; reflexivity. }
  assert (IM : forall p m a, aligned A a -> (forall x, exists v, m x = Some v) -> exists m', store_pp A E p m a s = Ret m' /\ load_pp A E m' a = Ret s /\
     only_changes m m' a (position_size A) /\ at_bytes m' a (pp_image A E p s)).
  { intros p m a Ha Hm. unfold store_pp. rewrite check_aligned_ok by auto. cbn [bind].
    destruct (write_bytes_ok (pp_image A E p s) m a) as (m' & Q & B & O); [intros i _; apply Hm|]. exists m'. split; [exact Q|].
    split; [apply load_ok; auto; eapply image_fields; eauto|]. rewrite (image_length A E p s I) in O. auto. }
  destruct (IM (fun _ => 0) m0 0 Al) as (m1 & Q1 & L1 & [O1 N1] & B1); [intros; now exists 0|].
  destruct (IM (fun _ => 1) m1 4096 Al') as (m2 & Q2 & L2 & [O2 N2] & B2).
  { intros x. destruct (m1 x) eqn:Z; [eauto|]. apply N1 in Z. discriminate Z. }
  assert (S0 : forall i, i < position_size A -> m2 i = m1 i) by (intros i L; apply O2; unfold in_region; lia).
  assert (HB : holds_bytes m2).
  { intros x v Hx.
    assert (IB : forall p i, Forall (fun y => y < 256) (pp_image A E p s) -> nth i (pp_image A E p s) 0 < 256).
    { intros p i. apply nth_byte. }
    assert (FB : forall p, Forall (fun y => y < 256) (pp_image A E p s)).
    { intros p. unfold pp_image. apply Forall_forall. intros y J. apply in_map_iff in J. destruct J as (i & <- & _).
      destruct (find _ _) as [[o l]|] eqn:Z; [|apply N.mod_lt; discriminate]. apply find_some in Z. destruct Z as [J Z]. cbn [fst snd] in Z.
      apply in_combine_r in J. enough (F : Forall (fun y => y < 256) l) by now apply nth_byte.
      clear Z. 
      assert (IBY : forall w v, Forall (fun y => y < 256) (int_bytes E w v)).
      { intros w u. assert (LE : Forall (fun y => y < 256) (le_bytes w u)).
        { revert u. induction w; intros u; cbn [le_bytes]; constructor; auto. apply N.mod_lt. discriminate. }
        destruct E; cbn [int_bytes]; auto. now apply Forall_rev. }
      unfold pp_field_bytes in J. cbn [In] in J.
      destruct J as [<-|[<-|[<-|[<-|[<-|[<-|[<-|[<-|[]]]]]]]]]; auto.
      - constructor; auto. destruct (pp_side s); reflexivity.
      - apply Forall_flat_map. eapply Forall_impl; [|apply (wf_hands s W)]. intros h V. apply V.
      - apply Forall_forall. intros y J. apply in_map_iff in J. destruct J as (q & <- & J). pose proof (wf_board s W) as V. rewrite Forall_forall in V. specialize (V q J).
        unfold cell_ok, op_into, nonzero_new in V. destruct q as [n]. cbn [op_repr] in *. destruct (N.eqb_spec n 0) as [Z|Z]; [lia|]. unfold valid_o, valid_piece in V. cbn [piece_repr] in V. lia.
      - apply Forall_flat_map, Forall_forall. intros b _. apply Forall_app. split; auto.
      - apply Forall_flat_map, Forall_forall. intros b _. apply Forall_app. split; auto.
      - apply Forall_forall. intros y J. apply in_map_iff in J. destruct J as (q & <- & J). pose proof (wf_king s W) as V. rewrite Forall_forall in V. specialize (V q J).
        unfold king_ok, os_into, nonzero_new in V. destruct q as [n]. cbn [os_repr] in *. destruct (N.eqb_spec n 0) as [Z|Z]; [lia|]. unfold valid_o, valid_square in V. cbn [sq_repr] in V. lia. }
    pose proof (image_length A E (fun _ => 0) s I) as K0. pose proof (image_length A E (fun _ => 1) s I) as K1.
    destruct (N.ltb_spec x (position_size A)) as [Lx|Lx].
    - rewrite S0 in Hx by auto. specialize (B1 (N.to_nat x) ltac:(lia)). rewrite N2Nat.id, N.add_0_l, Hx in B1. apply some_inj in B1. rewrite B1. apply IB, FB.
    - destruct (N.ltb_spec x 4096) as [Ly|Ly]; [|destruct (N.ltb_spec x (4096 + position_size A)) as [Lz|Lz]].
      + rewrite O2, O1 in Hx by (unfold in_region; lia). injection Hx as <-. reflexivity.
      + specialize (B2 (N.to_nat (x - 4096)) ltac:(lia)). rewrite N2Nat.id in B2. replace (4096 + (x - 4096)) with x in B2 by lia. rewrite Hx in B2. apply some_inj in B2. rewrite B2. apply IB, FB.
      + rewrite O2, O1 in Hx by (unfold in_region; lia). injection Hx as <-. reflexivity. }
  exists m2, 0, 4096. 
  assert (Ac : forall a, accessible m2 a (position_size A)).
  { intros a i _. destruct (m2 (a + i)) eqn:Z; [eauto|]. apply N2, N1 in Z. discriminate Z. }
  destruct (c48_memcmp_pf P m2 0 4096 (position_size A) HB (Ac 0) (Ac 4096)) as (r & Q & Z & _). exists r. split; [exact HB|].
  split; [rewrite <- L1; apply load_ext; auto|]. split; [exact L2|]. split; [exact Q|].
  intros ->. assert (Y : m2 (0 + 1) = m2 (4096 + 1)) by (apply (proj1 Z); auto; lia).
  rewrite N.add_0_l, S0 in Y by lia.
  assert (F1 : forall p, nth 1 (pp_image A E p s) 0 = p 1 mod 256).
  { intros p. pose proof (image_nth A E p s 1 I ltac:(lia)) as T. cbn [N.to_nat] in T. change (N.to_nat 1) with 1%nat in T. rewrite T.
    replace (find _ (table A E s)) with (@None (N * list N)); [reflexivity|]. symmetry.
    pose proof (table_pairs A E s I W) as TP. destruct (find _ (table A E s)) as [[o l]|] eqn:FF; [|reflexivity]. exfalso.
    apply find_some in FF. destruct FF as [J FF]. cbn [fst snd] in FF.
    assert (J' : In (o, len l) (map snd (position_fields A))) by (rewrite <- TP; apply in_map_iff; exists (o, l); auto).
    unfold word_alignments in I. destruct I as [<-|[<-|[<-|[<-|[]]]]]; cbn in J'; repeat (destruct J' as [J'|J']; [injection J'; intros; lia|]); exact J'. }
  pose proof (image_length A E (fun _ => 0) s I) as K0. pose proof (image_length A E (fun _ => 1) s I) as K1.
  specialize (B1 1%nat ltac:(lia)). specialize (B2 1%nat ltac:(lia)). rewrite F1 in B1, B2. change (N.of_nat 1) with 1 in *. rewrite N.add_0_l in B1. rewrite B1, B2 in Y. discriminate Y.
Qed.

(** ** C programs *)
Lemma fields_frame A E m m' a s : In A word_alignments -> wf s -> fields_at A E m a s -> (forall i, i < position_size A -> m' (a + i) = m (a + i)) -> fields_at A E m' a s.
Proof.
  intros I W F H o l J i L. pose proof (table_inside A E s o l I W J). rewrite <- N.add_assoc, H by lia. rewrite N.add_assoc. now apply F.
Qed.
Lemma string_frame m m' p l n : string_at m p l -> len l + 1 <= n -> (forall i, i < n -> m' (p + i) = m (p + i)) -> string_at m' p l.
Proof.
  intros [H Z] L F. split; [|rewrite F by lia; exact Z]. intros i b Q. rewrite F; [now apply H|].
  assert (i < length l)%nat by (apply nth_error_Some; congruence). lia.
Qed.
Lemma do_writes_ok l : forall m a, accessible m a (len l) -> exists m', do_writes (addresses a l) m = Ret m' /\ at_bytes m' a l /\ only_changes m m' a (len l).
Proof.
  intros m a Ac. destruct (write_bytes_ok l m a Ac) as (m' & Q & R). exists m'. split; auto. clear R Ac. revert m a Q. unfold do_writes.
  induction l as [|b l IH]; intros m a Q; auto. cbn [write_bytes addresses for_each fst snd] in *. destruct (mem_write m a b); cbn [bind] in *; auto; discriminate.
Qed.
Lemma at_string m p l : Forall (fun b => b <> 0) l -> at_bytes m p (l ++ [0]) -> string_at m p l.
Proof.
  intros F B. apply at_bytes_app in B. destruct B as [B1 B2]. split.
  - intros i b Q. assert (L : (i < length l)%nat) by (apply nth_error_Some; congruence). rewrite (B1 i L). pose proof (nth_error_nth l i 0 Q) as Z. rewrite Z. split; auto.
    apply nth_error_In in Q. rewrite Forall_forall in F. auto.
  - apply at_bytes_cons in B2. apply B2.
Qed.
Lemma accessible_changes m m' a n b k : only_changes m m' a n -> accessible m b k -> accessible m' b k.
Proof. intros [_ O] H i L. destruct (m' (b + i)) eqn:Z; [eauto|]. apply O in Z. destruct (H i L). congruence. Qed.

Definition tracks (P : profile) (A : N) (E : endian) (env : c_env) (n k : nat) (m : mem) (st : client) : Prop :=
  (forall i x, (i < n)%nat -> cl_pos st i = Some x -> exists s, played P s /\ aeq (abs s) x /\ fields_at A E m (at_pos env i) s) /\
  (forall t l, (t < k)%nat -> cl_text st t = Some l -> string_at m (at_text env t) l /\ len l + 1 <= 139).
Definition outside (A : N) (env : c_env) (n k : nat) (m m' : mem) : Prop :=
  (forall x, (forall v, variable n k v -> ~ in_variable A env v x) -> m' x = m x) /\ forall x, m' x = None <-> m x = None.

Lemma placed_outside A env n k m m' : placed A env n k m -> outside A env n k m m' -> placed A env n k m'.
Proof.
  intros (H1 & H2 & H3) [_ O]. split; [auto|]. split; [|auto]. intros v V i L. destruct (m' (fst (region A env v) + i)) eqn:Z; [eauto|]. apply O in Z.
  destruct (H2 v V i L). congruence.
Qed.
Lemma changes_outside A env n k m m' v : variable n k v -> only_changes m m' (fst (region A env v)) (snd (region A env v)) -> outside A env n k m m'.
Proof. intros V [O1 O2]. split; auto. intros x H. apply O1, H. exact V. Qed.
Lemma frame A env n k m m' v w : placed A env n k m -> variable n k v -> variable n k w -> v <> w ->
  only_changes m m' (fst (region A env v)) (snd (region A env v)) ->
  forall i, i < snd (region A env w) -> m' (fst (region A env w) + i) = m (fst (region A env w) + i).
Proof.
  intros (_ & _ & H) V W D [O _] i L. apply O. intros Q. apply (H v w (fst (region A env w) + i) V W D Q). unfold in_variable, in_region. lia.
Qed.
(** writing position [i] *)
Lemma tracks_pos P A E env n k m m' st i x s : In A word_alignments -> placed A env n k m -> tracks P A E env n k m st -> (i < n)%nat ->
  only_changes m m' (at_pos env i) (position_size A) -> played P s -> aeq (abs s) x -> fields_at A E m' (at_pos env i) s ->
  tracks P A E env n k m' (set_pos st i x).
Proof.
  intros I Pl [T1 T2] Li O Ps Ax F. split.
  - intros j y Lj Q. cbn [set_pos cl_pos] in Q. destruct (Nat.eqb_spec j i) as [->|D].
    + injection Q as <-. eauto.
    + destruct (T1 j y Lj Q) as (s' & P' & A' & F'). exists s'. split; auto. split; auto. apply (fields_frame A E m); auto; [eapply played_wf; eauto|].
      apply (frame A env n k m m' (inl i) (inl j) Pl Li Lj); [congruence|exact O].
  - intros t l Lt Q. cbn [set_pos cl_text] in Q. destruct (T2 t l Lt Q) as [S L]. split; auto. apply (string_frame m m' _ l 139); auto.
    apply (frame A env n k m m' (inl i) (inr t) Pl Li Lt); [congruence|exact O].
Qed.
Lemma tracks_text P A E env n k m m' st t l : In A word_alignments -> placed A env n k m -> tracks P A E env n k m st -> (t < k)%nat ->
  only_changes m m' (at_text env t) 139 -> string_at m' (at_text env t) l -> len l + 1 <= 139 ->
  tracks P A E env n k m' (set_text st t l).
Proof.
  intros I Pl [T1 T2] Lt O S L. split.
  - intros j y Lj Q. cbn [set_text cl_pos] in Q. destruct (T1 j y Lj Q) as (s' & P' & A' & F'). exists s'. split; auto. split; auto. apply (fields_frame A E m); auto; [eapply played_wf; eauto|].
    apply (frame A env n k m m' (inr t) (inl j) Pl Lt Lj); [congruence|exact O].
  - intros u l' Lu Q. cbn [set_text cl_text] in Q. destruct (Nat.eqb_spec u t) as [->|D].
    + injection Q as <-. auto.
    + destruct (T2 u l' Lu Q) as [S' L']. split; auto. apply (string_frame m m' _ l' 139); auto.
      apply (frame A env n k m m' (inr t) (inr u) Pl Lt Lu); [congruence|exact O].
Qed.
Lemma played_try P s mv : played P s -> valid_move mv -> played P (fst (try_move s mv)).
Proof.
  intros (s0 & ms & bs & I & V & R) Vm. exists s0, (ms ++ [mv]), (bs ++ [snd (try_move s mv)]). split; auto. split; [apply Forall_app; auto|].
  assert (W0 : wf s0) by (rewrite startpos_ok in I; injection I as <-; apply startpos_wf).
  rewrite run_ops_ok in R by auto using moves_valid. injection R as R.
  rewrite run_ops_ok by (auto; apply moves_valid, Forall_app; auto). rewrite map_app, do_ops_app, R. cbn [map do_ops do_op]. now destruct (try_move s mv).
Qed.
Lemma opening_played P : played P the_startpos.
Proof. exists the_startpos, [], []. split; [apply startpos_ok|]. split; [constructor|reflexivity]. Qed.
Lemma store_ok A E pad m a s : In A word_alignments -> wf s -> aligned A a -> accessible m a (position_size A) ->
  exists m', store_pp A E pad m a s = Ret m' /\ fields_at A E m' a s /\ only_changes m m' a (position_size A).
Proof.
  intros I W Al Ac. unfold store_pp. rewrite check_aligned_ok by auto. cbn [bind]. rewrite <- (image_length A E pad s I) in Ac.
  destruct (write_bytes_ok _ _ _ Ac) as (m' & Q & B & O). exists m'. split; [exact Q|]. split; [eapply image_fields; eauto|]. now rewrite <- (image_length A E pad s I).
Qed.
Lemma bits_ok P s x q : played P s -> aeq (abs s) x -> match q with CPieces p => valid_piece p | _ => True end ->
  c_bitboard P q s = Ret (board_words (set_of q x)).
Proof.
  intros H Q V. pose proof (played_wf P s H) as W.
  destruct (c21_bitboards_pf P s x (played_reachable P s H) (proj2 (sees_iff P s x W) Q)) as (B1 & B2 & B3 & B4 & B5).
  assert (G : forall b f, bb_is P b f -> (forall sq, valid_square sq -> f sq = set_of q x sq) -> b = board_words (set_of q x)).
  { intros b f [Vb M] F. apply board_words_eq; auto. intros sq Vs. specialize (M sq Vs). rewrite bb_contains_ok in M by auto. injection M as M. rewrite M. auto. }
  destruct q as [| |c|p|kd]; cbn [c_bitboard].
  - destruct B4 as (b & -> & M). f_equal. apply (G b _ M). intros sq _. cbn [set_of]. unfold of_color. destruct (a_board x sq) as [[? []]|]; reflexivity.
  - destruct B5 as (b & -> & M). f_equal. apply (G b _ M). intros sq _. cbn [set_of]. unfold of_color. destruct (a_board x sq) as [[? []]|]; reflexivity.
  - destruct (B1 c) as (b & -> & M). f_equal. apply (G b _ M). reflexivity.
  - destruct (B3 p V) as (b & -> & M). f_equal. apply (G b _ M). intros sq _. cbn [set_of]. unfold of_color, of_kind. destruct (a_board x sq) as [[? ?]|]; [apply andb_comm|reflexivity].
  - destruct (B2 kd) as (b & -> & M). f_equal. apply (G b _ M). reflexivity.
Qed.
Lemma hand_result s x c : wf s -> aeq (abs s) x -> hand_at s c = Hand (map (a_hand x c) hand_kinds ++ [0]).
Proof.
  intros W (_ & _ & _ & D & _). destruct (hand_at_valid s c W) as (L & _ & Z).
  assert (Q : map (a_hand x c) hand_kinds = map (in_hand (hand_at s c)) hand_kinds) by (apply map_ext_in; intros k K; rewrite <- D by auto; reflexivity).
  rewrite Q. destruct (hand_at s c) as [l]. cbn [hand_bytes] in *. f_equal. do 8 (destruct l as [|? l]; [discriminate L|]). destruct l; [|discriminate L]. cbn in Z. subst. reflexivity.
Qed.

Lemma step_ok P A E env n k pad o m st st' r : In A word_alignments -> placed A env n k m -> tracks P A E env n k m st -> op_fine n k o ->
  client_step st o = Some (st', r) ->
  exists m', c_step P A E env pad o m = Ret (m', r) /\ tracks P A E env n k m' st' /\ outside A env n k m m'.
Proof.
  intros I Pl T V H.
  assert (LD : forall i x, (i < n)%nat -> cl_pos st i = Some x -> exists s, played P s /\ wf s /\ aeq (abs s) x /\ fields_at A E m (at_pos env i) s /\ load_pp A E m (at_pos env i) = Ret s).
  { intros i x L Q. destruct (proj1 T i x L Q) as (s & Ps & Ax & F). pose proof (played_wf P s Ps) as W. exists s. repeat (split; [assumption|]). apply load_ok; auto. now apply Pl. }
  assert (ACC : forall i, (i < n)%nat -> accessible m (at_pos env i) (position_size A)) by (intros i L; apply (proj1 (proj2 Pl) (inl i) L)).
  assert (SAME : outside A env n k m m) by (split; tauto).
  assert (ASK : forall (U : Type) i (f : partial_position -> res U) (g : apos -> U) (mk : U -> c_result), (i < n)%nat ->
    (forall s x, played P s -> wf s -> aeq (abs s) x -> f s = Ret (g x)) ->
    option_map (fun x => (st, mk (g x))) (cl_pos st i) = Some (st', r) ->
    exists m', (v <- pp_query A E f m (at_pos env i);; Ret (m, mk v)) = Ret (m', r) /\ tracks P A E env n k m' st' /\ outside A env n k m m').
  { intros U i f g mk L F Q. destruct (cl_pos st i) as [x|] eqn:Hx; [|discriminate Q]. injection Q as <- <-. destruct (LD i x L Hx) as (s & Ps & W & Ax & _ & Q).
    unfold pp_query. rewrite Q. cbn [bind]. rewrite (F s x) by auto. cbn [bind]. eauto. }
  destruct o as [i|i mv|i j|i sq|i|i|i c|i|i q|i t]; cbn [client_step c_step op_fine] in *.
  - injection H as <- <-. unfold PartialPosition_startpos. rewrite startpos_ok. cbn [bind].
    destruct (store_ok A E pad m (at_pos env i) the_startpos I startpos_wf (proj1 Pl i V) (ACC i V)) as (m' & -> & F & O). cbn [bind]. exists m'. split; [reflexivity|].
    split; [|apply (changes_outside A env n k m m' (inl i)); auto]. eapply tracks_pos; eauto; [apply opening_played|apply abs_startpos].
  - destruct V as [Li Vm]. destruct (cl_pos st i) as [x|] eqn:Hx; [|discriminate H]. destruct (LD i x Li Hx) as (s & Ps & W & Ax & _ & Q).
    pose proof (proj1 (valid_compact_unpack mv Vm)) as Vu.
    unfold PartialPosition_make_compact_move. rewrite Q. cbn [bind]. rewrite make_compact_move_ok by auto. cbn [bind].
    change (match do_move s (unpack mv) with Some s' => (s', true) | None => (s, false) end) with (try_move s (unpack mv)).
    pose proof (played_try P s _ Ps Vu) as Pt. pose proof (do_op_abs s (OpMove (unpack mv)) W Vu) as [Qa Qb]. cbn [do_op a_op] in Qa, Qb.
    destruct (a_try_aeq (abs s) x (unpack mv) Vu Ax) as [Ra Rb].
    destruct (try_move s (unpack mv)) as [s' b]. cbn [fst snd] in *. destruct (a_try x (unpack mv)) as [x' b']. cbn [fst snd] in *. injection H as <- <-.
    destruct (store_ok A E pad m (at_pos env i) s' I (played_wf P s' Pt) (proj1 Pl i Li) (ACC i Li)) as (m' & -> & F & O). cbn [bind]. exists m'. split; [congruence|].
    split; [|apply (changes_outside A env n k m m' (inl i)); auto]. eapply tracks_pos; eauto. eapply aeq_trans; eauto.
  - destruct V as [Li Lj]. destruct (cl_pos st j) as [x|] eqn:Hx; [|discriminate H]. injection H as <- <-. destruct (LD j x Lj Hx) as (s & Ps & W & Ax & F & Q).
    assert (D : at_pos env i = at_pos env j \/ apart (at_pos env i) (at_pos env j) (position_size A)).
    { destruct (Nat.eq_dec i j) as [->|D]; [now left|]. right. intros y Y1 Y2. apply (proj2 (proj2 Pl) (inl i) (inl j) y Li Lj); [congruence|exact Y1|exact Y2]. }
    assert (CP : exists m', c_assign A m (at_pos env i) (at_pos env j) = Ret m' /\ fields_at A E m' (at_pos env i) s /\ only_changes m m' (at_pos env i) (position_size A)).
    { unfold c_assign. destruct (lay_facts A I) as (_ & _ & -> & _). destruct D as [D|D].
      - rewrite D. destruct (memcpy_self m (at_pos env j) (position_size A) (ACC j Lj)) as (m' & Z & G). rewrite Z. cbn [bind]. exists m'. split; [reflexivity|].
        split; [apply (fields_frame A E m); auto|]. split; intros; rewrite G; tauto.
      - unfold memcpy. destruct (memcpy_loop m (at_pos env i) (at_pos env j) (position_size A) (ACC j Lj) (ACC i Li) D) as (m' & -> & [F1 F2] & F3). cbn [bind]. exists m'. split; [reflexivity|].
        split; [|split; auto]. intros o l J p Lp. pose proof (table_inside A E s o l I W J). rewrite <- N.add_assoc, F1 by lia. rewrite N.add_assoc. now apply F. }
    destruct CP as (m' & -> & F' & O). cbn [bind]. exists m'. split; [reflexivity|]. split; [|apply (changes_outside A env n k m m' (inl i)); auto]. eapply tracks_pos; eauto.
  - destruct V as [Li Vs]. eapply (ASK _ i _ (fun x => OptionPiece (piece_byte (a_board x sq))) CPiece); eauto. intros s x Ps W Ax.
    destruct (c21_other_observers_pf P s x (played_reachable P s Ps) (proj2 (sees_iff P s x W) Ax)) as (_ & G & _). rewrite G by auto. reflexivity.
  - eapply (ASK _ i _ (fun x => a_ply x) CNumber); eauto. intros s x Ps W Ax. f_equal. apply Ax.
  - eapply (ASK _ i _ (fun x => a_side x) CColor); eauto. intros s x Ps W Ax. f_equal. apply Ax.
  - eapply (ASK _ i _ (fun x => Hand (map (a_hand x c) hand_kinds ++ [0])) CHandOf); eauto. intros s x Ps W Ax. rewrite hand_of_a_player_ok by auto. f_equal. now apply hand_result.
  - eapply (ASK _ i _ (fun x => OptionCompactMove (move_number (a_last x))) CLast); eauto. intros s x Ps W Ax.
    destruct (c21_other_observers_pf P s x (played_reachable P s Ps) (proj2 (sees_iff P s x W) Ax)) as (_ & _ & _ & G). rewrite G. reflexivity.
  - destruct V as [Li Vq]. eapply (ASK _ i _ (fun x => board_words (set_of q x)) CSquares); eauto. intros s x Ps W Ax. apply bits_ok; auto.
  - destruct V as [Li Lt]. destruct (cl_pos st i) as [x|] eqn:Hx; [|discriminate H]. injection H as <- <-. destruct (LD i x Li Hx) as (s & Ps & W & Ax & F & Q).
    unfold PartialPosition_to_sfen_c. rewrite Q. cbn [bind]. rewrite sfen_c_ok by auto. cbn [bind].
    assert (L : len (sfen_text (abs s) ++ [0]) <= 139).
    { destruct (proj1 (c34_in_play_pf P s 0 Ps)) as (log & Z & L). rewrite sfen_c_ok in Z by auto. injection Z as <-. now rewrite addresses_len in L. }
    pose proof (proj1 (proj2 Pl) (inr t) Lt) as Ac. cbn [region fst snd] in Ac.
    destruct (do_writes_ok (sfen_text (abs s) ++ [0]) m (at_text env t)) as (m' & -> & B & O1 & O2); [intros y Ly; apply Ac; lia|]. cbn [bind]. exists m'. split; [reflexivity|].
    assert (O : only_changes m m' (at_text env t) 139) by (split; auto; intros y N; apply O1; unfold in_region in *; lia).
    split; [|apply (changes_outside A env n k m m' (inr t)); auto]. rewrite <- (sfen_text_ext _ _ Ax).
    rewrite len_app in L. change (len [0]) with 1 in L. eapply tracks_text; eauto. apply at_string; auto. apply sfen_no_nul.
Qed.
Lemma outside_trans A env n k m1 m2 m3 : outside A env n k m1 m2 -> outside A env n k m2 m3 -> outside A env n k m1 m3.
Proof. intros [A1 B1] [A2 B2]. split; [intros x H; rewrite A2 by auto; auto|]. intros x. rewrite B2. apply B1. Qed.
Lemma run_ok P A E env n k os : In A word_alignments -> Forall (op_fine n k) os -> forall pads c m st st' rs, placed A env n k m -> tracks P A E env n k m st ->
  client_run st os = Some (st', rs) ->
  exists m', c_run P A E env pads c os m = Ret (m', rs) /\ tracks P A E env n k m' st' /\ outside A env n k m m'.
Proof.
  intros I V. induction V as [|o os Vo V IH]; intros pads c m st st' rs Pl T H; cbn [client_run c_run] in *.
  - injection H as <- <-. exists m. split; [reflexivity|]. split; auto. split; tauto.
  - destruct (client_step st o) as [[st1 r]|] eqn:H1; [|discriminate H]. destruct (client_run st1 os) as [[st2 rs']|] eqn:H2; [|discriminate H]. injection H as <- <-.
    destruct (step_ok P A E env n k (pads c) o m st st1 r I Pl T Vo H1) as (m1 & -> & T1 & O1). cbn [bind].
    destruct (IH pads (S c) m1 st1 st2 rs' (placed_outside A env n k m m1 Pl O1) T1 H2) as (m2 & -> & T2 & O2). cbn [bind]. exists m2. split; [reflexivity|]. split; auto. eapply outside_trans; eauto.
Qed.
(** C59: a C program that initialises its positions before it uses them never has undefined behaviour, whatever the word alignment,
    the byte order and the values of padding bytes; each call returns what the abstract program returns, each variable holds what
    the abstract program holds, and no memory outside the variables changes. *)
Lemma c59_client_pf : forall P A E env n k pads os m st rs, In A word_alignments -> placed A env n k m -> Forall (op_fine n k) os ->
  client_run client_start os = Some (st, rs) ->
  exists m', c_run P A E env pads 0 os m = Ret (m', rs) /\
    (forall i x, (i < n)%nat -> cl_pos st i = Some x -> shows A E m' (at_pos env i) x) /\
    (forall t l, (t < k)%nat -> cl_text st t = Some l -> string_at m' (at_text env t) l) /\
    (forall x, (forall v, variable n k v -> ~ in_variable A env v x) -> m' x = m x) /\
    (forall x, m' x = None <-> m x = None).
Proof.
  intros P A E env n k pads os m st rs I Pl V H.
  destruct (run_ok P A E env n k os I V pads 0%nat m client_start st rs Pl) as (m' & Q & [T1 T2] & O1 & O2); auto.
  { split; intros; discriminate. }
  exists m'. split; auto. split; [|split; [|auto]].
  - intros i x L Hx. destruct (T1 i x L Hx) as (s & Ps & Ax & F). apply (shows_aeq A E m' _ (abs s)); auto. apply shows_abs; auto. eapply played_wf; eauto.
  - intros t l L Hl. now apply T2.
Qed.
