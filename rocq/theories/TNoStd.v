(*PROPHEAD
Property theorems C64: C programs linked with the no-std library
From Verif Require Import LSampleN.
*)
(** Proofs of the property theorems on C programs linked with the no-std library (restated in Prop_NoStd.v). *)
From Verif Require Import TPosition LExt LRuntime TRuntime TClient THeap TArena.
From Verif Require Export SpecArena LClient.

Lemma alloc_alone_ok P U rem l : 17 < U -> rem <= 128 * 1024 -> valid_layout U l -> alloc_alone P U rem l = Ret (serial_alloc rem l).
Proof.
  intros HU R V. unfold alloc_alone, serial_alloc, MAX_SUPPORTED_ALIGN. rewrite align_mask_ok by auto. cbn [bind].
  destruct (4096 <? l_align l); cbn [orb]; [reflexivity|].
  assert (Rp : rem < 2 ^ U). { assert (2 ^ 18 <= 2 ^ U) by (apply N.pow_le_mono_r; lia). change (2 ^ 18) with (2 * (128 * 1024)) in H. lia. }
  rewrite closure_ok by auto. cbn [bind]. destruct (rem <? l_size l); reflexivity.
Qed.

(** memory outside objects and variables does not matter *)
Lemma hinv_foreign P A E B env n k m1 w st (D : N -> bool) m' : In A word_alignments -> box_ok A B -> hinv P A E B env n k m1 w st ->
  (forall y, D y = true -> ~ in_object B w y /\ forall v, variable n k v -> ~ in_variable A env v y) ->
  (forall y, D y = false -> m' y = w_mem w y) ->
  hinv P A E B env n k (fun y => if D y then m' y else m1 y) (with_mem w m') st.
Proof.
  intros I Bk H HD HM.
  assert (NV : forall v y, variable n k v -> in_variable A env v y -> D y = false).
  { intros v y V J. destruct (D y) eqn:Z; auto. destruct (HD y Z) as [_ X]. elim (X v V J). }
  assert (NO : forall id a ms y, w_live w id = Some (a, ms) -> in_region a (bx_size B) y -> D y = false).
  { intros id a ms y L Y. destruct (D y) eqn:Z; auto. destruct (HD y Z) as [X _]. elim X. exists id, a, ms. auto. }
  assert (PL : forall m m', (forall v y, variable n k v -> in_variable A env v y -> m' y = m y) -> placed A env n k m -> placed A env n k m').
  { intros m m'' F (P1 & P2 & P3). split; auto. split; auto. intros v V i Li. rewrite (F v); [now apply P2|exact V|unfold in_variable, in_region; lia]. }
  constructor; cbn [with_mem w_mem w_live w_next w_handle]; try apply H.
  - apply (PL (w_mem w)); [|apply H]. intros v y V J. apply HM. eauto.
  - apply (tracks_frame P A E env n k (w_mem w)); auto; [apply H|]. intros v y V J. apply HM. eauto.
  - intros id. pose proof (hi_obj _ _ _ _ _ _ _ _ _ _ H id) as Q. destruct (w_live w id) as [[a ms]|] eqn:L; [|exact Q].
    destruct (hc_object st id) as [[[x0 x] ms']|]; [|exact Q]. destruct Q as [Q1 Q2]. split; auto. apply (obj_frame P A E B (w_mem w)); auto.
    intros y Y. apply HM. eauto.
  - intros id a ms y L Y. rewrite (NO id a ms y L Y). eapply (hi_fresh _ _ _ _ _ _ _ _ _ _ H); eauto.
  - intros y N V. destruct (D y) eqn:Z; auto. rewrite HM by auto. apply (hi_mem _ _ _ _ _ _ _ _ _ _ H); auto.
  - apply (PL m1); [|apply H]. intros v y V J. now rewrite (NV v y V J).
Qed.

Definition inb (a n y : N) : bool := (a <=? y) && (y <? a + n).
Lemma inb_iff a n y : inb a n y = true <-> in_region a n y.
Proof. unfold inb, in_region. rewrite andb_true_iff, N.leb_le, N.ltb_lt. reflexivity. Qed.
Lemma inb_not a n y : inb a n y = false <-> ~ in_region a n y.
Proof. rewrite <- inb_iff. destruct (inb a n y); split; congruence. Qed.
Lemma map_block_inb m a n junk y : map_block m a n junk y = if inb a n y then Some (junk y mod 256) else m y.
Proof. reflexivity. Qed.
Lemma unmap_block_inb m a n y : unmap_block m a n y = if inb a n y then None else m y.
Proof. reflexivity. Qed.

(** ** Vectors *)
Definition vec_ok (b : n_build) (m : mem) (v : N * N) (ms : list move) : Prop :=
  accessible m (fst v) (nb_elem b * snd v) /\ snd v = capacity (nb_grow b) (length ms) /\ moves_at b m (fst v) ms.
Lemma capacity_ge grow n : (forall c, c < grow c) -> N.of_nat n <= capacity grow n.
Proof.
  intros G. induction n as [|n IH]; cbn [capacity]; [lia|]. destruct (N.eqb_spec (capacity grow n) (N.of_nat n)) as [Z|Z]; [|lia].
  specialize (G (N.of_nat n)). lia.
Qed.
Lemma vec_frame b m m' v ms : (forall c, c < nb_grow b c) -> (forall mv, N.of_nat (length (nb_code b mv)) = nb_elem b) -> vec_ok b m v ms ->
  (forall y, in_region (fst v) (nb_elem b * snd v) y -> m' y = m y) -> vec_ok b m' v ms.
Proof.
  intros G C (V1 & V2 & V3) F. split; [|split; auto].
  - intros i L. rewrite F by (unfold in_region; lia). now apply V1.
  - intros i mv j x E1 E2. rewrite F; [eapply V3; eauto|]. pose proof (capacity_ge (nb_grow b) (length ms) G) as L. rewrite <- V2 in L.
    assert (L1 : (i < length ms)%nat) by (apply nth_error_Some; congruence). assert (L2 : (j < length (nb_code b mv))%nat) by (apply nth_error_Some; congruence).
    specialize (C mv). unfold in_region. assert (nb_elem b * (N.of_nat i + 1) <= nb_elem b * snd v) by (apply N.mul_le_mono_l; lia). lia.
Qed.

(** ** The invariant *)
Record ninv (P : profile) (A : N) (E : endian) (b : n_build) (env : c_env) (n k : nat) (m0 : mem) (nw : n_world) (st : hclient) : Prop := {
  ni_frame : exists m1, hinv P A E (nb_box b) env n k m1 (nw_world nw) st /\ forall y, ~ in_vector b nw y -> m1 y = m0 y;
  ni_rem : nw_rem nw <= 128 * 1024;
  ni_box : forall id a ms, w_live (nw_world nw) id = Some (a, ms) -> nb_base b + nw_rem nw <= a /\ a + bx_size (nb_box b) <= nb_base b + 128 * 1024;
  ni_where : forall id y, w_live (nw_world nw) id <> None -> in_region (fst (nw_vec nw id)) (nb_elem b * snd (nw_vec nw id)) y ->
             nb_base b + nw_rem nw <= y < nb_base b + 128 * 1024;
  ni_vec : forall id a ms, w_live (nw_world nw) id = Some (a, ms) -> vec_ok b (w_mem (nw_world nw)) (nw_vec nw id) ms;
  ni_apart : forall id id' y, id <> id' -> w_live (nw_world nw) id <> None -> w_live (nw_world nw) id' <> None ->
             in_region (fst (nw_vec nw id)) (nb_elem b * snd (nw_vec nw id)) y ->
             in_region (fst (nw_vec nw id')) (nb_elem b * snd (nw_vec nw id')) y -> False;
  ni_object : forall y, in_object (nb_box b) (nw_world nw) y -> in_vector b nw y -> False;
  ni_low : forall y, in_region (nb_base b) (nw_rem nw) y -> m0 y = None;
  ni_free : forall y, in_vector b nw y -> m0 y = None
}.
Definition setting (U A : N) (b : n_build) (env : c_env) (n k : nat) : Prop :=
  In A word_alignments /\ 18 < U /\ build_ok U A b /\ nb_base b mod nb_align b = 0 /\
  forall v y, variable n k v -> in_variable A env v y -> in_region (nb_base b) (128 * 1024) y -> False.

Lemma setting_intro U A b env n k m : In A word_alignments -> 18 < U -> build_ok U A b -> nb_base b mod nb_align b = 0 -> arena_free b m -> placed A env n k m ->
  setting U A b env n k.
Proof.
  intros I HU Bd Ba Af Pl. repeat (split; [assumption|]). intros v y V J R. destruct Pl as (_ & P2 & _). destruct (P2 v V (y - fst (region A env v))) as [z Z]; [unfold in_variable, in_region in J; lia|].
  unfold in_variable, in_region in J. replace (fst (region A env v) + (y - fst (region A env v))) with y in Z by lia. rewrite Af in Z by auto. discriminate Z.
Qed.
Lemma var_arena U A b env n k v y : setting U A b env n k -> variable n k v -> in_variable A env v y -> in_region (nb_base b) (128 * 1024) y -> False.
Proof. intros (_ & _ & _ & _ & X). apply X. Qed.
Lemma low_free P U A E b env n k m0 nw st y : setting U A b env n k -> ninv P A E b env n k m0 nw st -> in_region (nb_base b) (nw_rem nw) y ->
  w_mem (nw_world nw) y = None /\ ~ in_object (nb_box b) (nw_world nw) y /\ ~ in_vector b nw y.
Proof.
  intros S H Y. destruct (ni_frame _ _ _ _ _ _ _ _ _ _ H) as (m1 & H1 & F). pose proof (ni_rem _ _ _ _ _ _ _ _ _ _ H) as R.
  assert (NO : ~ in_object (nb_box b) (nw_world nw) y).
  { intros (id & a & ms & L & Z). destruct (ni_box _ _ _ _ _ _ _ _ _ _ H id a ms L). unfold in_region in *. lia. }
  assert (NV : ~ in_vector b nw y).
  { intros (id & L & Z). pose proof (ni_where _ _ _ _ _ _ _ _ _ _ H id y L Z). unfold in_region in *. lia. }
  split; [|auto]. rewrite (hi_mem _ _ _ _ _ _ _ _ _ _ H1 y NO).
  - rewrite F by auto. exact (ni_low _ _ _ _ _ _ _ _ _ _ H y Y).
  - intros v V J. apply (var_arena U A b env n k v y S V J). unfold in_region in *. lia.
Qed.
(** vectors are neither variables nor objects *)
Lemma vec_clear P U A E b env n k m0 nw st id y : setting U A b env n k -> ninv P A E b env n k m0 nw st -> w_live (nw_world nw) id <> None ->
  in_region (fst (nw_vec nw id)) (nb_elem b * snd (nw_vec nw id)) y ->
  in_region (nb_base b) (128 * 1024) y /\ ~ in_object (nb_box b) (nw_world nw) y /\ (forall v, variable n k v -> ~ in_variable A env v y).
Proof.
  intros S H L Y. pose proof (ni_where _ _ _ _ _ _ _ _ _ _ H id y L Y) as W. assert (R : in_region (nb_base b) (128 * 1024) y) by (unfold in_region; lia).
  split; auto. split; [|intros v V J; exact (var_arena U A b env n k v y S V J R)]. intros O. apply (ni_object _ _ _ _ _ _ _ _ _ _ H y O). exists id. auto.
Qed.

(** objects have only gone away *)
Lemma ninv_sub P U A E b env n k m0 nw st st' m1 m1' w' : setting U A b env n k -> ninv P A E b env n k m0 nw st ->
  hinv P A E (nb_box b) env n k m1 (nw_world nw) st -> hinv P A E (nb_box b) env n k m1' w' st' ->
  (forall id x, w_live w' id = Some x -> w_live (nw_world nw) id = Some x) ->
  (forall id y, w_live w' id <> None -> in_region (fst (nw_vec nw id)) (nb_elem b * snd (nw_vec nw id)) y -> m1' y = m1 y) ->
  (forall y, ~ in_vector b (NWorld w' (nw_rem nw) (nw_vec nw)) y -> m1' y = m0 y) ->
  ninv P A E b env n k m0 (NWorld w' (nw_rem nw) (nw_vec nw)) st'.
Proof.
  intros S H H1 H2 Sub Sm Fr.
  assert (Sub' : forall id, w_live w' id <> None -> w_live (nw_world nw) id <> None).
  { intros id L. destruct (w_live w' id) as [x|] eqn:Z; [|congruence]. rewrite (Sub id x Z). discriminate. }
  assert (SO : forall y, in_object (nb_box b) w' y -> in_object (nb_box b) (nw_world nw) y).
  { intros y (id & a & ms & L & Y). exists id, a, ms. auto. }
  constructor; cbn [nw_world nw_rem nw_vec].
  - exists m1'. auto.
  - apply H.
  - intros id a ms L. apply (ni_box _ _ _ _ _ _ _ _ _ _ H id a ms). auto.
  - intros id y L. apply (ni_where _ _ _ _ _ _ _ _ _ _ H id y). auto.
  - intros id a ms L. destruct S as (S1 & S2 & S3 & S4) eqn:SS. pose proof S3 as (_ & _ & _ & _ & C & _ & G). clear SS.
    apply (vec_frame b (w_mem (nw_world nw))); auto; [apply (ni_vec _ _ _ _ _ _ _ _ _ _ H id a ms); auto|]. intros y Y.
    assert (L' : w_live w' id <> None) by congruence.
    destruct (vec_clear P U A E b env n k m0 nw st id y (conj S1 (conj S2 (conj S3 S4))) H (Sub' id L') Y) as (_ & C1 & C2).
    rewrite (hi_mem _ _ _ _ _ _ _ _ _ _ H2 y), (hi_mem _ _ _ _ _ _ _ _ _ _ H1 y); auto. eapply Sm; eauto.
  - intros id id' y D L L'. apply (ni_apart _ _ _ _ _ _ _ _ _ _ H id id' y D); auto.
  - intros y O (id & L & Y). apply (ni_object _ _ _ _ _ _ _ _ _ _ H y); auto. exists id. auto.
  - apply H.
  - intros y (id & L & Y). apply (ni_free _ _ _ _ _ _ _ _ _ _ H y). exists id. auto.
Qed.

(** ** What the steps do to the live objects *)
Lemma live_other P A E B env alloc pad o w w' r : match o with HNew _ | HFree _ | HMove _ _ => False | _ => True end ->
  h_step P A E B env alloc pad o w = Ret (w', r) -> w_live w' = w_live w.
Proof.
  destruct o as [c|h|h|h g|h mv|h q|h t|i h|i h]; intros T; try contradiction; cbn [h_step]; intros Q.
  - destruct (c_step _ _ _ _ _ _ _) as [[m x]| |]; try discriminate Q. cbn [bind] in Q. injection Q as <- <-. reflexivity.
  - destruct (w_handle w g); try discriminate Q. injection Q as <- <-. reflexivity.
  - destruct (pos_query _ _ _ _ _ _); try discriminate Q. cbn [bind] in Q. injection Q as <- <-. reflexivity.
  - unfold Position_to_sfen_c in Q. destruct (pos_query _ _ _ _ _ _) as [log| |]; try discriminate Q. cbn [bind] in Q. destruct (do_writes _ _); try discriminate Q.
    cbn [bind] in Q. injection Q as <- <-. reflexivity.
  - destruct (Position_inner _ _ _); try discriminate Q. cbn [bind] in Q. destruct (c_assign _ _ _ _); try discriminate Q. cbn [bind] in Q. injection Q as <- <-. reflexivity.
  - destruct (Position_initial_position _ _ _); try discriminate Q. cbn [bind] in Q. destruct (c_assign _ _ _ _); try discriminate Q. cbn [bind] in Q. injection Q as <- <-. reflexivity.
Qed.
Lemma live_new P A E B env a pad h w w' r : h_step P A E B env (fun _ => Some a) pad (HNew h) w = Ret (w', r) ->
  forall j, w_live w' j = if j =? w_next w then Some (a, []) else w_live w j.
Proof.
  cbn [h_step]. unfold Position_startpos, pos_startpos. rewrite startpos_ok. cbn [bind arbitrary_position pos_initial pos_inner pos_moves]. intros Q.
  destruct (store_pp A E pad (map_block _ _ _ _) _ _) as [m| |]; try discriminate Q. cbn [bind] in Q. destruct (store_pp A E pad m _ _) as [m2| |]; try discriminate Q. cbn [bind] in Q.
  injection Q as <- <-. reflexivity.
Qed.
Lemma no_block P A E B env pad h w : h_step P A E B env (fun _ => None) pad (HNew h) w = Panic.
Proof. cbn [h_step]. unfold Position_startpos, pos_startpos. rewrite startpos_ok. reflexivity. Qed.
Lemma live_free P A E B env alloc pad h w w' r id a ms : deref w (w_handle w h) = Ret (id, (a, ms)) -> h_step P A E B env alloc pad (HFree h) w = Ret (w', r) ->
  forall j, w_live w' j = if j =? id then None else w_live w j.
Proof. cbn [h_step]. unfold Position_destruct. intros -> Q. cbn [bind] in Q. injection Q as <- <-. reflexivity. Qed.
Lemma live_move P A E B env alloc pad h mv w w' r id a ms : deref w (w_handle w h) = Ret (id, (a, ms)) -> h_step P A E B env alloc pad (HMove h mv) w = Ret (w', r) ->
  exists ms', forall j, w_live w' j = if j =? id then Some (a, ms') else w_live w j.
Proof.
  cbn [h_step]. unfold Position_make_compact_move. intros -> Q. cbn [bind] in Q. destruct (load_pp A E (w_mem w) (a + bx_initial B)) as [s0| |]; try discriminate Q. cbn [bind] in Q.
  destruct (load_pp A E (w_mem w) (a + bx_inner B)) as [s| |]; try discriminate Q. cbn [bind] in Q. destruct (pos_make_compact_move _ _ _) as [[p ok]| |]; try discriminate Q. cbn [bind] in Q.
  destruct (store_pp _ _ _ _ _ _) as [m| |]; try discriminate Q. cbn [bind] in Q. injection Q as <- <-. exists (pos_moves p). reflexivity.
Qed.

(** ** [Vec::push] *)
Lemma capacity_S grow n : capacity grow (S n) = if capacity grow n =? N.of_nat n then grow (N.of_nat n) else capacity grow n.
Proof. reflexivity. Qed.
Lemma moves_push b m ptr ms x cap : (forall mv, N.of_nat (length (nb_code b mv)) = nb_elem b) -> N.of_nat (length ms) < cap ->
  accessible m ptr (nb_elem b * cap) -> moves_at b m ptr ms ->
  exists m', write_bytes m (ptr + nb_elem b * N.of_nat (length ms)) (nb_code b x) = Ret m' /\ moves_at b m' ptr (ms ++ [x]) /\
    only_changes m m' ptr (nb_elem b * cap).
Proof.
  intros C L Ac M. assert (L2 : nb_elem b * (N.of_nat (length ms) + 1) <= nb_elem b * cap) by (apply N.mul_le_mono_l; lia).
  destruct (write_bytes_ok (nb_code b x) m (ptr + nb_elem b * N.of_nat (length ms))) as (m' & -> & At & O1 & O2).
  { intros i Li. rewrite C in Li. rewrite <- N.add_assoc. apply Ac. lia. }
  exists m'. split; [reflexivity|]. rewrite C in O1. split.
  - intros i mv j v E1 E2. pose proof (C mv) as Cm. assert (Lj : (j < length (nb_code b mv))%nat) by (apply nth_error_Some; congruence).
    assert (Li : (i < length (ms ++ [x]))%nat) by (apply nth_error_Some; congruence). rewrite app_length in Li. cbn [length] in Li.
    destruct (Nat.eq_dec i (length ms)) as [->|Ne].
    + rewrite nth_error_app2, Nat.sub_diag in E1 by lia. cbn in E1. injection E1 as <-. rewrite At by lia. f_equal. now apply nth_error_nth.
    + rewrite nth_error_app1 in E1 by lia. rewrite O1; [eapply M; eauto|]. unfold in_region.
      assert (nb_elem b * (N.of_nat i + 1) <= nb_elem b * N.of_nat (length ms)) by (apply N.mul_le_mono_l; lia). lia.
  - split; auto. intros y N. apply O1. unfold in_region in *. lia.
Qed.
Lemma push_ok P U b junk m rem v ms x : 18 < U -> (forall c, c < nb_grow b c) -> (forall mv, N.of_nat (length (nb_code b mv)) = nb_elem b) -> 0 < nb_elem b ->
  rem <= 128 * 1024 -> vec_ok b m v ms -> (forall y, in_region (fst v) (nb_elem b * snd v) y -> nb_base b + rem <= y) ->
  let '(rem', os) := serial_run rem (push_request b (length ms)) in
  (In None os -> vec_push P U b junk m rem v (N.of_nat (length ms)) x = Panic) /\
  (~ In None os -> exists m' v', vec_push P U b junk m rem v (N.of_nat (length ms)) x = Ret (m', rem', v') /\ vec_ok b m' v' (ms ++ [x]) /\ rem' <= rem /\
     (forall y, ~ in_region (fst v) (nb_elem b * snd v) y -> ~ in_region (fst v') (nb_elem b * snd v') y -> m' y = m y) /\
     (forall y, in_region (fst v) (nb_elem b * snd v) y -> ~ in_region (fst v') (nb_elem b * snd v') y -> m' y = None) /\
     (forall y, in_region (fst v') (nb_elem b * snd v') y -> in_region (fst v) (nb_elem b * snd v) y \/ nb_base b + rem' <= y < nb_base b + rem)).
Proof.
  intros HU G C El R (V1 & V2 & V3) W. destruct v as [ptr cap]. cbn [fst snd] in *. unfold vec_push, push_request. cbn [fst snd]. rewrite V2. rewrite (N.eqb_sym (N.of_nat _)).
  assert (CS : capacity (nb_grow b) (length (ms ++ [x])) = if capacity (nb_grow b) (length ms) =? N.of_nat (length ms) then nb_grow b (N.of_nat (length ms)) else capacity (nb_grow b) (length ms)).
  { rewrite app_length. cbn [length]. rewrite Nat.add_1_r. apply capacity_S. }
  destruct (N.eqb_spec (capacity (nb_grow b) (length ms)) (N.of_nat (length ms))) as [Z|Z].
  - rewrite Z in *. unfold vec_grown. set (cap' := nb_grow b (N.of_nat (length ms))) in *. subst cap. pose proof (G (N.of_nat (length ms))) as G'. fold cap' in G'.
    assert (P17 : 128 * 1024 < 2 ^ (U - 1)). { change (128 * 1024) with (2 ^ 17). apply N.pow_lt_mono_r; lia. }
    cbn [serial_run]. destruct (N.leb_spec (2 ^ (U - 1)) (nb_elem b * cap')) as [Big|Sm].
    + unfold serial_alloc. cbn [l_size l_align]. replace (rem <? nb_elem b * cap') with true by lia. rewrite orb_true_r. split; [reflexivity|]. intros N. elim N. now left.
    + assert (VL : valid_layout U (Layout (nb_elem b * cap') 1)).
      { split; cbn [l_size l_align]; [exists 0; split; [lia|reflexivity]|]. assert (2 ^ (U - 1) <= 2 ^ U) by (apply N.pow_le_mono_r; lia). lia. }
      rewrite alloc_alone_ok by (auto; lia). pose proof (serial_alloc_le rem (Layout (nb_elem b * cap') 1)) as Le. unfold serial_alloc in *. cbn [l_size l_align] in *.
      destruct (N.ltb_spec rem (nb_elem b * cap')) as [Lt|Ge].
      * rewrite orb_true_r in *. cbn [bind]. split; [reflexivity|]. intros N. elim N. now left.
      * change (4096 <? 1) with false in *. cbn [orb bind fst] in *. rewrite N.div_1_r, N.mul_1_r in *. split; [intros [Q|[]]; discriminate Q|]. intros _.
        set (o := rem - nb_elem b * cap') in *. unfold alloc_pointer. set (n := N.of_nat (length ms)) in *. set (m1 := map_block m (nb_base b + o) (nb_elem b * cap') junk).
        assert (Lc : nb_elem b * n <= nb_elem b * cap') by (apply N.mul_le_mono_l; lia).
        assert (Dj : forall y, in_region ptr (nb_elem b * n) y -> in_region (nb_base b + o) (nb_elem b * cap') y -> False).
        { intros y Y1 Y2. specialize (W y Y1). unfold in_region in Y2. lia. }
        assert (M1o : forall y, ~ in_region (nb_base b + o) (nb_elem b * cap') y -> m1 y = m y).
        { intros y N. unfold m1. rewrite map_block_inb. apply inb_not in N. now rewrite N. }
        assert (M1i : accessible m1 (nb_base b + o) (nb_elem b * cap')).
        { intros i L. unfold m1. rewrite map_block_inb. assert (Y : inb (nb_base b + o) (nb_elem b * cap') (nb_base b + o + i) = true) by (apply inb_iff; unfold in_region; lia). rewrite Y. eauto. }
        unfold memcpy. destruct (memcpy_loop m1 (nb_base b + o) ptr (nb_elem b * n)) as (m2 & -> & [F1 F2] & F3).
        { intros i L. rewrite M1o; [now apply V1|]. intros Y. apply (Dj (ptr + i)); auto. unfold in_region. lia. }
        { intros i L. apply M1i. lia. }
        { intros y Y1 Y2. apply (Dj y Y2). unfold in_region in *. lia. }
        cbn [bind]. set (m3 := unmap_block m2 ptr (nb_elem b * n)).
        assert (M3 : forall y, ~ in_region ptr (nb_elem b * n) y -> m3 y = m2 y).
        { intros y N. unfold m3. rewrite unmap_block_inb. apply inb_not in N. now rewrite N. }
        assert (Ac3 : accessible m3 (nb_base b + o) (nb_elem b * cap')).
        { intros i L. rewrite M3; [|intros Y; apply (Dj _ Y); unfold in_region; lia]. destruct (m2 (nb_base b + o + i)) eqn:Q; [eauto|]. apply F3 in Q. destruct (M1i i L). congruence. }
        assert (Mv3 : moves_at b m3 (nb_base b + o) ms).
        { intros i mv j x' E1 E2. pose proof (C mv) as Cm. assert (Lj : (j < length (nb_code b mv))%nat) by (apply nth_error_Some; congruence).
          assert (Li : (i < length ms)%nat) by (apply nth_error_Some; congruence).
          assert (Lx : nb_elem b * (N.of_nat i + 1) <= nb_elem b * n) by (apply N.mul_le_mono_l; lia).
          rewrite M3; [|intros Y; apply (Dj _ Y); unfold in_region; lia]. replace (nb_base b + o + nb_elem b * N.of_nat i + N.of_nat j) with (nb_base b + o + (nb_elem b * N.of_nat i + N.of_nat j)) by lia. rewrite F1 by lia. rewrite M1o.
          - rewrite N.add_assoc. eapply V3; eauto.
          - intros Y. apply (Dj (ptr + (nb_elem b * N.of_nat i + N.of_nat j))); auto. unfold in_region. lia. }
        destruct (moves_push b m3 (nb_base b + o) ms x cap' C G' Ac3 Mv3) as (m4 & W4 & Mv4 & O4). fold n in W4. cbn [fst snd]. rewrite W4. cbn [bind]. exists m4, (nb_base b + o, cap'). cbn [fst snd].
        split; [reflexivity|]. split; [split; [eapply accessible_changes; eauto|split; [symmetry; exact CS|exact Mv4]]|]. split; [exact Le|]. split; [|split].
        { intros y N1 N2. rewrite (proj1 O4) by auto. rewrite M3 by auto. rewrite F2, M1o; auto. intros Y. apply N2. unfold in_region in *. lia. }
        { intros y Y N. rewrite (proj1 O4) by auto. unfold m3. rewrite unmap_block_inb. apply inb_iff in Y. now rewrite Y. }
        { intros y Y. right. unfold in_region in Y. lia. }
  - subst cap. cbn [serial_run bind fst snd]. split; [intros []|]. intros _. pose proof (capacity_ge (nb_grow b) (length ms) G) as L.
    set (cap := capacity (nb_grow b) (length ms)) in *.
    destruct (moves_push b m ptr ms x cap C ltac:(lia) V1 V3) as (m' & -> & Mv & O). cbn [bind]. exists m', (ptr, cap). cbn [fst snd]. split; [reflexivity|].
    split; [split; [eapply accessible_changes; eauto|split; [cbn [snd]; now rewrite CS|exact Mv]]|]. split; [lia|]. split; [|split].
    + intros y N _. now apply O.
    + intros y Y N. contradiction.
    + auto.
Qed.

(** ** One step *)
(** the answer [r] of the step, given what is asked of the allocator *)
Definition n_agrees (P : profile) (A : N) (E : endian) (b : n_build) (env : c_env) (n k : nat) (m0 : mem) (rem : N) (ls : list layout)
    (a : outcome (hclient * c_result)) (r : res (n_world * c_result)) : Prop :=
  match a with
  | Fine (st', v) =>
      let (rem', os) := serial_run rem ls in
      (In None os -> r = Panic) /\
      (~ In None os -> exists nw', r = Ret (nw', v) /\ nw_rem nw' = rem' /\ ninv P A E b env n k m0 nw' st')
  | Misused => r = UB
  | Unset => True
  end.
Lemma no_alloc A B (w : world) : forall a, (fun _ : mem => @None N) (w_mem w) = Some a -> aligned A a /\ forall x, in_region a (bx_size B) x -> w_mem w x = None.
Proof. discriminate. Qed.
Lemma quiet_ok P U A E b env n k m0 pad o nw st : match o with HNew _ | HFree _ | HMove _ _ => False | _ => True end ->
  setting U A b env n k -> ninv P A E b env n k m0 nw st -> hop_fine n k o ->
  n_agrees P A E b env n k m0 (nw_rem nw) [] (hclient_step st o)
    ('(w', r) <- h_step P A E (nb_box b) env (fun _ => None) pad o (nw_world nw);; Ret (NWorld w' (nw_rem nw) (nw_vec nw), r)).
Proof.
  intros T S H V. destruct (ni_frame _ _ _ _ _ _ _ _ _ _ H) as (m1 & H1 & F). pose proof S as (I & HU & Bd & _). pose proof Bd as (Bk & _).
  pose proof (hstep_ok P A E (nb_box b) env n k m1 (fun _ => None) pad o (nw_world nw) st I Bk (no_alloc A (nb_box b) (nw_world nw)) H1 V) as Q.
  unfold agrees in Q. unfold n_agrees. destruct (hclient_step st o) as [[st' v]| |]; [|rewrite Q; reflexivity|exact Logic.I].
  destruct Q as [(w' & Q & H2)|[_ [_ [h ->]]]]; [|contradiction]. pose proof (live_other _ _ _ _ _ _ _ _ _ _ _ T Q) as L. rewrite Q. cbn [bind serial_run].
  split; [intros []|]. intros _. eexists. split; [reflexivity|]. split; [reflexivity|].
  apply (ninv_sub P U A E b env n k m0 nw st st' m1 m1 w'); auto.
  - intros id x. now rewrite L.
  - intros y N. apply F. intros (id & Li & Y). apply N. exists id. cbn [nw_world nw_vec]. rewrite L. auto.
Qed.
Lemma new_ok P U A E b env n k m0 pad h nw st : setting U A b env n k -> ninv P A E b env n k m0 nw st ->
  n_agrees P A E b env n k m0 (nw_rem nw) (op_requests b st (HNew h)) (hclient_step st (HNew h)) (n_step P U A E b env pad (HNew h) nw).
Proof.
  intros S H. destruct (ni_frame _ _ _ _ _ _ _ _ _ _ H) as (m1 & H1 & F). pose proof S as (I & HU & Bd & Ba & _). pose proof Bd as (Bk & (j & J & Aj) & (q & Dv) & Sz & C & El & G).
  pose proof (ni_rem _ _ _ _ _ _ _ _ _ _ H) as R. set (w := nw_world nw) in *.
  cbn [op_requests n_step]. fold w. rewrite alloc_alone_ok; [|lia|exact R|split; cbn [l_align l_size]; eauto]. cbn [bind]. cbn [hclient_step n_agrees serial_run].
  set (l := Layout (bx_size (nb_box b)) (nb_align b)). unfold serial_alloc. destruct ((4096 <? l_align l) || (nw_rem nw <? l_size l)) eqn:Q.
  - rewrite no_block. cbn [bind]. split; [reflexivity|]. intros X. elim X. now left.
  - split; [intros [X|[]]; discriminate X|]. intros _. apply orb_false_iff in Q as [_ Q]. apply N.ltb_ge in Q.
    set (o := (nw_rem nw - l_size l) / l_align l * l_align l). assert (Lo : o + l_size l <= nw_rem nw) by (pose proof (round_down_le (nw_rem nw - l_size l) (l_align l)); unfold o; lia).
    cbn [l l_size] in Lo. unfold alloc_pointer.
    assert (A0 : nb_align b <> 0) by (rewrite Aj; apply N.pow_nonzero; lia).
    assert (FB : forall a, (fun _ : mem => Some (nb_base b + o)) (w_mem w) = Some a -> aligned A a /\ forall x, in_region a (bx_size (nb_box b)) x -> w_mem w x = None).
    { intros a [= <-]. split.
      - apply N.mod_divide in Ba as [c Ba]; [|exact A0]. exists ((c + (nw_rem nw - l_size l) / l_align l) * q). unfold o. cbn [l l_align] in *. rewrite Ba, Dv. lia.
      - intros x X. apply (low_free P U A E b env n k m0 nw st x S H). unfold in_region in *. lia. }
    pose proof (hstep_ok P A E (nb_box b) env n k m1 (fun _ => Some (nb_base b + o)) pad (HNew h) w st I Bk FB H1 Logic.I) as X. cbn [hclient_step agrees] in X.
    destruct X as [(w' & X & H2)|[_ [Z _]]]; [|discriminate Z]. pose proof (live_new _ _ _ _ _ _ _ _ _ _ _ X) as L. rewrite X. cbn [bind].
    eexists. split; [reflexivity|]. split; [reflexivity|].
    assert (LN : w_live w (w_next w) = None) by (apply (hi_ids _ _ _ _ _ _ _ _ _ _ H1); rewrite (hi_next _ _ _ _ _ _ _ _ _ _ H1); lia).
    assert (SV : forall id, w_live w id <> None -> set_vec (nw_vec nw) (w_next w) (0, 0) id = nw_vec nw id).
    { intros id Li. unfold set_vec. destruct (N.eqb_spec id (w_next w)) as [->|]; [congruence|reflexivity]. }
    assert (SN : set_vec (nw_vec nw) (w_next w) (0, 0) (w_next w) = (0, 0)) by (unfold set_vec; now rewrite N.eqb_refl).
    assert (LV : forall id y, w_live w' id <> None -> in_region (fst (set_vec (nw_vec nw) (w_next w) (0, 0) id)) (nb_elem b * snd (set_vec (nw_vec nw) (w_next w) (0, 0) id)) y ->
      w_live w id <> None /\ in_region (fst (nw_vec nw id)) (nb_elem b * snd (nw_vec nw id)) y).
    { intros id y Li Y. rewrite L in Li. destruct (N.eqb_spec id (w_next w)) as [->|Ne].
      - rewrite SN in Y. unfold in_region in Y. cbn [fst snd] in Y. lia.
      - rewrite SV in Y by auto. auto. }
    assert (VO : forall id y, w_live w id <> None -> in_region (fst (nw_vec nw id)) (nb_elem b * snd (nw_vec nw id)) y -> ~ in_object (nb_box b) w' y).
    { intros id y Li Y (id2 & a & ms & L2 & Y2). rewrite L in L2. destruct (N.eqb_spec id2 (w_next w)) as [->|Ne].
      - injection L2 as <- <-. pose proof (ni_where _ _ _ _ _ _ _ _ _ _ H id y Li Y). unfold in_region in Y2. lia.
      - apply (ni_object _ _ _ _ _ _ _ _ _ _ H y); [exists id2, a, ms; auto|exists id; auto]. }
    constructor; cbn [nw_world nw_rem nw_vec].
    + exists m1. split; [exact H2|]. intros y N. apply F. intros (id & Li & Y). fold w in Li. apply N. exists id. cbn [nw_world nw_vec]. rewrite SV by auto. split; auto.
      rewrite L. destruct (N.eqb_spec id (w_next w)); [discriminate|auto].
    + lia.
    + intros id a ms Li. rewrite L in Li. destruct (N.eqb_spec id (w_next w)) as [->|Ne]; [injection Li as <- <-; lia|]. pose proof (ni_box _ _ _ _ _ _ _ _ _ _ H id a ms Li). lia.
    + intros id y Li Y. apply LV in Y as [Li' Y]; auto. pose proof (ni_where _ _ _ _ _ _ _ _ _ _ H id y Li' Y). lia.
    + intros id a ms Li. rewrite L in Li. destruct (N.eqb_spec id (w_next w)) as [->|Ne].
      * injection Li as <- <-. rewrite SN. split; [|split]; cbn [fst snd]; [intros i Lt; lia|reflexivity|intros i mv x v Z; destruct i; discriminate Z].
      * assert (Li' : w_live w id <> None) by congruence. rewrite SV by auto. apply (vec_frame b (w_mem w)); auto; [exact (ni_vec _ _ _ _ _ _ _ _ _ _ H id a ms Li)|].
        intros y Y. destruct (vec_clear P U A E b env n k m0 nw st id y S H Li' Y) as (_ & C1 & C2).
        rewrite (hi_mem _ _ _ _ _ _ _ _ _ _ H2 y), (hi_mem _ _ _ _ _ _ _ _ _ _ H1 y); eauto.
    + intros id id' y D Li Li' Y Y'. apply LV in Y as [Li2 Y]; auto. apply LV in Y' as [Li2' Y']; auto. exact (ni_apart _ _ _ _ _ _ _ _ _ _ H id id' y D Li2 Li2' Y Y').
    + intros y O (id & Li & Y). cbn [nw_world nw_vec] in *. apply LV in Y as [Li' Y]; auto. exact (VO id y Li' Y O).
    + intros y Y. apply (ni_low _ _ _ _ _ _ _ _ _ _ H y). unfold in_region in *. lia.
    + intros y (id & Li & Y). cbn [nw_world nw_vec] in *. apply LV in Y as [Li' Y]; auto. apply (ni_free _ _ _ _ _ _ _ _ _ _ H y). exists id. auto.
Qed.
Lemma free_ok P U A E b env n k m0 pad h nw st : setting U A b env n k -> ninv P A E b env n k m0 nw st ->
  n_agrees P A E b env n k m0 (nw_rem nw) [] (hclient_step st (HFree h)) (n_step P U A E b env pad (HFree h) nw).
Proof.
  intros S H. destruct (ni_frame _ _ _ _ _ _ _ _ _ _ H) as (m1 & H1 & F). pose proof S as (I & HU & Bd & Ba & _). pose proof Bd as (Bk & _).
  cbn [n_step]. set (w := nw_world nw) in *. pose proof (deref_ok P A E (nb_box b) env n k m1 w st h H1) as Q.
  cbn [hclient_step]. unfold on_object. destruct (object_of st h) as [[id [[x0 x] ms]]|] eqn:Ob; [|rewrite Q; reflexivity].
  destruct Q as (a & Q & L & _ & _). rewrite Q. cbn [bind]. set (v := nw_vec nw id). set (m' := unmap_block (w_mem w) (fst v) (nb_elem b * snd v)).
  assert (Li : w_live w id <> None) by congruence.
  set (D := inb (fst v) (nb_elem b * snd v)).
  assert (HD : forall y, D y = true -> in_region (nb_base b) (128 * 1024) y /\ ~ in_object (nb_box b) w y /\ forall v, variable n k v -> ~ in_variable A env v y).
  { intros y Y. apply inb_iff in Y. exact (vec_clear P U A E b env n k m0 nw st id y S H Li Y). }
  pose proof (hinv_foreign P A E (nb_box b) env n k m1 w st D m' I Bk H1 (fun y Y => proj2 (HD y Y))) as H2.
  specialize (H2 ltac:(intros y Y; unfold m'; rewrite unmap_block_inb; unfold D in Y; now rewrite Y)).
  set (m1' := fun y => if D y then m' y else m1 y) in *. 
  pose proof (hstep_ok P A E (nb_box b) env n k m1' (fun _ => None) pad (HFree h) (with_mem w m') st I Bk (no_alloc A (nb_box b) (with_mem w m')) H2 Logic.I) as X.
  cbn [hclient_step] in X. unfold on_object in X. rewrite Ob in X. cbn [agrees] in X. destruct X as [(w' & X & H3)|[_ [_ [h' Z]]]]; [|discriminate Z].
  pose proof (live_free P A E (nb_box b) env (fun _ => None) pad h (with_mem w m') w' CNothing id a ms Q X) as Lw. cbn [with_mem w_live] in Lw.
  rewrite X. cbn [bind n_agrees serial_run]. split; [intros []|]. intros _. eexists. split; [reflexivity|]. split; [reflexivity|].
  apply (ninv_sub P U A E b env n k m0 nw st _ m1 m1' w'); auto.
  - intros j y. rewrite Lw. destruct (j =? id); [discriminate|auto].
  - intros j y Lj Y. rewrite Lw in Lj. destruct (N.eqb_spec j id) as [->|Ne]; [congruence|]. unfold m1'. destruct (D y) eqn:Z; auto. apply inb_iff in Z.
    elim (ni_apart _ _ _ _ _ _ _ _ _ _ H j id y Ne Lj Li Y Z).
  - intros y N. unfold m1'. destruct (D y) eqn:Z.
    + unfold m'. rewrite unmap_block_inb. unfold D in Z. rewrite Z. symmetry. apply (ni_free _ _ _ _ _ _ _ _ _ _ H y). exists id. split; auto. now apply inb_iff.
    + apply F. intros (j & Lj & Y). apply N. exists j. cbn [nw_world nw_vec]. rewrite Lw. destruct (N.eqb_spec j id) as [->|Ne]; [|auto]. apply inb_not in Z. contradiction.
Qed.
Lemma move_ok P U A E b env n k m0 pad h mv nw st : setting U A b env n k -> ninv P A E b env n k m0 nw st -> valid_compact mv ->
  n_agrees P A E b env n k m0 (nw_rem nw) (op_requests b st (HMove h mv)) (hclient_step st (HMove h mv)) (n_step P U A E b env pad (HMove h mv) nw).
Proof.
  intros S H V. destruct (ni_frame _ _ _ _ _ _ _ _ _ _ H) as (m1 & H1 & F). pose proof S as (I & HU & Bd & Ba & _). pose proof Bd as (Bk & _ & _ & _ & C & El & G).
  cbn [n_step op_requests]. set (w := nw_world nw) in *. pose proof (deref_ok P A E (nb_box b) env n k m1 w st h H1) as Q.
  pose proof (hstep_ok P A E (nb_box b) env n k m1 (fun _ => None) pad (HMove h mv) w st I Bk (no_alloc A (nb_box b) w) H1 V) as X.
  cbn [hclient_step] in X |- *. unfold on_object in X |- *. destruct (object_of st h) as [[id [[x0 x] ms]]|] eqn:Ob; [|rewrite Q; reflexivity].
  destruct Q as (a & Q & L & _ & Ho). rewrite Q. cbn [bind]. destruct (a_try x (unpack mv)) as [x' ok] eqn:Tr. cbn [agrees] in X. cbn [snd].
  destruct X as [(w' & X & H2)|[_ [_ [h' Z]]]]; [|discriminate Z]. destruct (live_move P A E (nb_box b) env (fun _ => None) pad h mv w w' (CBool ok) id a ms Q X) as (ms' & Lw).
  rewrite X. cbn [bind]. assert (Li : w_live w id <> None) by congruence.
  assert (Ms : ms' = if ok then ms ++ [unpack mv] else ms).
  { pose proof (hi_obj _ _ _ _ _ _ _ _ _ _ H2 id) as O. rewrite Lw, N.eqb_refl in O. cbn [put_object hc_object] in O. rewrite N.eqb_refl in O. apply O. }
  assert (SO : forall y, in_object (nb_box b) w' y -> in_object (nb_box b) w y).
  { intros y (j & c & mj & Lj & Y). rewrite Lw in Lj. destruct (N.eqb_spec j id) as [->|Ne]; [injection Lj as <- <-; exists id, a, ms; auto|exists j, c, mj; auto]. }
  assert (Lv : forall j, w_live w' j <> None <-> w_live w j <> None).
  { intros j. rewrite Lw. destruct (N.eqb_spec j id) as [->|Ne]; [|tauto]. split; [auto|discriminate]. }
  set (v := nw_vec nw id) in *.
  assert (Eqv : forall j y, w_live w j <> None -> in_region (fst (nw_vec nw j)) (nb_elem b * snd (nw_vec nw j)) y -> w_mem w' y = w_mem w y).
  { intros j y Lj Y. destruct (vec_clear P U A E b env n k m0 nw st j y S H Lj Y) as (_ & C1 & C2). rewrite (hi_mem _ _ _ _ _ _ _ _ _ _ H2 y), (hi_mem _ _ _ _ _ _ _ _ _ _ H1 y); auto. }
  destruct ok; subst ms'.
  - rewrite move_of_cm_unpack by auto. cbn [bind n_agrees].
    assert (V0 : vec_ok b (w_mem w') v ms).
    { apply (vec_frame b (w_mem w)); auto; [exact (ni_vec _ _ _ _ _ _ _ _ _ _ H id a ms L)|]. intros y Y. exact (Eqv id y Li Y). }
    pose proof (push_ok P U b pad (w_mem w') (nw_rem nw) v ms (unpack mv) HU G C El (ni_rem _ _ _ _ _ _ _ _ _ _ H) V0) as K.
    specialize (K ltac:(intros y Y; pose proof (ni_where _ _ _ _ _ _ _ _ _ _ H id y Li Y); lia)).
    destruct (serial_run (nw_rem nw) (push_request b (length ms))) as [rem' os]. destruct K as [K1 K2]. split; [intros N; rewrite K1 by auto; reflexivity|].
    intros N. destruct (K2 N) as (m' & v' & -> & V' & Rm & M1 & M2 & M3). clear K1 K2. cbn [bind]. eexists. split; [reflexivity|]. split; [reflexivity|].
    pose proof (ni_rem _ _ _ _ _ _ _ _ _ _ H) as R0.
    set (D := fun y => inb (fst v) (nb_elem b * snd v) y || inb (fst v') (nb_elem b * snd v') y).
    assert (HV : forall y, in_region (fst v) (nb_elem b * snd v) y -> in_region (nb_base b) (128 * 1024) y /\ ~ in_object (nb_box b) w' y /\ forall v, variable n k v -> ~ in_variable A env v y).
    { intros y Y. destruct (vec_clear P U A E b env n k m0 nw st id y S H Li Y) as (C0 & C1 & C2). split; auto. }
    assert (HV' : forall y, in_region (fst v') (nb_elem b * snd v') y -> in_region (nb_base b) (128 * 1024) y /\ ~ in_object (nb_box b) w' y /\ forall v, variable n k v -> ~ in_variable A env v y).
    { intros y Y. destruct (M3 y Y) as [Y'|Y']; [now apply HV|]. assert (Ar : in_region (nb_base b) (128 * 1024) y) by (unfold in_region; lia). split; auto. split.
      - intros O. apply SO in O. apply (low_free P U A E b env n k m0 nw st y S H) in O; [exact O|unfold in_region; lia].
      - intros u Vu J. exact (var_arena U A b env n k u y S Vu J Ar). }
    assert (HD : forall y, D y = true -> ~ in_object (nb_box b) w' y /\ forall v, variable n k v -> ~ in_variable A env v y).
    { intros y Y. apply orb_true_iff in Y as [Y|Y]; apply inb_iff in Y; [apply (HV y Y)|apply (HV' y Y)]. }
    pose proof (hinv_foreign P A E (nb_box b) env n k m1 w' _ D m' I Bk H2 HD) as H3.
    specialize (H3 ltac:(intros y Y; apply orb_false_iff in Y as [Y1 Y2]; apply inb_not in Y1; apply inb_not in Y2; auto)).
    assert (Vo : forall j, j <> id -> set_vec (nw_vec nw) id v' j = nw_vec nw j) by (intros j Ne; unfold set_vec; destruct (N.eqb_spec j id); [congruence|reflexivity]).
    assert (Vi : set_vec (nw_vec nw) id v' id = v') by (unfold set_vec; now rewrite N.eqb_refl).
    assert (Ap : forall j y, j <> id -> w_live w j <> None -> in_region (fst (nw_vec nw j)) (nb_elem b * snd (nw_vec nw j)) y ->
      ~ in_region (fst v) (nb_elem b * snd v) y /\ ~ in_region (fst v') (nb_elem b * snd v') y).
    { intros j y Ne Lj Y. assert (N1 : ~ in_region (fst v) (nb_elem b * snd v) y) by (intros Y'; exact (ni_apart _ _ _ _ _ _ _ _ _ _ H j id y Ne Lj Li Y Y')). split; auto.
      intros Y'. destruct (M3 y Y') as [Z|Z]; [auto|]. pose proof (ni_where _ _ _ _ _ _ _ _ _ _ H j y Lj Y). lia. }
    constructor; cbn [nw_world nw_rem nw_vec with_mem w_mem w_live].
    + eexists. split; [exact H3|]. cbn beta. intros y Nv. destruct (D y) eqn:Z.
      * assert (N1 : ~ in_region (fst v') (nb_elem b * snd v') y).
        { intros Y. apply Nv. exists id. cbn [nw_world nw_vec with_mem w_live]. rewrite Vi. split; auto. now apply Lv. }
        apply orb_true_iff in Z as [Z|Z]; apply inb_iff in Z; [|contradiction]. rewrite M2 by auto. symmetry. apply (ni_free _ _ _ _ _ _ _ _ _ _ H y). exists id. auto.
      * apply F. intros (j & Lj & Y). apply Nv. exists j. cbn [nw_world nw_vec with_mem w_live]. split; [now apply Lv|].
        destruct (N.eq_dec j id) as [->|Ne]; [|now rewrite Vo by auto]. apply orb_false_iff in Z as [Z _]. apply inb_not in Z. contradiction.
    + lia.
    + intros j c mj Lj. rewrite Lw in Lj. assert (exists mm, w_live w j = Some (c, mm)) as [mm Lm] by (destruct (N.eqb_spec j id) as [->|]; [injection Lj as <- <-|]; eauto).
      pose proof (ni_box _ _ _ _ _ _ _ _ _ _ H j c mm Lm). lia.
    + intros j y Lj Y. apply Lv in Lj. destruct (N.eq_dec j id) as [->|Ne].
      * rewrite Vi in Y. destruct (M3 y Y) as [Z|Z]; [pose proof (ni_where _ _ _ _ _ _ _ _ _ _ H id y Lj Z)|]; lia.
      * rewrite Vo in Y by auto. pose proof (ni_where _ _ _ _ _ _ _ _ _ _ H j y Lj Y). lia.
    + intros j c mj Lj. rewrite Lw in Lj. destruct (N.eqb_spec j id) as [->|Ne].
      * injection Lj as <- <-. rewrite Vi. exact V'.
      * rewrite Vo by auto. assert (Lj' : w_live w j <> None) by congruence. apply (vec_frame b (w_mem w)); auto; [exact (ni_vec _ _ _ _ _ _ _ _ _ _ H j c mj Lj)|].
        intros y Y. destruct (Ap j y Ne Lj' Y). rewrite M1 by auto. exact (Eqv j y Lj' Y).
    + intros j j' y D1 Lj Lj' Y Y'. apply Lv in Lj. apply Lv in Lj'. destruct (N.eq_dec j id) as [->|Ne], (N.eq_dec j' id) as [->|Ne']; try congruence.
      * rewrite Vi in Y. rewrite Vo in Y' by auto. now apply (Ap j' y Ne' Lj' Y').
      * rewrite Vi in Y'. rewrite Vo in Y by auto. now apply (Ap j y Ne Lj Y).
      * rewrite Vo in Y, Y' by auto. exact (ni_apart _ _ _ _ _ _ _ _ _ _ H j j' y D1 Lj Lj' Y Y').
    + intros y O (j & Lj & Y). cbn [nw_world nw_vec with_mem w_live] in *. apply Lv in Lj. assert (O' : in_object (nb_box b) w' y) by exact O. destruct (N.eq_dec j id) as [->|Ne].
      * rewrite Vi in Y. now apply (HV' y Y).
      * rewrite Vo in Y by auto. apply (ni_object _ _ _ _ _ _ _ _ _ _ H y); [exact (SO y O')|exists j; auto].
    + intros y Y. apply (ni_low _ _ _ _ _ _ _ _ _ _ H y). unfold in_region in *. lia.
    + intros y (j & Lj & Y). cbn [nw_world nw_vec with_mem w_live] in *. apply Lv in Lj. destruct (N.eq_dec j id) as [->|Ne].
      * rewrite Vi in Y. destruct (M3 y Y) as [Z|Z]; [apply (ni_free _ _ _ _ _ _ _ _ _ _ H y); exists id; auto|]. apply (ni_low _ _ _ _ _ _ _ _ _ _ H y). unfold in_region. lia.
      * rewrite Vo in Y by auto. apply (ni_free _ _ _ _ _ _ _ _ _ _ H y). exists j. auto.
  - cbn [n_agrees serial_run]. split; [intros []|]. intros _. eexists. split; [reflexivity|]. split; [reflexivity|].
    apply (ninv_sub P U A E b env n k m0 nw st _ m1 m1 w'); auto.
    + intros j y. rewrite Lw. destruct (N.eqb_spec j id) as [->|]; [intros <-; exact L|auto].
    + intros y N. apply F. intros (j & Lj & Y). apply N. exists j. cbn [nw_world nw_vec]. split; [now apply Lv|auto].
Qed.
Lemma nstep_ok P U A E b env n k m0 pad o nw st : setting U A b env n k -> ninv P A E b env n k m0 nw st -> hop_fine n k o ->
  n_agrees P A E b env n k m0 (nw_rem nw) (op_requests b st o) (hclient_step st o) (n_step P U A E b env pad o nw).
Proof.
  intros S H V. destruct o; try (apply (quiet_ok P U); auto; exact Logic.I).
  - now apply new_ok.
  - now apply free_ok.
  - now apply move_ok.
Qed.
Lemma ninv_start P A E b env n k m : arena_free b m -> placed A env n k m -> ninv P A E b env n k m (n_start m) hclient_start.
Proof.
  intros Af Pl. constructor; cbn [n_start nw_world nw_rem nw_vec world_start w_live]; try discriminate; try congruence.
  - exists m. split; [now apply hinv_start|auto].
  - intros y (id & a & ms & L & _). discriminate L.
  - exact Af.
  - intros y (id & L & _). elim L. reflexivity.
Qed.
Lemma nrun_ok P U A E b env n k m0 pads os : setting U A b env n k -> Forall (hop_fine n k) os -> forall c nw st, ninv P A E b env n k m0 nw st ->
  let (rem', os') := serial_run (nw_rem nw) (requests b st os) in
  match hclient_run st os with
  | Fine (st', rs) =>
      (In None os' -> n_run P U A E b env pads c os nw = Panic) /\
      (~ In None os' -> exists nw', n_run P U A E b env pads c os nw = Ret (nw', rs) /\ nw_rem nw' = rem' /\ ninv P A E b env n k m0 nw' st')
  | Misused => (In None os' -> n_run P U A E b env pads c os nw = Panic) /\ (~ In None os' -> n_run P U A E b env pads c os nw = UB)
  | Unset => True
  end.
Proof.
  intros S V. induction V as [|o os Vo V IH]; intros c nw st H; cbn [hclient_run n_run requests].
  - cbn [serial_run]. split; [intros []|]. eauto.
  - pose proof (nstep_ok P U A E b env n k m0 (pads c) o nw st S H Vo) as Q. unfold n_agrees in Q. rewrite serial_run_split.
    destruct (hclient_step st o) as [[st1 r]| |] eqn:St.
    + destruct (serial_run (nw_rem nw) (op_requests b st o)) as [r1 o1]. destruct Q as [Q1 Q2].
      assert (D : In None o1 \/ ~ In None o1).
      { clear. induction o1 as [|[x|] o1 [IH|IH]]; cbn; [tauto|left; auto|right; intros [Z|Z]; [discriminate|auto]|left; auto|left; auto]. }
      destruct D as [D|D].
      * rewrite Q1 by auto. cbn [bind]. destruct (serial_run r1 (requests b st1 os)) as [r2 o2]. destruct (hclient_run st1 os) as [[st2 rs]| |]; [| |exact Logic.I].
        -- split; [reflexivity|]. intros N. elim N. apply in_or_app. auto.
        -- split; [reflexivity|]. intros N. elim N. apply in_or_app. auto.
      * destruct (Q2 D) as (nw1 & -> & <- & H1). cbn [bind]. specialize (IH (Datatypes.S c) nw1 st1 H1). destruct (serial_run (nw_rem nw1) (requests b st1 os)) as [r2 o2].
        destruct (hclient_run st1 os) as [[st2 rs]| |]; [| |exact Logic.I].
        -- destruct IH as [I1 I2]. split.
           ++ intros N. apply in_app_or in N as [N|N]; [contradiction|]. rewrite I1 by auto. reflexivity.
           ++ intros N. destruct I2 as (nw' & -> & X); [intros N'; apply N; apply in_or_app; auto|]. cbn [bind]. eauto.
        -- destruct IH as [I1 I2]. split.
           ++ intros N. apply in_app_or in N as [N|N]; [contradiction|]. rewrite I1 by auto. reflexivity.
           ++ intros N. rewrite I2; [reflexivity|]. intros N'. apply N, in_or_app. auto.
    + rewrite Q. cbn [bind]. cbn [serial_run]. assert (Op : op_requests b st o = []).
      { destruct o; cbn [hclient_step op_requests] in *; auto; [discriminate St|]. unfold on_object in St. destruct (object_of st h) as [[id [[x0 x] ms]]|]; [|reflexivity].
        destruct (a_try x (unpack mv)). discriminate St. }
      rewrite Op. cbn [serial_run app]. split; [intros []|reflexivity].
    + destruct (serial_run (nw_rem nw) (op_requests b st o)) as [r1 o1]. cbn [serial_run]. exact Logic.I.
Qed.

(** ** The theorems *)
(** C64: a C program linked with the no-std library that uses its pointers between [Position_startpos] and [Position_destruct] has no undefined
    behaviour. It returns exactly if the bundled allocator, asked for a block for every position and for every growth of a list of
    moves, has them all; then results, variables, positions and lists of moves in memory are those of the program over abstract
    positions, and no other memory has changed. *)
Lemma c64_programs_pf : forall P U A E b env n k pads os m st rs, In A word_alignments -> 18 < U -> build_ok U A b -> nb_base b mod nb_align b = 0 ->
  arena_free b m -> placed A env n k m -> Forall (hop_fine n k) os -> hclient_run hclient_start os = Fine (st, rs) ->
  match n_run P U A E b env pads 0 os (n_start m) with
  | Ret (nw, rs') =>
      let w := nw_world nw in
      all_served (requests b hclient_start os) /\ rs' = rs /\ nw_rem nw = fst (serial_run (128 * 1024) (requests b hclient_start os)) /\
      (forall i x, (i < n)%nat -> cl_pos (hc_local st) i = Some x -> shows A E (w_mem w) (at_pos env i) x) /\
      (forall t l, (t < k)%nat -> cl_text (hc_local st) t = Some l -> string_at (w_mem w) (at_text env t) l) /\
      (forall id x0 x ms, hc_object st id = Some (x0, x, ms) ->
         exists a, w_live w id = Some (a, ms) /\ object_at A E (nb_box b) (w_mem w) a x0 x /\ moves_at b (w_mem w) (fst (nw_vec nw id)) ms) /\
      (forall id, hc_object st id = None -> w_live w id = None) /\
      (forall y, ~ in_object (nb_box b) w y -> ~ in_vector b nw y -> (forall v, variable n k v -> ~ in_variable A env v y) -> w_mem w y = m y)
  | Panic => ~ all_served (requests b hclient_start os)
  | UB => False
  end.
Proof.
  intros P U A E b env n k pads os m st rs I HU Bd Ba Af Pl V Q. pose proof (setting_intro U A b env n k m I HU Bd Ba Af Pl) as S.
  pose proof (nrun_ok P U A E b env n k m pads os S V 0%nat _ _ (ninv_start P A E b env n k m Af Pl)) as G. rewrite Q in G. cbn [n_start nw_rem] in G. change ARENA_SIZE with (128 * 1024) in G.
  unfold all_served. destruct (serial_run (128 * 1024) (requests b hclient_start os)) as [rem' os']. cbn [fst snd]. destruct G as [G1 G2].
  assert (D : In None os' \/ ~ In None os').
  { clear. induction os' as [|[x|] os' [IH|IH]]; cbn; [tauto|left; auto|right; intros [Z|Z]; [discriminate|auto]|left; auto|left; auto]. }
  destruct D as [D|D]; [change (NWorld (world_start m) (128 * 1024) (fun _ => (0, 0))) with (n_start m) in *; rewrite G1 by auto; tauto|].
  destruct (G2 D) as (nw & X & R & H). rewrite X. cbv zeta. split; [exact D|]. split; [reflexivity|]. split; [exact R|].
  destruct (ni_frame _ _ _ _ _ _ _ _ _ _ H) as (m1 & H1 & F). destruct (hinv_shows P A E (nb_box b) env n k m1 _ st I (proj1 Bd) H1) as (S1 & S2 & S3 & S4 & S5).
  split; [exact S1|]. split; [exact S2|]. split; [|split; [exact S4|]].
  - intros id x0 x ms Ho. destruct (S3 id x0 x ms Ho) as (a & L & O). exists a. split; auto. split; auto. apply (ni_vec _ _ _ _ _ _ _ _ _ _ H id a ms L).
  - intros y N1 N2 N3. rewrite S5 by auto. auto.
Qed.
(** C64: using a pointer after [Position_destruct], a second [Position_destruct] or a pointer never set is undefined behaviour, unless the
    memory has run out before. *)
Lemma c64_misuse_pf : forall P U A E b env n k pads os m, In A word_alignments -> 18 < U -> build_ok U A b -> nb_base b mod nb_align b = 0 ->
  arena_free b m -> placed A env n k m -> Forall (hop_fine n k) os -> hclient_run hclient_start os = Misused ->
  (all_served (requests b hclient_start os) -> n_run P U A E b env pads 0 os (n_start m) = UB) /\
  (~ all_served (requests b hclient_start os) -> n_run P U A E b env pads 0 os (n_start m) = Panic).
Proof.
  intros P U A E b env n k pads os m I HU Bd Ba Af Pl V Q. pose proof (setting_intro U A b env n k m I HU Bd Ba Af Pl) as S.
  pose proof (nrun_ok P U A E b env n k m pads os S V 0%nat _ _ (ninv_start P A E b env n k m Af Pl)) as G. rewrite Q in G. cbn [n_start nw_rem] in G. change ARENA_SIZE with (128 * 1024) in G.
  unfold all_served. destruct (serial_run (128 * 1024) (requests b hclient_start os)) as [rem' os']. cbn [snd]. destruct G as [G1 G2].
  split; auto. intros D. apply G1. clear - D. induction os' as [|[x|] os' IH]; cbn in *; [tauto| |tauto]. right. apply IH. intros N. apply D. intros [Z|Z]; [discriminate Z|auto].
Qed.
(** C64: nothing aligns [ARENA_BSS] (C47): where the linker puts it at an address that is not aligned for [PartialPosition], the first
    [Position_startpos] of any program is undefined behaviour. *)
Lemma c64_misaligned_pf : forall P U A E b env pads h os m, In A word_alignments -> 18 < U -> build_ok U A b -> nb_align b <= 4096 ->
  bx_size (nb_box b) <= 128 * 1024 -> nb_base b mod position_align A <> 0 ->
  n_run P U A E b env pads 0 (HNew h :: os) (n_start m) = UB.
Proof.
  intros P U A E b env pads h os m I HU Bd Al Sz Mis. pose proof Bd as (Bk & (j & J & Aj) & (q & Dv) & Sz' & _). destruct Bk as ((i & Bi) & _).
  cbn [n_run n_step n_start nw_rem nw_world]. rewrite alloc_alone_ok; [|lia|reflexivity|split; cbn [l_align l_size]; eauto]. cbn [bind]. unfold serial_alloc. cbn [l_align l_size].
  replace (4096 <? nb_align b) with false by lia. change ARENA_SIZE with (128 * 1024). replace (128 * 1024 <? bx_size (nb_box b)) with false by lia. cbn [orb].
  set (o := (128 * 1024 - bx_size (nb_box b)) / nb_align b * nb_align b). cbn [h_step]. unfold Position_startpos, pos_startpos. rewrite startpos_ok. cbn [bind arbitrary_position pos_initial pos_inner pos_moves].
  assert (X : forall junk m' p, store_pp A E junk m' (alloc_pointer (nb_base b) o + bx_initial (nb_box b)) p = UB); [|rewrite X; reflexivity].
  intros junk m' p. unfold store_pp, check_aligned. destruct (lay_facts A I) as (_ & _ & _ & ->).
  assert (NZ : position_align A <> 0) by (unfold word_alignments in I; repeat (destruct I as [<-|I]; [discriminate|]); destruct I).
  replace (alloc_pointer (nb_base b) o + bx_initial (nb_box b)) with (nb_base b + ((128 * 1024 - bx_size (nb_box b)) / nb_align b * q + i) * position_align A).
  - rewrite N.mod_add by auto. destruct (N.eqb_spec (nb_base b mod position_align A) 0); [contradiction|reflexivity].
  - unfold alloc_pointer, o. rewrite Bi, Dv at 1. rewrite Dv. lia.
Qed.

(** ** Counting *)
Definition total (ls : list layout) : N := fold_right (fun l t => l_size l + t) 0 ls.
Lemma total_app ls ls' : total (ls ++ ls') = total ls + total ls'.
Proof. unfold total. induction ls as [|l ls IH]; cbn [app fold_right]; lia. Qed.
Lemma total_served ls : forall rem, ~ In None (snd (serial_run rem ls)) -> total ls <= rem.
Proof.
  induction ls as [|l ls IH]; intros rem; cbn [serial_run total fold_right]; [lia|]. fold (total ls). specialize (IH (fst (serial_alloc rem l))).
  destruct (serial_alloc rem l) as [r o] eqn:Z. cbn [fst] in IH. destruct (serial_run r ls) as [r2 os]. cbn [snd] in *. intros N. specialize (IH (fun K => N (or_intror K))).
  unfold serial_alloc in Z. destruct (_ || _) eqn:B; injection Z as <- <-; [elim N; now left|]. apply orb_false_iff in B as [_ B]. apply N.ltb_ge in B.
  pose proof (round_down_le (rem - l_size l) (l_align l)). lia.
Qed.
Lemma news_total b os : forall st x, hclient_run st os = Fine x -> N.of_nat (news os) * bx_size (nb_box b) <= total (requests b st os).
Proof.
  induction os as [|o os IH]; intros st x Q; cbn [hclient_run requests] in *; [cbn; lia|]. destruct (hclient_step st o) as [[st1 r]| |]; try discriminate Q.
  destruct (hclient_run st1 os) as [y| |] eqn:Z; try discriminate Q. specialize (IH st1 y Z). rewrite total_app. unfold news. cbn [filter]. fold (news os).
  destruct o; cbn [op_requests total fold_right l_size] in *; cbn [length]; fold (news os); try lia.
Qed.
(** C64: [Position_destruct] does not help: a program that creates more than 128 KiB / size of [Position]s never returns, no matter how many
    exist at a time. *)
Lemma c64_positions_pf : forall P U A E b env n k pads os m x, In A word_alignments -> 18 < U -> build_ok U A b -> nb_base b mod nb_align b = 0 ->
  arena_free b m -> placed A env n k m -> Forall (hop_fine n k) os -> hclient_run hclient_start os = Fine x ->
  128 * 1024 / bx_size (nb_box b) < N.of_nat (news os) -> n_run P U A E b env pads 0 os (n_start m) = Panic.
Proof.
  intros P U A E b env n k pads os m [st rs] I HU Bd Ba Af Pl V Q L. pose proof (c64_programs_pf P U A E b env n k pads os m st rs I HU Bd Ba Af Pl V Q) as G.
  destruct (n_run _ _ _ _ _ _ _ _ _ _) as [[nw rs']| |]; [exfalso|reflexivity|contradiction]. destruct G as (G & _). apply total_served in G.
  pose proof (news_total b os hclient_start _ Q) as T. set (z := bx_size (nb_box b)) in *.
  assert (Z0 : z <> 0). { destruct Bd as ((_ & _ & B & _) & _). fold z in B. assert (0 < position_size A) by (unfold word_alignments in I; repeat (destruct I as [<-|I]; [reflexivity|]); destruct I). lia. }
  assert (N.of_nat (news os) <= 128 * 1024 / z) by (apply N.div_le_lower_bound; lia). lia.
Qed.

(** the memory asked for by [n] pushes to one list *)
Fixpoint pushed (b : n_build) (n : nat) : N := match n with O => 0 | S n => pushed b n + total (push_request b n) end.
Definition need (b : n_build) (x : option (apos * apos * list move)) : N :=
  match x with Some (_, _, ms) => bx_size (nb_box b) + pushed b (length ms) | None => 0 end.
Lemma need_step b st o st' r id : hclient_step st o = Fine (st', r) -> need b (hc_object st' id) <= need b (hc_object st id) + total (op_requests b st o).
Proof.
  destruct o; cbn [hclient_step op_requests]; intros Q.
  - destruct (client_step _ _) as [[l x]|]; try discriminate Q. injection Q as <- <-. cbn [put_local hc_object]. lia.
  - injection Q as <- <-. cbn [put_handle hc_object total fold_right l_size]. destruct (id =? hc_next st); cbn [need length pushed]; lia.
  - unfold on_object in Q. destruct (object_of st h) as [[i [[x0 x] ms]]|]; try discriminate Q. injection Q as <- <-. cbn [put_object hc_object]. destruct (id =? i); cbn [need]; lia.
  - destruct (hc_handle st g); try discriminate Q. injection Q as <- <-. cbn [put_handle hc_object]. lia.
  - unfold on_object in Q. destruct (object_of st h) as [[i [[x0 x] ms]]|] eqn:Ob; try discriminate Q. destruct (a_try x (unpack mv)) as [x' ok]. injection Q as <- <-. cbn [put_object hc_object snd].
    destruct (N.eqb_spec id i) as [->|]; [|lia]. unfold object_of in Ob. destruct (hc_handle st h) as [j|]; try discriminate Ob. destruct (hc_object st j) as [y|] eqn:Z; try discriminate Ob.
    injection Ob as -> ->. rewrite Z. destruct ok; cbn [need]; [|lia]. rewrite app_length. cbn [length]. rewrite Nat.add_1_r. cbn [pushed]. lia.
  - unfold on_object in Q. destruct (object_of st h) as [[i [[x0 x] ms]]|]; try discriminate Q. injection Q as <- <-. lia.
  - unfold on_object in Q. destruct (object_of st h) as [[i [[x0 x] ms]]|]; try discriminate Q. injection Q as <- <-. cbn [put_local hc_object]. lia.
  - unfold on_object in Q. destruct (object_of st h) as [[j [[x0 x] ms]]|]; try discriminate Q. injection Q as <- <-. cbn [put_local hc_object]. lia.
  - unfold on_object in Q. destruct (object_of st h) as [[j [[x0 x] ms]]|]; try discriminate Q. injection Q as <- <-. cbn [put_local hc_object]. lia.
Qed.
Lemma need_run b id os : forall st st' rs, hclient_run st os = Fine (st', rs) -> need b (hc_object st' id) <= need b (hc_object st id) + total (requests b st os).
Proof.
  induction os as [|o os IH]; intros st st' rs Q; cbn [hclient_run requests] in *; [injection Q as <- <-; lia|].
  destruct (hclient_step st o) as [[st1 r]| |] eqn:Z; try discriminate Q. destruct (hclient_run st1 os) as [[st2 rs2]| |] eqn:Y; try discriminate Q. injection Q as <- <-.
  pose proof (need_step b st o st1 r id Z). specialize (IH st1 st2 rs2 Y). rewrite total_app. lia.
Qed.
Lemma pushed_doubling b n : (forall c, nb_grow b c = vec_grow c) -> n <> 0%nat ->
  (exists j, capacity (nb_grow b) n = 2 ^ (j + 2)) /\ 4 <= capacity (nb_grow b) n /\ pushed b n = nb_elem b * (2 * capacity (nb_grow b) n - 4).
Proof.
  intros G. induction n as [|n IH]; [congruence|]. intros _. cbn [pushed capacity]. unfold push_request.
  destruct n as [|n'].
  - cbn [capacity pushed]. change (0 =? N.of_nat 0) with true. cbn [total fold_right l_size]. rewrite G. change (vec_grow (N.of_nat 0)) with 4. split; [exists 0; reflexivity|]. lia.
  - destruct (IH ltac:(discriminate)) as [[j I0] [I1 I2]]. set (n := S n') in *. destruct (N.eqb_spec (capacity (nb_grow b) n) (N.of_nat n)) as [Z|Z].
    + cbn [total fold_right l_size]. rewrite I2, G, Z in *. unfold vec_grow. replace (N.max 4 (N.max (2 * N.of_nat n) (N.of_nat n + 1))) with (2 * N.of_nat n) by lia.
      split; [exists (j + 1); rewrite I0, <- N.pow_succ_r'; f_equal; lia|]. split; [lia|].
      rewrite N.add_0_r, <- N.mul_add_distr_l. f_equal. lia.
    + cbn [total fold_right]. split; [eauto|]. split; auto. lia.
Qed.
(** C64: the moves are limited too: as a list of moves leaves its smaller blocks behind when it grows, a program that returns has no position with a
    list whose blocks would not all fit beside it. With 4 bytes to a move that is at most 8192 moves, with 3 at most 16384. *)
Lemma c64_moves_pf : forall P U A E b env n k pads os m st rs nw rs' id x0 x ms, In A word_alignments -> 18 < U -> build_ok U A b -> nb_base b mod nb_align b = 0 ->
  arena_free b m -> placed A env n k m -> Forall (hop_fine n k) os -> hclient_run hclient_start os = Fine (st, rs) -> (forall c, nb_grow b c = vec_grow c) ->
  n_run P U A E b env pads 0 os (n_start m) = Ret (nw, rs') -> hc_object st id = Some (x0, x, ms) -> ms <> [] ->
  bx_size (nb_box b) + nb_elem b * (2 * capacity vec_grow (length ms) - 4) <= 128 * 1024 /\
  (nb_elem b = 4 -> N.of_nat (length ms) <= 8192) /\ (nb_elem b = 3 -> N.of_nat (length ms) <= 16384).
Proof.
  intros P U A E b env n k pads os m st rs nw rs' id x0 x ms I HU Bd Ba Af Pl V Q G R Ho Ne. pose proof (c64_programs_pf P U A E b env n k pads os m st rs I HU Bd Ba Af Pl V Q) as H.
  rewrite R in H. destruct H as (H & _). apply total_served in H. pose proof (need_run b id os _ _ _ Q) as T. rewrite Ho in T. cbn [need hclient_start hc_object] in T.
  destruct (pushed_doubling b (length ms) G) as ((j & D0) & D1 & D2); [destruct ms; [congruence|discriminate]|].
  assert (Cc : capacity (nb_grow b) (length ms) = capacity vec_grow (length ms)).
  { clear - G. induction (length ms) as [|i IH]; cbn [capacity]; auto. now rewrite IH, G. }
  pose proof (capacity_ge (nb_grow b) (length ms) ltac:(apply Bd)) as Ge. rewrite Cc in *. set (c := capacity vec_grow (length ms)) in *. rewrite D2 in T.
  assert (Z0 : 17 <= bx_size (nb_box b)). { destruct Bd as ((_ & _ & B & _) & _). assert (17 <= position_size A) by (unfold word_alignments in I; repeat (destruct I as [<-|I]; [discriminate|]); destruct I). lia. }
  split; [lia|]. split; intros Em; rewrite Em in T.
  - assert (j + 2 < 14); [|assert (c <= 2 ^ 13) by (rewrite D0; apply N.pow_le_mono_r; lia); change (2 ^ 13) with 8192 in *; lia].
    apply N.nle_gt. intros L. assert (2 ^ 14 <= c) by (rewrite D0; apply N.pow_le_mono_r; lia). change (2 ^ 14) with 16384 in *. lia.
  - assert (j + 2 < 15); [|assert (c <= 2 ^ 14) by (rewrite D0; apply N.pow_le_mono_r; lia); change (2 ^ 14) with 16384 in *; lia].
    apply N.nle_gt. intros L. assert (2 ^ 15 <= c) by (rewrite D0; apply N.pow_le_mono_r; lia). change (2 ^ 15) with 32768 in *. lia.
Qed.
(** C64: a program that has destructed every position has given all its memory back, and yet the allocator cannot use it again: [remaining] is lower by
    at least the size of a [Position] for each one created. *)
Lemma c64_given_back_pf : forall P U A E b env n k pads os m st rs nw rs', In A word_alignments -> 18 < U -> build_ok U A b -> nb_base b mod nb_align b = 0 ->
  arena_free b m -> placed A env n k m -> Forall (hop_fine n k) os -> hclient_run hclient_start os = Fine (st, rs) -> (forall id, hc_object st id = None) ->
  n_run P U A E b env pads 0 os (n_start m) = Ret (nw, rs') ->
  (forall y, w_mem (nw_world nw) y = None <-> m y = None) /\ nw_rem nw + N.of_nat (news os) * bx_size (nb_box b) <= 128 * 1024.
Proof.
  intros P U A E b env n k pads os m st rs nw rs' I HU Bd Ba Af Pl V Q D R.
  pose proof (setting_intro U A b env n k m I HU Bd Ba Af Pl) as S.
  pose proof (c64_programs_pf P U A E b env n k pads os m st rs I HU Bd Ba Af Pl V Q) as G. rewrite R in G. cbv zeta in G. destruct G as (G0 & _ & Gr & _ & _ & _ & Gd & Gm).
  pose proof (nrun_ok P U A E b env n k m pads os S V 0%nat _ _ (ninv_start P A E b env n k m Af Pl)) as X. rewrite Q, R in X.
  split.
  - cbn [n_start nw_rem] in X. change ARENA_SIZE with (128 * 1024) in X. unfold all_served in G0.
    destruct (serial_run (128 * 1024) (requests b hclient_start os)) as [rem' os']. destruct X as [_ X]. destruct (X G0) as (nw' & Z & _ & H). injection Z as <- <-.
    destruct (ni_frame _ _ _ _ _ _ _ _ _ _ H) as (m1 & H1 & _). pose proof (hi_placed _ _ _ _ _ _ _ _ _ _ H1) as Pw.
    assert (K : forall m' y, placed A env n k m' -> m' y = None -> forall v, variable n k v -> ~ in_variable A env v y).
    { intros m' y (_ & Ac & _) Z v Vv J. destruct (Ac v Vv (y - fst (region A env v))) as [z Hz]; [unfold in_variable, in_region in J; lia|].
      unfold in_variable, in_region in J. replace (fst (region A env v) + (y - fst (region A env v))) with y in Hz by lia. congruence. }
    assert (F : forall y, (forall v, variable n k v -> ~ in_variable A env v y) -> w_mem (nw_world nw) y = m y).
    { intros y N. apply Gm; auto.
      - intros (id & a & ms & L & _). rewrite Gd in L by auto. discriminate L.
      - intros (id & L & _). rewrite Gd in L by auto. congruence. }
    intros y. split; intros Z; [rewrite <- (F y); [exact Z|exact (K _ y Pw Z)]|rewrite (F y); [exact Z|exact (K _ y Pl Z)]].
  - pose proof (news_total b os hclient_start _ Q) as T. rewrite Gr.
    assert (Y : forall ls rem, ~ In None (snd (serial_run rem ls)) -> fst (serial_run rem ls) + total ls <= rem).
    { clear. induction ls as [|l ls IH]; intros rem; cbn [serial_run total fold_right]; [cbn; lia|]. fold (total ls). specialize (IH (fst (serial_alloc rem l))).
      destruct (serial_alloc rem l) as [r o] eqn:Z. cbn [fst] in IH. destruct (serial_run r ls) as [r2 os]. cbn [fst snd] in *. intros N. specialize (IH (fun K => N (or_intror K))).
      unfold serial_alloc in Z. destruct (_ || _) eqn:B; injection Z as <- <-; [elim N; now left|]. apply orb_false_iff in B as [_ B]. apply N.ltb_ge in B.
      pose proof (round_down_le (rem - l_size l) (l_align l)). lia. }
    specialize (Y _ _ G0). lia.
Qed.
