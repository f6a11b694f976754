(*PROPHEAD
Property theorems C60, C61: C programs with positions on the heap, and c_tests/position.c
From Verif Require Import LSampleC.
*)
(** C60, C61: C programs with positions on the heap. *)
From Coq Require Import String.
From Verif Require Import TPosition TSfen LExt LRuntime TRuntime TClient.
From Verif Require Export SpecHeap LClient.
Close Scope string_scope.
Notation length := List.length.

(** what the program knows about a live object *)
Definition obj_ok (P : profile) (A : N) (E : endian) (B : box_layout) (m : mem) (a : N) (x0 x : apos) : Prop :=
  aligned A a /\ accessible m a (bx_size B) /\
  (exists s, played P s /\ aeq (abs s) x0 /\ fields_at A E m (a + bx_initial B) s) /\
  (exists s, played P s /\ aeq (abs s) x /\ fields_at A E m (a + bx_inner B) s).
Record hinv (P : profile) (A : N) (E : endian) (B : box_layout) (env : c_env) (n k : nat) (m0 : mem) (w : world) (st : hclient) : Prop := {
  hi_placed : placed A env n k (w_mem w);
  hi_tracks : tracks P A E env n k (w_mem w) (hc_local st);
  hi_handle : forall h, w_handle w h = hc_handle st h;
  hi_next : w_next w = hc_next st;
  hi_obj : forall id, match w_live w id, hc_object st id with
                      | Some (a, ms), Some (x0, x, ms') => ms = ms' /\ obj_ok P A E B (w_mem w) a x0 x
                      | None, None => True
                      | _, _ => False
                      end;
  hi_ids : forall id, hc_next st <= id -> w_live w id = None;
  hi_apart : forall id id' a ms a' ms' y, id <> id' -> w_live w id = Some (a, ms) -> w_live w id' = Some (a', ms') ->
             in_region a (bx_size B) y -> in_region a' (bx_size B) y -> False;
  hi_vars : forall id a ms v y, w_live w id = Some (a, ms) -> variable n k v -> in_variable A env v y -> in_region a (bx_size B) y -> False;
  hi_fresh : forall id a ms y, w_live w id = Some (a, ms) -> in_region a (bx_size B) y -> m0 y = None;
  hi_mem : forall y, ~ in_object B w y -> (forall v, variable n k v -> ~ in_variable A env v y) -> w_mem w y = m0 y;
  hi_init : placed A env n k m0
}.

Lemma tracks_frame P A E env n k m m' st : In A word_alignments -> tracks P A E env n k m st ->
  (forall v y, variable n k v -> in_variable A env v y -> m' y = m y) -> tracks P A E env n k m' st.
Proof.
  intros I [T1 T2] F. split.
  - intros i x L Q. destruct (T1 i x L Q) as (s & Ps & Ax & Fs). exists s. split; auto. split; auto. apply (fields_frame A E m); auto; [eapply played_wf; eauto|].
    intros j Lj. apply (F (inl i)); auto. unfold in_variable, in_region. cbn [region fst snd]. lia.
  - intros t l L Q. destruct (T2 t l L Q) as [S Z]. split; auto. apply (string_frame m m' _ l 139); auto.
    intros j Lj. apply (F (inr t)); auto. unfold in_variable, in_region. cbn [region fst snd]. lia.
Qed.
Lemma obj_frame P A E B m m' a x0 x : In A word_alignments -> box_ok A B -> obj_ok P A E B m a x0 x ->
  (forall y, in_region a (bx_size B) y -> m' y = m y) -> obj_ok P A E B m' a x0 x.
Proof.
  intros I (_ & _ & S0 & S1 & _) (Al & Ac & (s0 & P0 & A0 & F0) & (s & Ps & As & Fs)) F.
  split; auto. split; [intros i L; rewrite F by (unfold in_region; lia); now apply Ac|]. split.
  - exists s0. split; auto. split; auto. apply (fields_frame A E m); auto; [eapply played_wf; eauto|]. intros i L. apply F. unfold in_region. lia.
  - exists s. split; auto. split; auto. apply (fields_frame A E m); auto; [eapply played_wf; eauto|]. intros i L. apply F. unfold in_region. lia.
Qed.
Lemma aligned_add A a b : aligned A a -> aligned A b -> aligned A (a + b).
Proof. intros [i ->] [j ->]. exists (i + j). lia. Qed.
(** only variables have changed *)
Lemma local_change P A E B env n k m0 w st m' l : In A word_alignments -> box_ok A B -> hinv P A E B env n k m0 w st ->
  outside A env n k (w_mem w) m' -> tracks P A E env n k m' l -> hinv P A E B env n k m0 (with_mem w m') (put_local st l).
Proof.
  intros I Bk H O T. destruct O as [O1 O2]. constructor; cbn [with_mem put_local w_mem w_live w_next w_handle hc_local hc_handle hc_object hc_next]; try apply H; auto.
  - apply (placed_outside A env n k (w_mem w)); [apply H|split; auto].
  - intros id. pose proof (hi_obj _ _ _ _ _ _ _ _ _ _ H id) as Q. destruct (w_live w id) as [[a ms]|] eqn:L; [|exact Q].
    destruct (hc_object st id) as [[[x0 x] ms']|]; [|exact Q]. destruct Q as [Q1 Q2]. split; auto. apply (obj_frame P A E B (w_mem w)); auto.
    intros y Y. apply O1. intros v V J. eapply (hi_vars _ _ _ _ _ _ _ _ _ _ H); eauto.
  - intros y N V. rewrite O1 by exact V. apply (hi_mem _ _ _ _ _ _ _ _ _ _ H); auto.
Qed.
Lemma in_object_intro B w id a ms y : w_live w id = Some (a, ms) -> in_region a (bx_size B) y -> in_object B w y.
Proof. intros L Y. exists id, a, ms. auto. Qed.
(** one block has changed *)
Lemma block_change P A E B env n k m0 w st m' id a ms ms' x0 x : In A word_alignments -> box_ok A B -> hinv P A E B env n k m0 w st ->
  w_live w id = Some (a, ms) -> (forall y, ~ in_region a (bx_size B) y -> m' y = w_mem w y) -> obj_ok P A E B m' a x0 x ->
  hinv P A E B env n k m0 (set_live (with_mem w m') id (Some (a, ms'))) (put_object st id (Some (x0, x, ms'))).
Proof.
  intros I Bk H L F O.
  assert (V0 : forall v y, variable n k v -> in_variable A env v y -> m' y = w_mem w y).
  { intros v y V J. apply F. intros Y. eapply (hi_vars _ _ _ _ _ _ _ _ _ _ H); eauto. }
  constructor; cbn [set_live with_mem put_object w_mem w_live w_next w_handle hc_local hc_handle hc_object hc_next]; try apply H; auto.
  - destruct (hi_placed _ _ _ _ _ _ _ _ _ _ H) as (P1 & P2 & P3). split; auto. split; auto. intros v V i Li. rewrite (V0 v); [now apply P2|exact V|unfold in_variable, in_region; lia].
  - apply (tracks_frame P A E env n k (w_mem w)); auto. apply H.
  - intros j. destruct (N.eqb_spec j id) as [->|D]; [auto|]. pose proof (hi_obj _ _ _ _ _ _ _ _ _ _ H j) as Q. destruct (w_live w j) as [[b mb]|] eqn:Lj; [|exact Q].
    destruct (hc_object st j) as [[[y0 y] my]|]; [|exact Q]. destruct Q as [Q1 Q2]. split; auto. apply (obj_frame P A E B (w_mem w)); auto.
    intros z Z. apply F. intros Z'. eapply (hi_apart _ _ _ _ _ _ _ _ _ _ H); [exact D|exact Lj|exact L|exact Z|exact Z'].
  - intros j Lj. destruct (N.eqb_spec j id) as [->|D]; [|now apply (hi_ids _ _ _ _ _ _ _ _ _ _ H)]. rewrite (hi_ids _ _ _ _ _ _ _ _ _ _ H id Lj) in L. discriminate L.
  - intros j j' b mb b' mb' y D. destruct (N.eqb_spec j id) as [->|D1], (N.eqb_spec j' id) as [->|D2]; try congruence; intros E1 E2 Y1 Y2.
    + injection E1 as <- <-. exact (hi_apart _ _ _ _ _ _ _ _ _ _ H _ _ _ _ _ _ _ D L E2 Y1 Y2).
    + injection E2 as <- <-. exact (hi_apart _ _ _ _ _ _ _ _ _ _ H _ _ _ _ _ _ _ D E1 L Y1 Y2).
    + exact (hi_apart _ _ _ _ _ _ _ _ _ _ H _ _ _ _ _ _ _ D E1 E2 Y1 Y2).
  - intros j b mb v y. destruct (N.eqb_spec j id) as [->|D]; intros E1; [injection E1 as <- <-|]; eapply (hi_vars _ _ _ _ _ _ _ _ _ _ H); eauto.
  - intros j b mb y. destruct (N.eqb_spec j id) as [->|D]; intros E1; [injection E1 as <- <-|]; eapply (hi_fresh _ _ _ _ _ _ _ _ _ _ H); eauto.
  - intros y N V. assert (N' : ~ in_object B w y).
    { intros (j & b & mb & E1 & Y). apply N. destruct (N.eq_dec j id) as [->|D].
      - rewrite L in E1. injection E1 as <- <-. exists id, a, ms'. cbn [with_mem w_live set_live]. rewrite N.eqb_refl. auto.
      - exists j, b, mb. cbn [with_mem w_live set_live]. destruct (N.eqb_spec j id); [congruence|]. auto. }
    rewrite F; [now apply (hi_mem _ _ _ _ _ _ _ _ _ _ H)|]. intros Y. apply N'. eapply in_object_intro; eauto.
Qed.

Lemma deref_ok P A E B env n k m0 w st h : hinv P A E B env n k m0 w st ->
  match object_of st h with
  | Some (id, (x0, x, ms)) => exists a, deref w (w_handle w h) = Ret (id, (a, ms)) /\ w_live w id = Some (a, ms) /\ obj_ok P A E B (w_mem w) a x0 x /\ hc_object st id = Some (x0, x, ms)
  | None => deref w (w_handle w h) = UB
  end.
Proof.
  intros H. unfold object_of, deref. rewrite (hi_handle _ _ _ _ _ _ _ _ _ _ H h). destruct (hc_handle st h) as [id|]; [|reflexivity].
  pose proof (hi_obj _ _ _ _ _ _ _ _ _ _ H id) as Q. destruct (w_live w id) as [[a ms]|] eqn:L, (hc_object st id) as [[[x0 x] ms']|] eqn:Ho; try contradiction; [|reflexivity].
  destruct Q as [<- Q]. exists a. auto.
Qed.
Lemma obj_loads P A E B m a x0 x : In A word_alignments -> box_ok A B -> obj_ok P A E B m a x0 x ->
  exists s0 s, played P s0 /\ played P s /\ aeq (abs s0) x0 /\ aeq (abs s) x /\ load_pp A E m (a + bx_initial B) = Ret s0 /\ load_pp A E m (a + bx_inner B) = Ret s /\
    fields_at A E m (a + bx_initial B) s0 /\ fields_at A E m (a + bx_inner B) s.
Proof.
  intros I (B1 & B2 & _) (Al & Ac & (s0 & P0 & A0 & F0) & (s & Ps & As & Fs)). exists s0, s. repeat (split; [assumption|]).
  split; [apply load_ok; auto using aligned_add; eapply played_wf; eauto|]. split; auto. apply load_ok; auto using aligned_add. eapply played_wf; eauto.
Qed.

(** what one step does *)
Definition agrees (P : profile) (A : N) (E : endian) (B : box_layout) (env : c_env) (n k : nat) (m0 : mem) (block : option N) (o : h_op)
    (a : outcome (hclient * c_result)) (r : res (world * c_result)) : Prop :=
  match a with
  | Fine (st', v) => (exists w', r = Ret (w', v) /\ hinv P A E B env n k m0 w' st') \/ (r = Panic /\ block = None /\ exists h, o = HNew h)
  | Misused => r = UB
  | Unset => True
  end.

Lemma answer_ok P s x s0 ms q : played P s -> aeq (abs s) x -> match q with HPieceAt sq => valid_square sq | HPieces p => valid_piece p | _ => True end ->
  pos_ask P q (Position s0 s ms) = Ret (a_answer q x).
Proof.
  intros Ps Ax V. pose proof (played_wf P s Ps) as W. destruct (c21_other_observers_pf P s x (played_reachable P s Ps) (proj2 (sees_iff P s x W) Ax)) as (_ & G & _ & L).
  assert (BB := fun c => bits_ok P s x c Ps Ax). unfold pos_ask, pos_ply, pos_side_to_move, pos_hand_of_a_player, pos_occupied_bitboard, pos_vacant_bitboard, pos_player_bitboard, pos_piece_bitboard.
  cbn [pos_inner]. destruct q as [sq| | |c| | | |c|p]; cbn [a_answer].
  - rewrite G by auto. reflexivity.
  - unfold ply. do 2 f_equal. apply Ax.
  - unfold side_to_move. do 2 f_equal. apply Ax.
  - rewrite hand_of_a_player_ok by auto. cbn [bind]. do 2 f_equal. now apply hand_result.
  - rewrite L. reflexivity.
  - specialize (BB COccupied I). cbn [c_bitboard] in BB. rewrite BB. reflexivity.
  - specialize (BB CVacant I). cbn [c_bitboard] in BB. rewrite BB. reflexivity.
  - specialize (BB (CPlayer c) I). cbn [c_bitboard] in BB. rewrite BB. reflexivity.
  - specialize (BB (CPieces p) V). cbn [c_bitboard] in BB. rewrite BB. reflexivity.
Qed.
Lemma text_ok P A E env n k m st t s x : In A word_alignments -> placed A env n k m -> tracks P A E env n k m st -> (t < k)%nat -> played P s -> aeq (abs s) x ->
  exists m', (log <- to_sfen_c P s (at_text env t);; do_writes log m) = Ret m' /\ tracks P A E env n k m' (set_text st t (sfen_text x)) /\ outside A env n k m m'.
Proof.
  intros I Pl T Lt Ps Ax. pose proof (played_wf P s Ps) as W. rewrite sfen_c_ok by auto. cbn [bind].
  assert (L : len (sfen_text (abs s) ++ [0]) <= 139).
  { destruct (proj1 (c34_in_play_pf P s 0 Ps)) as (log & Z & L). rewrite sfen_c_ok in Z by auto. injection Z as <-. now rewrite addresses_len in L. }
  pose proof (proj1 (proj2 Pl) (inr t) Lt) as Ac. cbn [region fst snd] in Ac.
  destruct (do_writes_ok (sfen_text (abs s) ++ [0]) m (at_text env t)) as (m' & -> & Bs & O1 & O2); [intros y Ly; apply Ac; lia|]. exists m'. split; [reflexivity|].
  assert (O : only_changes m m' (at_text env t) 139) by (split; auto; intros y N; apply O1; unfold in_region in *; lia).
  split; [|apply (changes_outside A env n k m m' (inr t)); auto]. rewrite <- (sfen_text_ext _ _ Ax).
  rewrite len_app in L. change (len [0]) with 1 in L. eapply tracks_text; eauto. apply at_string; auto. apply sfen_no_nul.
Qed.
Lemma copy_in_ok P A E env n k m st i src s x : In A word_alignments -> placed A env n k m -> tracks P A E env n k m st -> (i < n)%nat -> played P s -> aeq (abs s) x ->
  fields_at A E m src s -> accessible m src (position_size A) -> apart (at_pos env i) src (position_size A) ->
  exists m', c_assign A m (at_pos env i) src = Ret m' /\ tracks P A E env n k m' (set_pos st i x) /\ outside A env n k m m'.
Proof.
  intros I Pl T Li Ps Ax F Ac D. pose proof (played_wf P s Ps) as W. unfold c_assign. destruct (lay_facts A I) as (_ & _ & -> & _). unfold memcpy.
  destruct (memcpy_loop m (at_pos env i) src (position_size A) Ac (proj1 (proj2 Pl) (inl i) Li) D) as (m' & -> & [F1 F2] & F3). cbn [bind]. exists m'. split; [reflexivity|].
  assert (O : only_changes m m' (at_pos env i) (position_size A)) by (split; auto).
  split; [|apply (changes_outside A env n k m m' (inl i)); auto]. apply (tracks_pos P A E env n k m m' st i x s); auto.
  intros o l J p Lp. pose proof (table_inside A E s o l I W J). rewrite <- N.add_assoc, F1 by lia. rewrite N.add_assoc. now apply F.
Qed.

Lemma hstep_ok P A E B env n k m0 alloc pad o w st : In A word_alignments -> box_ok A B ->
  (forall a, alloc (w_mem w) = Some a -> aligned A a /\ forall x, in_region a (bx_size B) x -> w_mem w x = None) -> hinv P A E B env n k m0 w st -> hop_fine n k o ->
  agrees P A E B env n k m0 (alloc (w_mem w)) o (hclient_step st o) (h_step P A E B env alloc pad o w).
Proof.
  intros I Bk FB H V. pose proof Bk as (Bi & Bn & Si & Sn & Sd).
  destruct o as [c|h|h|h g|h mv|h q|h t|i h|i h]; cbn [hclient_step h_step hop_fine] in *.
  - destruct (client_step (hc_local st) c) as [[l r]|] eqn:Q; [|exact Logic.I]. left.
    destruct (step_ok P A E env n k pad c (w_mem w) (hc_local st) l r I (hi_placed _ _ _ _ _ _ _ _ _ _ H) (hi_tracks _ _ _ _ _ _ _ _ _ _ H) V Q) as (m' & -> & T & O).
    cbn [bind]. eexists. split; [reflexivity|]. apply local_change; auto.
  - unfold Position_startpos, pos_startpos. rewrite startpos_ok. cbn [bind arbitrary_position pos_initial pos_inner pos_moves].
    destruct (alloc (w_mem w)) as [a|] eqn:Q; [|right; split; [reflexivity|split; eauto]]. left. destruct (FB _ eq_refl) as [Al Fr].
    set (m1 := map_block (w_mem w) a (bx_size B) pad).
    assert (M1 : accessible m1 a (bx_size B)).
    { intros i L. unfold m1, map_block. destruct (N.leb_spec a (a + i)), (N.ltb_spec (a + i) (a + bx_size B)); cbn [andb]; eauto; lia. }
    assert (M1o : forall y, ~ in_region a (bx_size B) y -> m1 y = w_mem w y).
    { intros y N. unfold m1, map_block, in_region in *. destruct (N.leb_spec a y), (N.ltb_spec y (a + bx_size B)); cbn [andb]; auto; lia. }
    destruct (store_ok A E pad m1 (a + bx_initial B) the_startpos I startpos_wf) as (m2 & -> & F2 & O2); [now apply aligned_add|intros i L; rewrite <- N.add_assoc; apply M1; lia|]. cbn [bind].
    assert (M2 : accessible m2 a (bx_size B)) by (eapply accessible_changes; eauto).
    destruct (store_ok A E pad m2 (a + bx_inner B) the_startpos I startpos_wf) as (m3 & -> & F3 & O3); [now apply aligned_add|intros i L; rewrite <- N.add_assoc; apply M2; lia|]. cbn [bind].
    assert (M3 : accessible m3 a (bx_size B)) by (eapply accessible_changes; eauto).
    assert (M3o : forall y, ~ in_region a (bx_size B) y -> m3 y = w_mem w y).
    { intros y N. rewrite (proj1 O3), (proj1 O2), M1o; auto; unfold in_region in *; lia. }
    assert (F2' : fields_at A E m3 (a + bx_initial B) the_startpos).
    { apply (fields_frame A E m2); auto using startpos_wf. intros i L. apply (proj1 O3). unfold in_region. lia. }
    assert (NV : forall v y, variable n k v -> in_variable A env v y -> ~ in_region a (bx_size B) y).
    { intros v y Vv J R. destruct (hi_placed _ _ _ _ _ _ _ _ _ _ H) as (_ & P2 & _). destruct (P2 v Vv (y - fst (region A env v))) as [z Z].
      - unfold in_variable, in_region in J. lia.
      - unfold in_variable, in_region in J. replace (fst (region A env v) + (y - fst (region A env v))) with y in Z by lia. rewrite Fr in Z by auto. discriminate Z. }
    assert (NO : forall id b ms y, w_live w id = Some (b, ms) -> in_region b (bx_size B) y -> ~ in_region a (bx_size B) y).
    { intros id b ms y L Y R. pose proof (hi_obj _ _ _ _ _ _ _ _ _ _ H id) as Qo. rewrite L in Qo. destruct (hc_object st id) as [[[x0 x] ms']|]; [|contradiction].
      destruct Qo as [_ (_ & Ac & _)]. destruct (Ac (y - b)) as [z Z]; [unfold in_region in Y; lia|]. unfold in_region in Y. replace (b + (y - b)) with y in Z by lia.
      rewrite Fr in Z by auto. discriminate Z. }
    eexists. split; [rewrite (hi_next _ _ _ _ _ _ _ _ _ _ H); reflexivity|].
    assert (NN : w_live w (hc_next st) = None) by (apply (hi_ids _ _ _ _ _ _ _ _ _ _ H); lia).
    constructor; cbn [set_handle put_handle w_mem w_live w_next w_handle hc_local hc_handle hc_object hc_next].
    + destruct (hi_placed _ _ _ _ _ _ _ _ _ _ H) as (P1 & P2 & P3). split; auto. split; auto. intros v Vv i Li. rewrite M3o; [now apply P2|]. apply (NV v); auto. unfold in_variable, in_region. lia.
    + apply (tracks_frame P A E env n k (w_mem w)); auto; [apply H|]. intros v y Vv J. apply M3o. eapply NV; eauto.
    + intros j. destruct (Nat.eqb j h); [reflexivity|apply H].
    + reflexivity.
    + intros j. destruct (N.eqb_spec j (hc_next st)) as [->|D].
      * split; auto. split; auto. split; auto. split; exists the_startpos; (split; [apply opening_played|split; [apply abs_startpos|assumption]]).
      * pose proof (hi_obj _ _ _ _ _ _ _ _ _ _ H j) as Qo. destruct (w_live w j) as [[b mb]|] eqn:Lj; [|exact Qo].
        destruct (hc_object st j) as [[[y0 y] my]|]; [|exact Qo]. destruct Qo as [Q1 Q2]. split; auto. apply (obj_frame P A E B (w_mem w)); auto.
        intros z Z. apply M3o. eapply NO; eauto.
    + intros j Lj. destruct (N.eqb_spec j (hc_next st)); [lia|]. apply (hi_ids _ _ _ _ _ _ _ _ _ _ H). lia.
    + intros j j' b mb b' mb' y D. destruct (N.eqb_spec j (hc_next st)) as [->|D1], (N.eqb_spec j' (hc_next st)) as [->|D2]; try congruence; intros E1 E2 Y1 Y2.
      * injection E1 as <- <-. exact (NO _ _ _ _ E2 Y2 Y1).
      * injection E2 as <- <-. exact (NO _ _ _ _ E1 Y1 Y2).
      * exact (hi_apart _ _ _ _ _ _ _ _ _ _ H _ _ _ _ _ _ _ D E1 E2 Y1 Y2).
    + intros j b mb v y. destruct (N.eqb_spec j (hc_next st)) as [->|D]; intros E1; [injection E1 as <- <-; intros; eapply NV; eauto|]. eapply (hi_vars _ _ _ _ _ _ _ _ _ _ H); eauto.
    + intros j b mb y. destruct (N.eqb_spec j (hc_next st)) as [->|D]; intros E1 Y; [injection E1 as <- <-|eapply (hi_fresh _ _ _ _ _ _ _ _ _ _ H); eauto].
      rewrite <- (hi_mem _ _ _ _ _ _ _ _ _ _ H y); [now apply Fr| |].
      * intros (j & b & mb & L & Z). eapply NO; eauto.
      * intros v Vv J. eapply NV; eauto.
    + intros y N Vv. rewrite M3o.
      * apply (hi_mem _ _ _ _ _ _ _ _ _ _ H); auto. intros (j & b & mb & L & Z). apply N. exists j, b, mb. cbn [set_handle w_live]. destruct (N.eqb_spec j (hc_next st)); [congruence|auto].
      * intros Y. apply N. exists (hc_next st), a, []. cbn [set_handle w_live]. rewrite N.eqb_refl. auto.
    + apply H.
  - unfold on_object. pose proof (deref_ok P A E B env n k m0 w st h H) as Q. unfold Position_destruct.
    destruct (object_of st h) as [[id [[x0 x] ms]]|]; [|cbn [agrees]; rewrite Q; reflexivity]. destruct Q as (a & -> & L & O & Ho). cbn [bind]. left. eexists. split; [reflexivity|].
    assert (U : forall y, ~ in_region a (bx_size B) y -> unmap_block (w_mem w) a (bx_size B) y = w_mem w y).
    { intros y N. unfold unmap_block, in_region in *. destruct (N.leb_spec a y), (N.ltb_spec y (a + bx_size B)); cbn [andb]; auto; lia. }
    assert (U' : forall y, in_region a (bx_size B) y -> unmap_block (w_mem w) a (bx_size B) y = None).
    { intros y N. unfold unmap_block, in_region in *. destruct (N.leb_spec a y), (N.ltb_spec y (a + bx_size B)); cbn [andb]; auto; lia. }
    assert (V0 : forall v y, variable n k v -> in_variable A env v y -> unmap_block (w_mem w) a (bx_size B) y = w_mem w y).
    { intros v y Vv J. apply U. intros Y. eapply (hi_vars _ _ _ _ _ _ _ _ _ _ H); eauto. }
    constructor; cbn [set_live with_mem put_object w_mem w_live w_next w_handle hc_local hc_handle hc_object hc_next]; try apply H.
    + destruct (hi_placed _ _ _ _ _ _ _ _ _ _ H) as (P1 & P2 & P3). split; auto. split; auto. intros v Vv i Li. rewrite (V0 v); [now apply P2|exact Vv|unfold in_variable, in_region; lia].
    + apply (tracks_frame P A E env n k (w_mem w)); auto. apply H.
    + intros j. destruct (N.eqb_spec j id) as [->|D]; [exact Logic.I|]. pose proof (hi_obj _ _ _ _ _ _ _ _ _ _ H j) as Qo. destruct (w_live w j) as [[b mb]|] eqn:Lj; [|exact Qo].
      destruct (hc_object st j) as [[[y0 y] my]|]; [|exact Qo]. destruct Qo as [Q1 Q2]. split; auto. apply (obj_frame P A E B (w_mem w)); auto.
      intros z Z. apply U. intros Z'. eapply (hi_apart _ _ _ _ _ _ _ _ _ _ H); [exact D|exact Lj|exact L|exact Z|exact Z'].
    + intros j Lj. destruct (N.eqb_spec j id); [reflexivity|]. now apply (hi_ids _ _ _ _ _ _ _ _ _ _ H).
    + intros j j' b mb b' mb' y D. destruct (N.eqb_spec j id), (N.eqb_spec j' id); try discriminate. intros E1 E2 Y1 Y2. exact (hi_apart _ _ _ _ _ _ _ _ _ _ H _ _ _ _ _ _ _ D E1 E2 Y1 Y2).
    + intros j b mb v y. destruct (N.eqb_spec j id); try discriminate. eapply (hi_vars _ _ _ _ _ _ _ _ _ _ H); eauto.
    + intros j b mb y. destruct (N.eqb_spec j id); try discriminate. eapply (hi_fresh _ _ _ _ _ _ _ _ _ _ H); eauto.
    + intros y N Vv. assert (D : in_region a (bx_size B) y \/ ~ in_region a (bx_size B) y) by (unfold in_region; lia). destruct D as [D|D].
      * rewrite U' by auto. symmetry. eapply (hi_fresh _ _ _ _ _ _ _ _ _ _ H); eauto.
      * rewrite U by auto. apply (hi_mem _ _ _ _ _ _ _ _ _ _ H); auto. intros (j & b & mb & Lj & Y). apply N. exists j, b, mb. cbn [with_mem w_live set_live].
        destruct (N.eqb_spec j id) as [->|]; [|auto]. rewrite L in Lj. injection Lj as <- <-. contradiction.
  - rewrite (hi_handle _ _ _ _ _ _ _ _ _ _ H g). destruct (hc_handle st g) as [id|]; [|reflexivity]. left. eexists. split; [reflexivity|].
    constructor; cbn [set_handle put_handle w_mem w_live w_next w_handle hc_local hc_handle hc_object hc_next]; try apply H.
    intros j. destruct (Nat.eqb j h); [reflexivity|apply H].
  - unfold on_object. pose proof (deref_ok P A E B env n k m0 w st h H) as Q. unfold Position_make_compact_move.
    destruct (object_of st h) as [[id [[x0 x] ms]]|]; [|cbn [agrees]; rewrite Q; reflexivity]. destruct Q as (a & -> & L & O & Ho). cbn [bind].
    destruct (obj_loads P A E B (w_mem w) a x0 x I Bk O) as (s0 & s & P0 & Ps & A0 & Ax & -> & -> & Fi & Fn). cbn [bind].
    pose proof (played_wf P s Ps) as W. pose proof (proj1 (valid_compact_unpack mv V)) as Vu.
    unfold pos_make_compact_move, pos_make_move. rewrite move_of_cm_unpack by auto. cbn [bind pos_inner pos_initial pos_moves]. rewrite make_move_ok by auto. cbn [bind].
    pose proof (played_try P s _ Ps Vu) as Pt. pose proof (do_op_abs s (OpMove (unpack mv)) W Vu) as [Qa Qb]. cbn [do_op a_op] in Qa, Qb.
    destruct (a_try_aeq (abs s) x (unpack mv) Vu Ax) as [Ra Rb]. unfold try_move in *.
    destruct O as (Al & Ac & _). pose proof (aligned_add A a _ Al Bi) as Ali. pose proof (aligned_add A a _ Al Bn) as Aln.
    assert (Acn : accessible (w_mem w) (a + bx_inner B) (position_size A)) by (intros i Lt; rewrite <- N.add_assoc; apply Ac; lia).
    assert (ST : forall s' x' ms', played P s' -> aeq (abs s') x' -> exists m', store_pp A E pad (w_mem w) (a + bx_inner B) s' = Ret m' /\
       hinv P A E B env n k m0 (set_live (with_mem w m') id (Some (a, ms'))) (put_object st id (Some (x0, x', ms')))).
    { intros s' x' ms' Ps' Ax'. destruct (store_ok A E pad (w_mem w) (a + bx_inner B) s' I (played_wf P s' Ps') Aln Acn) as (m' & -> & F' & O'). exists m'. split; [reflexivity|].
      apply (block_change P A E B env n k m0 w st m' id a ms ms' x0 x'); auto.
      - intros y N. apply (proj1 O'). unfold in_region in *. lia.
      - split; auto. split; [eapply accessible_changes; eauto|]. split; [exists s0|exists s'; auto]. split; auto. split; auto.
        apply (fields_frame A E (w_mem w)); auto; [eapply played_wf; eauto|]. intros i Lt. apply (proj1 O'). unfold in_region. lia. }
    destruct (do_move s (unpack mv)) as [s'|]; cbn [fst snd bind is_some pos_inner pos_moves] in *; destruct (a_try x (unpack mv)) as [x' b']; cbn [fst snd] in *; subst b'; rewrite <- Qb.
    + destruct (ST s' x' (ms ++ [unpack mv]) Pt) as (m' & -> & Hi); [eapply aeq_trans; eauto|]. cbn [bind]. left. eexists. split; [reflexivity|exact Hi].
    + destruct (ST s x' ms Pt) as (m' & -> & Hi); [eapply aeq_trans; eauto|]. cbn [bind]. left. eexists. split; [reflexivity|exact Hi].
  - unfold on_object. pose proof (deref_ok P A E B env n k m0 w st h H) as Q. unfold pos_query.
    destruct (object_of st h) as [[id [[x0 x] ms]]|]; [|cbn [agrees]; rewrite Q; reflexivity]. destruct Q as (a & -> & L & O & Ho). cbn [bind].
    destruct (obj_loads P A E B (w_mem w) a x0 x I Bk O) as (s0 & s & P0 & Ps & A0 & Ax & -> & -> & Fi & Fn). cbn [bind].
    rewrite (answer_ok P s x) by auto. cbn [bind]. left. eauto.
  - unfold on_object. pose proof (deref_ok P A E B env n k m0 w st h H) as Q. unfold Position_to_sfen_c, pos_query.
    destruct (object_of st h) as [[id [[x0 x] ms]]|]; [|cbn [agrees]; rewrite Q; reflexivity]. destruct Q as (a & -> & L & O & Ho). cbn [bind].
    destruct (obj_loads P A E B (w_mem w) a x0 x I Bk O) as (s0 & s & P0 & Ps & A0 & Ax & -> & -> & Fi & Fn). cbn [bind]. unfold pos_to_sfen_c. cbn [pos_inner].
    destruct (text_ok P A E env n k (w_mem w) (hc_local st) t s x I (hi_placed _ _ _ _ _ _ _ _ _ _ H) (hi_tracks _ _ _ _ _ _ _ _ _ _ H) V Ps Ax) as (m' & Z & T & O').
    destruct (to_sfen_c P s (at_text env t)) as [log| |]; try discriminate Z. cbn [bind] in Z |- *. rewrite Z. cbn [bind]. left. eexists. split; [reflexivity|]. apply local_change; auto.
  - unfold on_object. pose proof (deref_ok P A E B env n k m0 w st h H) as Q. unfold Position_inner.
    destruct (object_of st h) as [[id [[x0 x] ms]]|]; [|cbn [agrees]; rewrite Q; reflexivity]. destruct Q as (a & -> & L & O & Ho). cbn [bind].
    destruct (obj_loads P A E B (w_mem w) a x0 x I Bk O) as (s0 & s & P0 & Ps & A0 & Ax & _ & _ & Fi & Fn). destruct O as (Al & Ac & _).
    destruct (copy_in_ok P A E env n k (w_mem w) (hc_local st) i (a + bx_inner B) s x I (hi_placed _ _ _ _ _ _ _ _ _ _ H) (hi_tracks _ _ _ _ _ _ _ _ _ _ H) V Ps Ax Fn) as (m' & -> & T & O').
    + intros j Lj. rewrite <- N.add_assoc. apply Ac. lia.
    + intros y Y1 Y2. eapply (hi_vars _ _ _ _ _ _ _ _ _ _ H id a ms (inl i) y); eauto. unfold in_region in *. lia.
    + cbn [bind]. left. eexists. split; [reflexivity|]. apply local_change; auto.
  - unfold on_object. pose proof (deref_ok P A E B env n k m0 w st h H) as Q. unfold Position_initial_position.
    destruct (object_of st h) as [[id [[x0 x] ms]]|]; [|cbn [agrees]; rewrite Q; reflexivity]. destruct Q as (a & -> & L & O & Ho). cbn [bind].
    destruct (obj_loads P A E B (w_mem w) a x0 x I Bk O) as (s0 & s & P0 & Ps & A0 & Ax & _ & _ & Fi & Fn). destruct O as (Al & Ac & _).
    destruct (copy_in_ok P A E env n k (w_mem w) (hc_local st) i (a + bx_initial B) s0 x0 I (hi_placed _ _ _ _ _ _ _ _ _ _ H) (hi_tracks _ _ _ _ _ _ _ _ _ _ H) V P0 A0 Fi) as (m' & -> & T & O').
    + intros j Lj. rewrite <- N.add_assoc. apply Ac. lia.
    + intros y Y1 Y2. eapply (hi_vars _ _ _ _ _ _ _ _ _ _ H id a ms (inl i) y); eauto. unfold in_region in *. lia.
    + cbn [bind]. left. eexists. split; [reflexivity|]. apply local_change; auto.
Qed.
Lemma hinv_start P A E B env n k m : placed A env n k m -> hinv P A E B env n k m (world_start m) hclient_start.
Proof. intros Pl. constructor; cbn; auto; try discriminate. split; intros; discriminate. Qed.
Lemma out_now P A E B env allocs pads c h os w : allocs c (w_mem w) = None -> h_out_of_memory P A E B env allocs pads c (HNew h :: os) w.
Proof. intros H. exists [], h, os, w, []. split; [reflexivity|]. split; [reflexivity|]. cbn [length]. now rewrite Nat.add_0_r. Qed.
Lemma out_later P A E B env allocs pads c o os w w1 r : h_step P A E B env (allocs c) (pads c) o w = Ret (w1, r) ->
  h_out_of_memory P A E B env allocs pads (S c) os w1 -> h_out_of_memory P A E B env allocs pads c (o :: os) w.
Proof.
  intros H (before & h & after & w' & rs & -> & R & N). exists (o :: before), h, after, w', (r :: rs). split; [reflexivity|]. cbn [h_run length]. rewrite H. cbn [bind].
  rewrite R. split; [reflexivity|]. now rewrite Nat.add_succ_r.
Qed.
Lemma out_panics P A E B env allocs pads os : forall c w, h_out_of_memory P A E B env allocs pads c os w -> h_run P A E B env allocs pads c os w = Panic.
Proof.
  intros c w (before & h & after & w' & rs & -> & R & N). revert c w rs R N. induction before as [|o before IH]; intros c w rs R N.
  - cbn [h_run] in R. injection R as <- _. cbn [app h_run h_step length] in *. rewrite Nat.add_0_r in N. unfold Position_startpos, pos_startpos. rewrite startpos_ok, N. reflexivity.
  - cbn [app h_run length] in *. rewrite Nat.add_succ_r in N. destruct (h_step P A E B env (allocs c) (pads c) o w) as [[w1 r]| |]; try discriminate R. cbn [bind] in *.
    destruct (h_run P A E B env allocs pads (S c) before w1) as [[w2 rs2]| |] eqn:Q; try discriminate R. cbn [bind] in R. injection R as -> _.
    now rewrite (IH (S c) w1 rs2 Q N).
Qed.
Lemma hrun_ok P A E B env n k m0 allocs pads os : In A word_alignments -> box_ok A B -> (forall j, fresh_blocks A B (allocs j)) -> Forall (hop_fine n k) os ->
  forall c w st, hinv P A E B env n k m0 w st ->
  match hclient_run st os with
  | Fine (st', rs) => (exists w', h_run P A E B env allocs pads c os w = Ret (w', rs) /\ hinv P A E B env n k m0 w' st') \/
                      (h_run P A E B env allocs pads c os w = Panic /\ h_out_of_memory P A E B env allocs pads c os w)
  | Misused => h_run P A E B env allocs pads c os w = UB \/ (h_run P A E B env allocs pads c os w = Panic /\ h_out_of_memory P A E B env allocs pads c os w)
  | Unset => True
  end.
Proof.
  intros I Bk FB V. induction V as [|o os Vo V IH]; intros c w st H; cbn [hclient_run h_run]; [left; eauto|].
  pose proof (hstep_ok P A E B env n k m0 (allocs c) (pads c) o w st I Bk (FB c (w_mem w)) H Vo) as Q.
  destruct (hclient_step st o) as [[st1 r]| |]; cbn [agrees] in Q; [|left; rewrite Q; reflexivity|exact Logic.I].
  destruct Q as [(w1 & Q & H1)|[-> [Hm [h ->]]]]; cbn [bind].
  - rewrite Q. cbn [bind]. specialize (IH (S c) w1 st1 H1). destruct (hclient_run st1 os) as [[st2 rs]| |]; [| |exact Logic.I].
    + destruct IH as [(w2 & -> & H2)|[-> G]]; [left|right]; cbn [bind]; eauto using out_later.
    + destruct IH as [->|[-> G]]; [left|right]; cbn [bind]; eauto using out_later.
  - destruct (hclient_run st1 os) as [[st2 rs]| |]; [right|right|exact Logic.I]; auto using out_now.
Qed.
Lemma hinv_shows P A E B env n k m w st : In A word_alignments -> box_ok A B -> hinv P A E B env n k m w st ->
  (forall i x, (i < n)%nat -> cl_pos (hc_local st) i = Some x -> shows A E (w_mem w) (at_pos env i) x) /\
  (forall t l, (t < k)%nat -> cl_text (hc_local st) t = Some l -> string_at (w_mem w) (at_text env t) l) /\
  (forall id x0 x ms, hc_object st id = Some (x0, x, ms) -> exists a, w_live w id = Some (a, ms) /\ object_at A E B (w_mem w) a x0 x) /\
  (forall id, hc_object st id = None -> w_live w id = None) /\
  (forall y, ~ in_object B w y -> (forall v, variable n k v -> ~ in_variable A env v y) -> w_mem w y = m y).
Proof.
  intros I Bk H. destruct (hi_tracks _ _ _ _ _ _ _ _ _ _ H) as [T1 T2].
  assert (G : forall s x a, played P s -> aeq (abs s) x -> fields_at A E (w_mem w) a s -> shows A E (w_mem w) a x).
  { intros s x a Ps Ax F. apply (shows_aeq A E _ _ (abs s)); auto. apply shows_abs; auto. eapply played_wf; eauto. }
  split; [|split; [|split; [|split]]].
  - intros i x L Q. destruct (T1 i x L Q) as (s & Ps & Ax & F). eauto.
  - intros t l L Q. now apply T2.
  - intros id x0 x ms Q. pose proof (hi_obj _ _ _ _ _ _ _ _ _ _ H id) as O. rewrite Q in O. destruct (w_live w id) as [[a ms']|]; [|contradiction]. destruct O as [-> (_ & _ & (s0 & P0 & A0 & F0) & (s & Ps & Ax & F))].
    exists a. split; auto. split; eauto.
  - intros id Q. pose proof (hi_obj _ _ _ _ _ _ _ _ _ _ H id) as O. rewrite Q in O. destruct (w_live w id) as [[a ms']|]; [contradiction|auto].
  - apply H.
Qed.
Lemma out_of_run P A E B env allocs pads before h after w :
  match h_run P A E B env allocs pads 0 before w with Ret (w', _) => allocs (length before) (w_mem w') = None | _ => False end ->
  h_out_of_memory P A E B env allocs pads 0 (before ++ HNew h :: after) w.
Proof. destruct (h_run P A E B env allocs pads 0 before w) as [[w' rs]| |] eqn:Q; try contradiction. intros H. exists before, h, after, w', rs. auto. Qed.
(** C60: a C program that uses its pointers between [Position_startpos] and [Position_destruct] has no undefined behaviour; it stops only at
    a [Position_startpos] for which the allocator has no block. Results, variables and heap objects are those of the program over abstract positions, the objects
    left are those not destructed, and no other memory has changed. *)
Lemma c60_programs_pf : forall P A E B env n k allocs pads os m st rs, In A word_alignments -> box_ok A B -> (forall j, fresh_blocks A B (allocs j)) ->
  placed A env n k m -> Forall (hop_fine n k) os -> hclient_run hclient_start os = Fine (st, rs) ->
  match h_run P A E B env allocs pads 0 os (world_start m) with
  | Ret (w, rs') => rs' = rs /\
      (forall i x, (i < n)%nat -> cl_pos (hc_local st) i = Some x -> shows A E (w_mem w) (at_pos env i) x) /\
      (forall t l, (t < k)%nat -> cl_text (hc_local st) t = Some l -> string_at (w_mem w) (at_text env t) l) /\
      (forall id x0 x ms, hc_object st id = Some (x0, x, ms) -> exists a, w_live w id = Some (a, ms) /\ object_at A E B (w_mem w) a x0 x) /\
      (forall id, hc_object st id = None -> w_live w id = None) /\
      (forall y, ~ in_object B w y -> (forall v, variable n k v -> ~ in_variable A env v y) -> w_mem w y = m y)
  | Panic => h_out_of_memory P A E B env allocs pads 0 os (world_start m)
  | UB => False
  end.
Proof.
  intros P A E B env n k allocs pads os m st rs I Bk FB Pl V Q.
  pose proof (hrun_ok P A E B env n k m allocs pads os I Bk FB V 0%nat _ _ (hinv_start P A E B env n k m Pl)) as G. rewrite Q in G.
  destruct G as [(w & -> & H)|[-> G]]; [|exact G]. split; [reflexivity|]. now apply (hinv_shows P A E B env n k m w st).
Qed.
(** C60: using a pointer after [Position_destruct], a second [Position_destruct] or a pointer never set is undefined behaviour, unless the
    program stops before at a [Position_startpos] for which the allocator has no block. *)
Lemma c60_misuse_pf : forall P A E B env n k allocs pads os m, In A word_alignments -> box_ok A B -> (forall j, fresh_blocks A B (allocs j)) ->
  placed A env n k m -> Forall (hop_fine n k) os -> hclient_run hclient_start os = Misused ->
  match h_run P A E B env allocs pads 0 os (world_start m) with
  | Ret _ => False
  | Panic => h_out_of_memory P A E B env allocs pads 0 os (world_start m)
  | UB => True
  end.
Proof.
  intros P A E B env n k allocs pads os m I Bk FB Pl V Q.
  pose proof (hrun_ok P A E B env n k m allocs pads os I Bk FB V 0%nat _ _ (hinv_start P A E B env n k m Pl)) as G. rewrite Q in G.
  destruct G as [->|[-> G]]; [exact Logic.I|exact G].
Qed.
(** C60: and it does stop there: a program that comes to a [Position_startpos] for which the allocator has no block goes no further. *)
Lemma c60_out_of_memory_pf : forall P A E B env allocs pads os m,
  h_out_of_memory P A E B env allocs pads 0 os (world_start m) -> h_run P A E B env allocs pads 0 os (world_start m) = Panic.
Proof. intros. now apply out_panics. Qed.
(** C60: a program that has destructed every object has given all memory back. *)
Lemma c60_no_leak_pf : forall P A E B env n k allocs pads os m st rs w rs', In A word_alignments -> box_ok A B -> (forall j, fresh_blocks A B (allocs j)) ->
  placed A env n k m -> Forall (hop_fine n k) os -> hclient_run hclient_start os = Fine (st, rs) -> (forall id, hc_object st id = None) ->
  h_run P A E B env allocs pads 0 os (world_start m) = Ret (w, rs') -> forall y, w_mem w y = None <-> m y = None.
Proof.
  intros P A E B env n k allocs pads os m st rs w rs' I Bk FB Pl V Q D R y.
  pose proof (hrun_ok P A E B env n k m allocs pads os I Bk FB V 0%nat _ _ (hinv_start P A E B env n k m Pl)) as G. rewrite Q, R in G.
  destruct G as [(w' & Z & H)|[Z _]]; [|discriminate Z]. injection Z as <- <-. destruct (hinv_shows P A E B env n k m w st I Bk H) as (_ & _ & _ & L & M).
  assert (NO : ~ in_object B w y) by (intros (id & a & ms & Z & _); rewrite L in Z by auto; discriminate Z).
  assert (DV : (exists v, variable n k v /\ in_variable A env v y) \/ (forall v, variable n k v -> ~ in_variable A env v y)).
  { assert (F : forall c (f : nat -> nat + nat), (exists i, (i < c)%nat /\ in_variable A env (f i) y) \/ (forall i, (i < c)%nat -> ~ in_variable A env (f i) y)).
    { intros c f. induction c as [|c IHc]; [right; intros; lia|]. destruct IHc as [(i & Li & J)|N]; [left; exists i; split; [lia|auto]|].
      assert (DD : in_variable A env (f c) y \/ ~ in_variable A env (f c) y) by (unfold in_variable, in_region; lia). destruct DD as [DD|DD]; [left; exists c; auto|].
      right. intros i Li. destruct (Nat.eq_dec i c) as [->|]; auto. apply N. lia. }
    destruct (F n inl) as [(i & Li & J)|N1]; [left; exists (inl i); auto|]. destruct (F k inr) as [(i & Li & J)|N2]; [left; exists (inr i); auto|].
    right. intros [i|t] Vv; auto. }
  destruct DV as [(v & Vv & J)|DV]; [|rewrite M by auto; tauto].
  assert (AC : forall m', placed A env n k m' -> m' y <> None).
  { intros m' (_ & Ac & _) Z. destruct (Ac v Vv (y - fst (region A env v))) as [b Hb]; [unfold in_variable, in_region in J; lia|].
    unfold in_variable, in_region in J. replace (fst (region A env v) + (y - fst (region A env v))) with y in Hb by lia. congruence. }
  split; intros Z; exfalso; [apply (AC _ (hi_placed _ _ _ _ _ _ _ _ _ _ H) Z)|apply (AC _ Pl Z)].
Qed.

(** ** c_tests/position.c *)
Lemma strcmp_same l : forall n m p q, (length l < n)%nat -> string_at m p l -> string_at m q l -> strcmp n m p q = Ret 0%Z.
Proof.
  induction l as [|b l IH]; intros n m p q L [H1 Z1] [H2 Z2]; (destruct n as [|n]; [cbn in L; lia|]); cbn [strcmp].
  - cbn in Z1, Z2. rewrite N.add_0_r in Z1, Z2. unfold mem_read. rewrite Z1, Z2. reflexivity.
  - destruct (H1 0%nat b eq_refl) as [R1 NZ]. destruct (H2 0%nat b eq_refl) as [R2 _]. cbn in R1, R2. rewrite N.add_0_r in R1, R2. unfold mem_read. rewrite R1, R2. cbn [bind].
    rewrite N.eqb_refl. destruct (N.eqb_spec b 0) as [Z|Z]; [contradiction|]. apply IH; [cbn in L; lia| |].
    + split; [intros i c Q; destruct (H1 (S i) c Q) as [R Z']; split; auto; rewrite <- R; f_equal; lia|]. rewrite <- Z1. f_equal. cbn [length]. lia.
    + split; [intros i c Q; destruct (H2 (S i) c Q) as [R Z']; split; auto; rewrite <- R; f_equal; lia|]. rewrite <- Z2. f_equal. cbn [length]. lia.
Qed.
Lemma opening_text : sfen_text a_opening = bytes "lnsgkgsnl/1r5b1/ppppppppp/9/9/9/PPPPPPPPP/1B5R1/LNSGKGSNL b - 1".
Proof. vm_compute. reflexivity. Qed.
(** C61: the test program returns 0: both assertions hold, whatever the target, the padding, the contents of uninitialised memory
    and the place of the block; all memory is given back. It fails to return only if the allocator has no block when asked. *)
Lemma c61_main_pf : forall P A E B alloc pads pos buf lit1 lit2 m, In A word_alignments -> box_ok A B -> fresh_blocks A B alloc ->
  aligned A pos -> accessible m pos (position_size A) -> accessible m buf 200 ->
  (forall y, in_region pos (position_size A) y -> in_region buf 200 y -> False) ->
  (forall lit, lit = lit1 \/ lit = lit2 ->
     string_at m lit (bytes "lnsgkgsnl/1r5b1/ppppppppp/9/9/9/PPPPPPPPP/1B5R1/LNSGKGSNL b - 1") /\
     (forall y, in_region lit 64 y -> ~ in_region pos (position_size A) y /\ ~ in_region buf 200 y)) ->
  match c_main P A E B alloc pads pos buf lit1 lit2 (world_start m) with
  | Ret (w, status) => status = 0 /\ (forall id, w_live w id = None) /\ (forall y, w_mem w y = None <-> m y = None) /\
      (forall y, ~ in_region pos (position_size A) y -> ~ in_region buf 200 y -> w_mem w y = m y)
  | Panic => exists m', alloc m' = None /\ (forall y, m' y = None <-> m y = None) /\
      (forall y, ~ in_region pos (position_size A) y -> ~ in_region buf 200 y -> m' y = m y)
  | UB => False
  end.
Proof.
  intros P A E B alloc pads pos buf lit1 lit2 m I Bk FB Al Ac Ab D LIT. rewrite <- opening_text in LIT.
  set (env := CEnv (fun _ => pos) (fun _ => buf)).
  assert (Pl : forall m', accessible m' pos (position_size A) -> accessible m' buf 200 -> placed A env 1 1 m').
  { intros m' A1 A2. split; [intros; exact Al|]. split.
    - intros [i|t] V j L; cbn [region fst snd env at_pos at_text] in *; [now apply A1|]. apply A2. lia.
    - intros [i|t] [j|u] x V W N; unfold in_variable; cbn [variable region fst snd env at_pos at_text] in *; intros X Y.
      + apply N. f_equal. lia.
      + apply (D x X). unfold in_region in *. lia.
      + apply (D x Y). unfold in_region in *. lia.
      + apply N. f_equal. lia. }
  assert (TR0 : tracks P A E env 1 1 m client_start) by (split; intros; discriminate).
  unfold c_main. cbn [world_start w_mem].
  destruct (step_ok P A E env 1 1 (pads 0%nat) (CStartpos 0) m client_start _ _ I (Pl m Ac Ab) TR0 (Nat.lt_0_succ 0) eq_refl) as (m1 & S1 & T1 & O1).
  cbn [c_step env at_pos] in S1. destruct (PartialPosition_startpos P A E (pads 0%nat) m pos) as [m1'| |]; try discriminate S1. cbn [bind] in S1. injection S1 as ->. cbn [bind].
  pose proof (placed_outside A env 1 1 m m1 (Pl m Ac Ab) O1) as Pl1.
  destruct (step_ok P A E env 1 1 (pads 0%nat) (CToSfen 0 0) m1 (set_pos client_start 0 a_opening) _ _ I Pl1 T1 (conj (Nat.lt_0_succ 0) (Nat.lt_0_succ 0)) eq_refl) as (m2 & S2 & T2 & O2).
  cbn [c_step env at_pos at_text] in S2. destruct (PartialPosition_to_sfen_c P A E m1 pos buf) as [m2'| |]; try discriminate S2. cbn [bind] in S2. injection S2 as ->. cbn [bind].
  destruct (proj2 T2 0%nat (sfen_text a_opening) (Nat.lt_0_succ 0) eq_refl) as [B2 _]. cbn [env at_text] in B2.
  pose proof (outside_trans A env 1 1 m m1 m2 O1 O2) as O12.
  assert (VAR : forall y, ~ in_region pos (position_size A) y -> ~ in_region buf 200 y -> forall v, variable 1 1 v -> ~ in_variable A env v y).
  { intros y N1 N2 [i|t] V; unfold in_variable; cbn [region fst snd env at_pos at_text]; auto. intros Y. apply N2. unfold in_region in *. lia. }
  assert (L63 : length (sfen_text a_opening) = 63%nat) by (vm_compute; reflexivity).
  assert (KEEP : forall m', (forall y, ~ in_region pos (position_size A) y -> ~ in_region buf 200 y -> m' y = m y) -> forall lit, lit = lit1 \/ lit = lit2 -> string_at m' lit (sfen_text a_opening)).
  { intros m' F lit Q. destruct (LIT lit Q) as [S N]. apply (string_frame m m' lit _ 64); auto; [rewrite L63; lia|]. intros i L. destruct (N (lit + i)); [unfold in_region; lia|]. now apply F. }
  assert (K2 : forall y, ~ in_region pos (position_size A) y -> ~ in_region buf 200 y -> m2 y = m y) by (intros y N1 N2; apply (proj1 O12); now apply VAR).
  rewrite (strcmp_same (sfen_text a_opening)); [|rewrite L63; lia|exact B2|apply KEEP; auto]. cbn [bind]. change (c_assert (0 =? 0)%Z) with (@Ret unit tt). cbn [bind].
  assert (AC2 : forall b l, accessible m b l -> accessible m2 b l).
  { intros b l H i L. destruct (m2 (b + i)) eqn:Z; [eauto|]. apply (proj2 O12) in Z. destruct (H i L). congruence. }
  destruct (c48_memset_pf m2 buf 0%Z 200 ltac:(lia) (AC2 _ _ Ab)) as (m3 & v & -> & _ & _ & [F1 F2]). cbn [bind].
  assert (N3 : forall y, m3 y = None <-> m y = None).
  { intros y. rewrite <- (proj2 O12 y). assert (DD : in_region buf 200 y \/ ~ in_region buf 200 y) by (unfold in_region; lia). destruct DD as [DD|DD]; [|rewrite F2 by auto; tauto].
    unfold in_region in DD. destruct (AC2 _ _ Ab (y - buf)) as [z Z]; [lia|]. replace (buf + (y - buf)) with y in Z by lia. rewrite Z.
    specialize (F1 (y - buf) ltac:(lia)). replace (buf + (y - buf)) with y in F1 by lia. rewrite F1. split; discriminate. }
  assert (AC3 : forall b l, accessible m b l -> accessible m3 b l).
  { intros b l H i L. destruct (m3 (b + i)) eqn:Z; [eauto|]. apply N3 in Z. destruct (H i L). congruence. }
  assert (K3 : forall y, ~ in_region pos (position_size A) y -> ~ in_region buf 200 y -> m3 y = m y) by (intros y X1 X2; rewrite F2 by auto; auto).
  change (with_mem (world_start m) m3) with (world_start m3).
  pose proof (hinv_start P A E B env 1 1 m3 (Pl m3 (AC3 _ _ Ac) (AC3 _ _ Ab))) as H3.
  pose proof (hstep_ok P A E B env 1 1 m3 alloc (pads 1%nat) (HNew 0) _ _ I Bk (FB _) H3 Logic.I) as Q4. cbn [h_step hclient_step agrees] in Q4.
  destruct (Position_startpos P A E B alloc (pads 1%nat) (world_start m3)) as [[w4 id]| |]; cbn [bind] in Q4 |- *.
  2:{ destruct Q4 as [(w' & Z & _)|[_ [G _]]]; [discriminate Z|]. exists m3. auto. }
  2:{ destruct Q4 as [(w' & Z & _)|[Z G]]; discriminate Z. }
  destruct Q4 as [(w' & Z & H4)|[Z _]]; [|discriminate Z]. apply (f_equal (fun r => match r with Ret (x, _) => x | _ => w4 end)) in Z. cbn beta iota in Z. subst w'. set (w := set_handle w4 0 (Some id)) in *.
  pose proof (hstep_ok P A E B env 1 1 m3 alloc (pads 1%nat) (HText 0 0) _ _ I Bk (FB _) H4 (Nat.lt_0_succ 0)) as Q5. cbn [h_step hclient_step] in Q5. cbv beta iota delta [on_object object_of hc_handle hc_object put_handle Nat.eqb hclient_start hc_next N.eqb] in Q5. cbn [agrees] in Q5.
  cbn [env at_text] in Q5. cbv zeta.
  destruct (Position_to_sfen_c P A E B w (w_handle w 0%nat) buf) as [w5| |]; cbn [bind] in Q5 |- *; [|destruct Q5 as [(w' & Z & _)|[_ [_ [h' G]]]]; [discriminate Z|discriminate G]|destruct Q5 as [(w' & Z & _)|[Z G]]; discriminate Z].
  destruct Q5 as [(w' & Z & H5)|[Z _]]; [|discriminate Z]. injection Z as <-.
  pose proof (hstep_ok P A E B env 1 1 m3 alloc (pads 1%nat) (HFree 0) _ _ I Bk (FB _) H5 Logic.I) as Q6. cbn [h_step hclient_step] in Q6. cbv beta iota delta [on_object object_of hc_handle hc_object put_local put_handle Nat.eqb hclient_start hc_next N.eqb] in Q6. cbn [agrees] in Q6.
  assert (Hw : w_handle w5 0%nat = Some 0) by (rewrite (hi_handle _ _ _ _ _ _ _ _ _ _ H5 0%nat); reflexivity).
  rewrite Hw in *.
  destruct (Position_destruct B w5 (Some 0)) as [w6| |]; cbn [bind] in Q6 |- *; [|destruct Q6 as [(w' & Z & _)|[_ [_ [h' G]]]]; [discriminate Z|discriminate G]|destruct Q6 as [(w' & Z & _)|[Z G]]; discriminate Z].
  destruct Q6 as [(w' & Z & H6)|[Z _]]; [|discriminate Z]. injection Z as <-.
  destruct (hinv_shows P A E B env 1 1 m3 w6 _ I Bk H6) as (_ & SX & _ & LV & MM).
  specialize (SX 0%nat (sfen_text a_opening) (Nat.lt_0_succ 0) eq_refl). cbn [env at_text] in SX.
  assert (LN : forall id', w_live w6 id' = None).
  { intros id'. apply LV. cbn [hc_object put_object put_local]. cbv beta iota delta [hc_object put_object put_local put_handle hclient_start hc_next]. destruct id'; reflexivity. }
  assert (NO : forall y, ~ in_object B w6 y) by (intros y (id' & a & ms & Z & _); rewrite LN in Z; discriminate Z).
  assert (K6 : forall y, ~ in_region pos (position_size A) y -> ~ in_region buf 200 y -> w_mem w6 y = m y).
  { intros y X1 X2. rewrite MM; auto. }
  rewrite (strcmp_same (sfen_text a_opening)); [|rewrite L63; lia|exact SX|apply KEEP; auto]. cbn [bind]. change (c_assert (0 =? 0)%Z) with (@Ret unit tt). cbn [bind].
  split; [reflexivity|]. split; [exact LN|]. split; [|exact K6].
  intros y. rewrite <- N3.
  assert (DV : (exists v, variable 1 1 v /\ in_variable A env v y) \/ (forall v, variable 1 1 v -> ~ in_variable A env v y)).
  { assert (DP : in_region pos (position_size A) y \/ ~ in_region pos (position_size A) y) by (unfold in_region; lia).
    assert (DB : in_region buf 139 y \/ ~ in_region buf 139 y) by (unfold in_region; lia).
    destruct DP as [DP|DP]; [left; exists (inl 0%nat); split; [exact (Nat.lt_0_succ 0)|exact DP]|]. destruct DB as [DB|DB]; [left; exists (inr 0%nat); split; [exact (Nat.lt_0_succ 0)|exact DB]|].
    right. intros [i|t] _; [exact DP|exact DB]. }
  destruct DV as [(x & Vx & J)|DV]; [|rewrite MM by auto; tauto].
  assert (ACC : forall m', placed A env 1 1 m' -> m' y <> None).
  { intros m' (_ & AA & _) Z. destruct (AA x Vx (y - fst (region A env x))) as [b Hb]; [unfold in_variable, in_region in J; lia|].
    unfold in_variable, in_region in J. replace (fst (region A env x) + (y - fst (region A env x))) with y in Hb by lia. congruence. }
  split; intros Z; exfalso; [apply (ACC _ (hi_placed _ _ _ _ _ _ _ _ _ _ H6) Z)|]. apply (ACC m3 (Pl m3 (AC3 _ _ Ac) (AC3 _ _ Ab)) Z).
Qed.
