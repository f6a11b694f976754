(*PROPHEAD
Property theorems C66: C programs over the whole library
From Verif Require Import LSampleP.
*)
(** C66: C programs over the whole library. *)
From Coq Require Import String.
From Verif Require Import TPosition TSfen LExt LRuntime TRuntime TClient TCall THeap.
From Verif Require Export SpecProgram.
Close Scope string_scope.
Notation length := List.length.

(** ** Memory that only the hands and bitboards are in *)
Definition opt_eq_dec (a b : option N) : {a = b} + {a <> b}.
Proof. decide equality. apply N.eq_dec. Defined.
(** [m] is [m0] with the changes from [m1] to [m2] *)
Definition merge (m0 m1 m2 : mem) : mem := fun y => if opt_eq_dec (m1 y) (m2 y) then m0 y else match m0 y with Some _ => m2 y | None => None end.
Lemma hinv_frame P A E B env n k m0 w st m' : In A word_alignments -> box_ok A B -> hinv P A E B env n k m0 w st ->
  (forall v y, variable n k v -> in_variable A env v y -> m' y = w_mem w y) -> (forall y, SpecHeap.in_object B w y -> m' y = w_mem w y) ->
  (forall y, m' y = None <-> w_mem w y = None) ->
  hinv P A E B env n k (merge m0 (w_mem w) m') (with_mem w m') st.
Proof.
  intros I Bk H V O D. constructor; cbn [with_mem w_mem w_live w_next w_handle]; try apply H.
  - destruct (hi_placed _ _ _ _ _ _ _ _ _ _ H) as (P1 & P2 & P3). split; auto. split; auto. intros v Vv i Li. rewrite (V v); [now apply P2|exact Vv|unfold in_variable, in_region; lia].
  - apply (tracks_frame P A E env n k (w_mem w)); auto. apply H.
  - intros id. pose proof (hi_obj _ _ _ _ _ _ _ _ _ _ H id) as Q. destruct (w_live w id) as [[a ms]|] eqn:L; [|exact Q].
    destruct (hc_object st id) as [[[x0 x] ms']|]; [|exact Q]. destruct Q as [Q1 Q2]. split; auto. apply (obj_frame P A E B (w_mem w)); auto.
    intros y Y. apply O. eapply in_object_intro; eauto.
  - intros id a ms y L Y. unfold merge. destruct (opt_eq_dec (w_mem w y) (m' y)) as [_|N]; [eapply (hi_fresh _ _ _ _ _ _ _ _ _ _ H); eauto|].
    destruct N. symmetry. apply O. eapply in_object_intro; eauto.
  - intros y N Vv. unfold merge. pose proof (hi_mem _ _ _ _ _ _ _ _ _ _ H y N Vv) as Q. destruct (opt_eq_dec (w_mem w y) (m' y)) as [<-|C]; [exact Q|].
    destruct (m0 y); [reflexivity|]. now apply D.
  - destruct (hi_init _ _ _ _ _ _ _ _ _ _ H) as (P1 & P2 & P3). split; auto. split; auto. intros v Vv i Li. unfold merge.
    destruct (opt_eq_dec _ _) as [_|N]; [now apply P2|]. destruct N. symmetry. apply (V v); auto. unfold in_variable, in_region. lia.
Qed.

(** ** The invariant. [m1] is what the memory would be with only the hands and bitboards changed *)
Record pinv (P : profile) (A : N) (E : endian) (B : box_layout) (env : p_env) (Z : p_size) (m0 m1 : mem) (w : p_world) (st : p_state) : Prop := {
  pi_heap : hinv P A E B (p_positions env) (sz_pos Z) (sz_text Z) m1 (pw_heap w) (ps_heap st);
  pi_val : TCall.inv A E (p_objects env) (sz_hand Z) (sz_bits Z) (pw_values w) (ps_val st);
  pi_apart : forall v o y, variable (sz_pos Z) (sz_text Z) v -> v_known (sz_hand Z) (sz_bits Z) o ->
    in_variable A (p_positions env) v y -> SpecCall.in_object (p_objects env) o y -> False;
  pi_same : untouched (p_objects env) (sz_hand Z) (sz_bits Z) m0 m1;
  pi_init : v_placed A (p_objects env) (sz_hand Z) (sz_bits Z) m0
}.
Lemma object_bytes P A E B env Z m1 w st : hinv P A E B (p_positions env) (sz_pos Z) (sz_text Z) m1 w st ->
  (forall v o y, variable (sz_pos Z) (sz_text Z) v -> v_known (sz_hand Z) (sz_bits Z) o ->
    in_variable A (p_positions env) v y -> SpecCall.in_object (p_objects env) o y -> False) ->
  v_placed A (p_objects env) (sz_hand Z) (sz_bits Z) m1 ->
  forall o y, v_known (sz_hand Z) (sz_bits Z) o -> SpecCall.in_object (p_objects env) o y -> w_mem w y = m1 y /\ ~ SpecHeap.in_object B w y.
Proof.
  intros H D (_ & Ac & _) o y K Y.
  assert (N : ~ SpecHeap.in_object B w y).
  { intros (id & a & ms & L & R). pose proof (hi_fresh _ _ _ _ _ _ _ _ _ _ H id a ms y L R) as F.
    unfold SpecCall.in_object, in_region in Y. destruct (Ac o K (y - fst (v_region (p_objects env) o))) as [b Q]; [lia|].
    replace (fst (v_region (p_objects env) o) + (y - fst (v_region (p_objects env) o))) with y in Q by lia. congruence. }
  split; [|exact N]. apply (hi_mem _ _ _ _ _ _ _ _ _ _ H); auto. intros v V J. eapply D; eauto.
Qed.
Lemma val_frame A E env n k w w' st : TCall.inv A E env n k w st -> (forall x, v_var w' x = v_var w x) ->
  (forall o y, v_known n k o -> SpecCall.in_object env o y -> v_mem w' y = v_mem w y) -> TCall.inv A E env n k w' st.
Proof.
  intros ((S1 & S2 & S3) & (So1 & So2) & (P1 & P2 & P3)) V F.
  assert (G : forall o i, v_known n k o -> i < snd (v_region env o) -> v_mem w' (fst (v_region env o) + i) = v_mem w (fst (v_region env o) + i)).
  { intros o i K L. apply (F o); auto. unfold SpecCall.in_object, in_region. lia. }
  split; [|split; [split; auto|]].
  - split; [intros x; rewrite V; apply S1|]. split.
    + intros i bs L Q. pose proof (So1 i bs Q) as Vb. apply hand_ints_valid in Vb. apply (hand_frame (v_mem w)); [apply Vb| |now apply S2]. intros j Lj. now apply (G (HandObject i)).
    + intros i w0 w1 L Q. apply (bits_frame E (v_mem w)); [|now apply S3]. intros j Lj. now apply (G (BitsObject i)).
  - split; auto. split; auto. intros o K i L. rewrite G by auto. now apply P2.
Qed.
Lemma pinv_heap P A E B env Z m0 m1 w st h' hs' x v t : pinv P A E B env Z m0 m1 w st ->
  hinv P A E B (p_positions env) (sz_pos Z) (sz_text Z) m1 h' hs' ->
  pinv P A E B env Z m0 m1 (set_pw_var (PWorld h' (pw_var w) t) x v) (PState hs' (let_var (ps_val st) x v)).
Proof.
  intros [H V D S I] H'. pose proof (placed_untouched A _ _ _ _ _ I S) as Pl. constructor; cbn [set_pw_var pw_heap ps_heap ps_val]; auto.
  apply (TCall.inv_var A E _ _ _ (VWorld (w_mem h') (pw_var w)) (ps_val st) x v). apply (val_frame A E _ _ _ (pw_values w)); auto.
  intros o y K Y. cbn [v_mem pw_values]. rewrite (proj1 (object_bytes P A E B env Z m1 h' hs' H' D Pl o y K Y)).
  symmetry. apply (object_bytes P A E B env Z m1 (pw_heap w) (ps_heap st) H D Pl o y K Y).
Qed.
Lemma pinv_var P A E B env Z m0 m1 w st x v : pinv P A E B env Z m0 m1 w st ->
  pinv P A E B env Z m0 m1 (set_pw_var w x v) (PState (ps_heap st) (let_var (ps_val st) x v)).
Proof. intros H. destruct w as [h vs t]. apply (pinv_heap P A E B env Z m0 m1 (PWorld h vs t) st h (ps_heap st) x v t H). apply H. Qed.
Lemma pinv_value P A E B env Z m0 m1 w st o v' : In A word_alignments -> box_ok A B -> pinv P A E B env Z m0 m1 w st -> op_within (sz_hand Z) (sz_bits Z) o ->
  v_meaning (ps_val st) o = Some v' ->
  exists vw m2, v_step P A E (p_objects env) o (pw_values w) = Ret vw /\
    pinv P A E B env Z m0 m2 (PWorld (with_mem (pw_heap w) (v_mem vw)) (v_var vw) (pw_tick w)) (PState (ps_heap st) v').
Proof.
  intros Ia Bk [H V D S I] W M. pose proof (placed_untouched A _ _ _ _ _ I S) as Pl.
  destruct (TCall.step_ok P A E (p_objects env) (sz_hand Z) (sz_bits Z) (pw_values w) (ps_val st) o v' V W M) as (vw & Q & V' & [U1 U2]).
  cbn [pw_values v_mem] in U1, U2.
  assert (Uv : forall v y, variable (sz_pos Z) (sz_text Z) v -> in_variable A (p_positions env) v y -> v_mem vw y = w_mem (pw_heap w) y).
  { intros v y K J. apply U1. intros o' K' J'. eapply D; eauto. }
  assert (Uo : forall y, SpecHeap.in_object B (pw_heap w) y -> v_mem vw y = w_mem (pw_heap w) y).
  { intros y Y. apply U1. intros o' K' J'. exact (proj2 (object_bytes P A E B env Z m1 (pw_heap w) (ps_heap st) H D Pl o' y K' J') Y). }
  exists vw, (merge m1 (w_mem (pw_heap w)) (v_mem vw)). split; [exact Q|]. constructor; cbn [pw_heap ps_heap ps_val]; auto.
  - now apply hinv_frame.
  - destruct S as [S1 S2]. split.
    + intros y N. unfold merge. destruct (opt_eq_dec _ _) as [_|C]; [now apply S1|]. destruct C. symmetry. now apply U1.
    + intros y. unfold merge. destruct (opt_eq_dec (w_mem (pw_heap w) y) (v_mem vw y)) as [_|C]; [apply S2|].
      rewrite <- S2. destruct (m1 y) as [b|]; [|tauto]. split; [|discriminate]. intros Nn. destruct C. rewrite Nn. now apply U2.
Qed.

(** ** Arguments *)
Lemma arg_int A E env n k w st a ok i : TCall.inv A E env n k w st -> int_arg ok st a = Some i -> arg_value env w a = Ret (VInt i) /\ ok i = true.
Proof.
  intros ((S & _) & _) H. unfold int_arg in H. destruct (arg_of st a) as [v|] eqn:Q; [|discriminate H]. destruct v; try discriminate H.
  destruct (ok n0) eqn:O; [|discriminate H]. injection H as <-. destruct (arg_ok env w st a _ S Q) as (v' & -> & L). cbn [like] in L. subst v'. auto.
Qed.
Lemma piece_ok n : piece_int n = true -> as_piece (VInt n) = Ret (Piece n) /\ valid_piece (Piece n).
Proof.
  unfold piece_int. rewrite orb_true_iff, !within_iff. intros H. split.
  - unfold as_piece, nonzero_new_unchecked. cbn [as_int bind]. destruct (N.eqb_spec n 0); [lia|reflexivity].
  - unfold valid_piece. cbn [piece_repr]. lia.
Qed.
Lemma move_ok n : move_int n = true -> as_move (VInt n) = Ret (CompactMove n) /\ valid_compact (CompactMove n).
Proof. intros H. destruct (as_move_ok n H) as (mv & V & -> & Q). split; [exact Q|]. exists mv. auto. Qed.
Lemma color_ok n : color_int n = true -> as_color (VInt n) = Ret (color_of_number n) /\ color_number (color_of_number n) = n.
Proof. unfold color_int. rewrite within_iff. intros H. assert (n = 1 \/ n = 2) as [-> | ->] by lia; split; reflexivity. Qed.

(** ** Answers *)
Lemma words_ext f g : (forall sq, f sq = g sq) -> board_words f = board_words g.
Proof.
  intros H. unfold board_words.
  assert (G : forall lo hi, map (fun sq => if f sq && (lo <=? sq_repr sq) && (sq_repr sq <=? hi) then 2 ^ (sq_repr sq - lo) else 0) squares =
                            map (fun sq => if g sq && (lo <=? sq_repr sq) && (sq_repr sq <=? hi) then 2 ^ (sq_repr sq - lo) else 0) squares)
    by (intros; apply map_ext; intros; now rewrite H).
  now rewrite !G.
Qed.
Lemma squares_ext f g : (forall sq, f sq = g sq) -> squares_val f = c_value (CSquares (board_words g)).
Proof. intros H. unfold squares_val. rewrite (words_ext f g H). reflexivity. Qed.
Lemma occupied_split x sq : occupied x sq = of_color x Black sq || of_color x White sq.
Proof. unfold occupied, of_color. destruct (a_board x sq) as [[k []]|]; reflexivity. Qed.
Lemma player_set x n sq : color_int n = true -> match a_board x sq with Some (_, c) => color_number c =? n | None => false end = of_color x (color_of_number n) sq.
Proof.
  unfold color_int. rewrite within_iff. intros H. unfold of_color. destruct (a_board x sq) as [[k c]|]; [|reflexivity].
  assert (n = 1 \/ n = 2) as [-> | ->] by lia; destruct c; reflexivity.
Qed.
Lemma piece_set x n sq : piece_int n = true -> (piece_byte (a_board x sq) =? n) = of_color x (color_of (Piece n)) sq && of_kind x (kind_of (Piece n)) sq.
Proof.
  intros H. unfold of_color, of_kind. destruct (a_board x sq) as [[k c]|]; cbn [piece_byte].
  - assert (G : forallb (fun n => negb (piece_int n) || Bool.eqb (piece_repr (the_piece (k, c)) =? n) (same_color c (color_of (Piece n)) && same_kind k (kind_of (Piece n)))) (range 0 31) = true)
      by (destruct k, c; vm_compute; reflexivity).
    rewrite forallb_forall in G. specialize (G n). rewrite range_In, H in G. apply eqb_prop, G.
    unfold piece_int in H. rewrite orb_true_iff, !within_iff in H. lia.
  - unfold piece_int in H. rewrite orb_true_iff, !within_iff in H. destruct (N.eqb_spec 0 n); [lia|reflexivity].
Qed.
Lemma kind_set x n k sq : kind_number k = n -> match a_board x sq with Some (l, _) => kind_number l =? n | None => false end = of_kind x k sq.
Proof. intros <-. unfold of_kind. destruct (a_board x sq) as [[l c]|]; [|reflexivity]. destruct l, k; reflexivity. Qed.
Definition ask_fine (q : h_ask) : Prop := match q with HPieceAt sq => valid_square sq | HPieces p => valid_piece p | _ => True end.
Lemma reply_ok A E env n k w st q f : TCall.inv A E (p_objects env) n k (pw_values w) st -> a_reply st q = Some f ->
  exists ha, query_of env w q = Ret ha /\ ask_fine ha /\ forall x, f x = c_value (a_answer ha x).
Proof.
  intros V H. destruct q as [a| | |a| | | |a|a]; cbn [a_reply query_of] in *;
    try (destruct (int_arg _ st a) as [i|] eqn:Q; [|discriminate H]; destruct (arg_int _ _ _ _ _ _ _ _ _ _ V Q) as [-> Oi]; cbn [option_map bind] in *);
    apply some_inj in H; subst f.
  - destruct (as_square_ok i Oi) as [-> Vs]. cbn [bind]. exists (HPieceAt (Square i)). auto.
  - exists HPly. cbn. auto.
  - exists HSideToMove. repeat split.
  - destruct (color_ok i Oi) as [-> Vs]. cbn [bind]. exists (HHand (color_of_number i)). cbn [ask_fine]. auto.
  - exists HLastMove. cbn. auto.
  - exists HOccupied. (split; [reflexivity|split; [exact Logic.I|]]). intros x. apply squares_ext. apply occupied_split.
  - exists HVacant. (split; [reflexivity|split; [exact Logic.I|]]). intros x. apply squares_ext. intros sq. now rewrite occupied_split.
  - destruct (color_ok i Oi) as [-> Vs]. cbn [bind]. exists (HPlayer (color_of_number i)). (split; [reflexivity|split; [exact Logic.I|]]). intros x. apply squares_ext. intros sq. now apply player_set.
  - destruct (piece_ok i Oi) as [-> Vs]. cbn [bind]. exists (HPieces (Piece i)). split; [reflexivity|]. split; [exact Vs|]. intros x. apply squares_ext. intros sq. now apply piece_set.
Qed.
Lemma pp_ask_ok P s x q : played P s -> aeq (abs s) x -> ask_fine q -> pp_ask P q s = Ret (a_answer q x).
Proof. intros Ps Ax F. rewrite <- (answer_ok P s x s [] q Ps Ax F). destruct q; reflexivity. Qed.

(** ** Places *)
Lemma place_ok P A E B env Z m1 w st pl : In A word_alignments -> box_ok A B -> hinv P A E B (p_positions env) (sz_pos Z) (sz_text Z) m1 w st -> place_within Z pl ->
  match on_place st pl (fun x => x) with
  | Fine x => exists p s, place_address B env w pl = Ret p /\ load_pp A E (w_mem w) p = Ret s /\ played P s /\ aeq (abs s) x
  | Misused => place_address B env w pl = UB
  | Unset => True
  end.
Proof.
  intros I Bk H W. destruct pl as [i|h|h]; cbn [on_place place_address place_within] in *.
  - destruct (cl_pos (hc_local st) i) as [x|] eqn:Q; [|exact Logic.I]. destruct (hi_tracks _ _ _ _ _ _ _ _ _ _ H) as [T _].
    destruct (T i x W Q) as (s & Ps & Ax & F). exists (at_pos (p_positions env) i), s. split; [reflexivity|]. split; [|auto].
    pose proof (played_wf P s Ps). apply load_ok; auto. now apply (hi_placed _ _ _ _ _ _ _ _ _ _ H).
  - unfold on_object, Position_inner. pose proof (deref_ok _ _ _ _ _ _ _ _ _ _ h H) as Q.
    destruct (object_of st h) as [[id [[x0 x] ms]]|]; [|rewrite Q; reflexivity]. destruct Q as (a & -> & L & O & Ho). cbn [bind].
    destruct (obj_loads P A E B (w_mem w) a x0 x I Bk O) as (s0 & s & P0 & Ps & A0 & Ax & L0 & Ls & _). exists (a + bx_inner B), s. auto.
  - unfold on_object, Position_initial_position. pose proof (deref_ok _ _ _ _ _ _ _ _ _ _ h H) as Q.
    destruct (object_of st h) as [[id [[x0 x] ms]]|]; [|rewrite Q; reflexivity]. destruct Q as (a & -> & L & O & Ho). cbn [bind].
    destruct (obj_loads P A E B (w_mem w) a x0 x I Bk O) as (s0 & s & P0 & Ps & A0 & Ax & L0 & Ls & _). exists (a + bx_initial B), s0. auto.
Qed.
Lemma on_place_map {T} st pl (f : apos -> T) :
  on_place st pl f = match on_place st pl (fun x => x) with Fine x => Fine (f x) | Misused => Misused | Unset => Unset end.
Proof.
  destruct pl as [i|h|h]; cbn [on_place]; [destruct (cl_pos _ i); reflexivity| |]; unfold on_object; destruct (object_of st h) as [[id [[x0 x] ms]]|]; reflexivity.
Qed.

(** ** Calls *)
Definition agrees_p (P : profile) (A : N) (E : endian) (B : box_layout) (env : p_env) (Z : p_size) (m1 : mem) (block : option N) (c : p_call)
    (a : outcome (hclient * c_val)) (r : res (world * c_val)) : Prop :=
  match a with
  | Fine (h', v) => (exists w', r = Ret (w', v) /\ hinv P A E B (p_positions env) (sz_pos Z) (sz_text Z) m1 w' h') \/ (r = Panic /\ block = None /\ exists h, c = QStartpos h)
  | Misused => r = UB
  | Unset => True
  end.
Lemma agrees_h P A E B env Z m1 block c o a r b s : THeap.agrees P A E B (p_positions env) (sz_pos Z) (sz_text Z) m1 block o a r ->
  match o with HNew h => c = QStartpos h | _ => True end ->
  b = match a with Fine (h', v) => Fine (h', c_value v) | Misused => Misused | Unset => Unset end ->
  s = ('(w', v) <- r;; Ret (w', c_value v)) -> agrees_p P A E B env Z m1 block c b s.
Proof.
  intros H K -> ->. destruct a as [[h' v]| |]; cbn [agrees agrees_p] in *; [|now rewrite H|exact Logic.I].
  destruct H as [(w' & -> & H)|(-> & Hm & h & ->)]; cbn [bind]; eauto.
Qed.
Lemma p_step_ok P A E B env Z m0 m1 alloc pad c w st : In A word_alignments -> box_ok A B ->
  (forall a, alloc (w_mem (pw_heap w)) = Some a -> aligned A a /\ forall x, in_region a (bx_size B) x -> w_mem (pw_heap w) x = None) ->
  pinv P A E B env Z m0 m1 w st -> call_within Z c ->
  agrees_p P A E B env Z m1 (alloc (w_mem (pw_heap w))) c (p_meaning st c) (p_step P A E B env alloc pad c w).
Proof.
  intros I Bk FB [H V D S _] W.
  pose proof (fun o => hstep_ok P A E B (p_positions env) (sz_pos Z) (sz_text Z) m1 alloc pad o (pw_heap w) (ps_heap st) I Bk FB H) as HS.
  pose proof (fun pl => place_ok P A E B env Z m1 (pw_heap w) (ps_heap st) pl I Bk H) as PL.
  pose proof (hi_placed _ _ _ _ _ _ _ _ _ _ H) as Pl. pose proof (hi_tracks _ _ _ _ _ _ _ _ _ _ H) as Tr.
  destruct c as [i|i a|i pl|pl q|pl a|pl t|h|h|h g|h a|h q|h t]; cbn [call_within] in W; unfold p_meaning, p_step; cbv zeta.
  - refine (agrees_h _ _ _ _ _ _ _ _ _ _ _ _ _ _ (HS (HLocal (CStartpos i)) W) Logic.I _ _); reflexivity.
  - destruct (int_arg move_int (ps_val st) a) as [n|] eqn:Q; [|exact Logic.I]. destruct (arg_int _ _ _ _ _ _ _ _ _ _ V Q) as [-> On]. cbn [bind].
    destruct (move_ok n On) as [-> Vm]. cbn [bind].
    refine (agrees_h _ _ _ _ _ _ _ _ _ _ _ _ _ _ (HS (HLocal (CMove i (CompactMove n))) (conj W Vm)) Logic.I _ eq_refl). cbn [hclient_step client_step].
    destruct (cl_pos (hc_local (ps_heap st)) i) as [x|]; [|reflexivity]. destruct (a_try x (unpack (CompactMove n))) as [x' b]. reflexivity.
  - destruct W as [Wi Wp]. destruct pl as [j|h|h]; cbn [on_place place_address bind place_within] in *.
    + refine (agrees_h _ _ _ _ _ _ _ _ _ _ _ _ _ _ (HS (HLocal (CAssign i j)) (conj Wi Wp)) Logic.I _ _); cbn [hclient_step client_step h_step c_step].
      * destruct (cl_pos (hc_local (ps_heap st)) j); reflexivity.
      * destruct (c_assign A _ _ _); reflexivity.
    + refine (agrees_h _ _ _ _ _ _ _ _ _ _ _ _ _ _ (HS (HInner i h) Wi) Logic.I _ _); cbn [hclient_step h_step].
      * unfold on_object. destruct (object_of (ps_heap st) h) as [[id [[x0 x] ms]]|]; reflexivity.
      * destruct (Position_inner B (pw_heap w) (w_handle (pw_heap w) h)); cbn [bind]; [|reflexivity|reflexivity]. destruct (c_assign A _ _ _); reflexivity.
    + refine (agrees_h _ _ _ _ _ _ _ _ _ _ _ _ _ _ (HS (HInitial i h) Wi) Logic.I _ _); cbn [hclient_step h_step].
      * unfold on_object. destruct (object_of (ps_heap st) h) as [[id [[x0 x] ms]]|]; reflexivity.
      * destruct (Position_initial_position B (pw_heap w) (w_handle (pw_heap w) h)); cbn [bind]; [|reflexivity|reflexivity]. destruct (c_assign A _ _ _); reflexivity.
  - destruct (a_reply (ps_val st) q) as [f|] eqn:Q; [|exact Logic.I]. destruct (reply_ok _ _ _ _ _ _ _ _ _ V Q) as (ha & -> & Fa & Rf). cbn [bind].
    rewrite on_place_map. specialize (PL pl W). destruct (on_place (ps_heap st) pl (fun x => x)) as [x| |]; [|rewrite PL; reflexivity|exact Logic.I].
    destruct PL as (p & s & -> & Ld & Ps & Ax). unfold pp_query. cbn [bind]. rewrite Ld. cbn [bind]. rewrite (pp_ask_ok P s x ha Ps Ax Fa). cbn [bind agrees_p]. rewrite Rf. eauto.
  - destruct (int_arg kind_int (ps_val st) a) as [n|] eqn:Q; [|exact Logic.I]. destruct (arg_int _ _ _ _ _ _ _ _ _ _ V Q) as [-> On]. cbn [bind].
    destruct (as_kind_ok n On) as (k & -> & Kn). cbn [bind].
    rewrite on_place_map. specialize (PL pl W). destruct (on_place (ps_heap st) pl (fun x => x)) as [x| |]; [|rewrite PL; reflexivity|exact Logic.I].
    destruct PL as (p & s & -> & Ld & Ps & Ax). unfold pp_query. cbn [bind]. rewrite Ld. cbn [bind].
    pose proof (bits_ok P s x (CKinds k) Ps Ax Logic.I) as Bo. cbn [c_bitboard set_of] in Bo. rewrite Bo. cbn [bind agrees_p].
    rewrite (squares_ext _ (of_kind x k)) by (intros sq; now apply kind_set). eauto.
  - destruct W as [Wp Wt]. rewrite on_place_map. specialize (PL pl Wp). destruct (on_place (ps_heap st) pl (fun x => x)) as [x| |]; [|rewrite PL; reflexivity|exact Logic.I].
    destruct PL as (p & s & -> & Ld & Ps & Ax). unfold PartialPosition_to_sfen_c. cbn [bind]. rewrite Ld. cbn [bind].
    destruct (text_ok P A E _ _ _ _ (hc_local (ps_heap st)) t s x I Pl Tr Wt Ps Ax) as (m' & Zq & T & O').
    destruct (to_sfen_c P s (at_text (p_positions env) t)) as [log| |]; try discriminate Zq. cbn [bind] in Zq |- *. rewrite Zq. cbn [bind agrees_p].
    left. eexists. split; [reflexivity|]. apply local_change; auto.
  - refine (agrees_h _ _ _ _ _ _ _ _ _ _ _ _ _ _ (HS (HNew h) Logic.I) eq_refl _ _); reflexivity.
  - refine (agrees_h _ _ _ _ _ _ _ _ _ _ _ _ _ _ (HS (HFree h) Logic.I) Logic.I _ _); [|reflexivity].
    cbn [hclient_step]. unfold on_object. destruct (object_of (ps_heap st) h) as [[id [[x0 x] ms]]|]; reflexivity.
  - refine (agrees_h _ _ _ _ _ _ _ _ _ _ _ _ _ _ (HS (HAlias h g) Logic.I) Logic.I _ _); [|reflexivity].
    cbn [hclient_step]. destruct (hc_handle (ps_heap st) g); reflexivity.
  - destruct (int_arg move_int (ps_val st) a) as [n|] eqn:Q; [|exact Logic.I]. destruct (arg_int _ _ _ _ _ _ _ _ _ _ V Q) as [-> On]. cbn [bind].
    destruct (move_ok n On) as [-> Vm]. cbn [bind].
    refine (agrees_h _ _ _ _ _ _ _ _ _ _ _ _ _ _ (HS (HMove h (CompactMove n)) Vm) Logic.I _ eq_refl). cbn [hclient_step]. unfold on_object.
    destruct (object_of (ps_heap st) h) as [[id [[x0 x] ms]]|]; [|reflexivity]. destruct (a_try x (unpack (CompactMove n))) as [x' b]. reflexivity.
  - destruct (a_reply (ps_val st) q) as [f|] eqn:Q; [|exact Logic.I]. destruct (reply_ok _ _ _ _ _ _ _ _ _ V Q) as (ha & -> & Fa & Rf). cbn [bind].
    refine (agrees_h _ _ _ _ _ _ _ _ _ _ _ _ _ _ (HS (HAsk h ha) Fa) Logic.I _ eq_refl). cbn [hclient_step]. unfold on_object.
    destruct (object_of (ps_heap st) h) as [[id [[x0 x] ms]]|]; [|reflexivity]. now rewrite Rf.
  - refine (agrees_h _ _ _ _ _ _ _ _ _ _ _ _ _ _ (HS (HText h t) W) Logic.I _ _); [|reflexivity].
    cbn [hclient_step]. unfold on_object. destruct (object_of (ps_heap st) h) as [[id [[x0 x] ms]]|]; reflexivity.
Qed.

(** ** Statements *)
Lemma number_ok A E env n k w st a z : TCall.inv A E (p_objects env) n k (pw_values w) st -> number_of st a = Some z -> number_value env w a = Ret z.
Proof.
  intros ((S & _) & _) H. unfold number_of in H. unfold number_value. destruct (arg_of st a) as [v|] eqn:Q; [|discriminate H].
  destruct (arg_ok (p_objects env) (pw_values w) st a v S Q) as (v' & -> & L). cbn [bind].
  destruct v as [i|z'|[]| | | |]; try discriminate H; cbn [like] in L; subst v'; apply some_inj in H; now subst z.
Qed.
Lemma cond_ok A E env n k w st c b : TCall.inv A E (p_objects env) n k (pw_values w) st -> holds st c = Some b -> cond_value env w c = Ret b.
Proof.
  intros V H. destruct c as [a|a a'|a a']; cbn [holds cond_value] in *; destruct (number_of st a) as [x|] eqn:Q; try discriminate H;
    rewrite (number_ok _ _ _ _ _ _ _ _ _ V Q); cbn [bind]; try (destruct (number_of st a') as [y|] eqn:Q'; [|discriminate H]; rewrite (number_ok _ _ _ _ _ _ _ _ _ V Q'); cbn [bind]);
    apply some_inj in H; subst b; f_equal.
  - destruct (Z.eq_dec x 0), (Z.eqb_spec x 0); try reflexivity; contradiction.
  - destruct (Z.eq_dec x y), (Z.eqb_spec x y); try reflexivity; contradiction.
  - destruct (Z_lt_dec x y), (Z.ltb_spec x y); try reflexivity; lia.
Qed.
(** [s] comes to its end in [w'], or to a call of [Position_startpos] that has no block, whatever is to be done after it *)
Definition ends P A E B env allocs pads (s : c_stmt) (w w' : p_world) : Prop :=
  exists n, forall rest, t_steps P A E B env allocs pads n (s :: rest) w = Ret (rest, w').
Definition fails P A E B env allocs pads (s : c_stmt) (w : p_world) : Prop :=
  exists n code w', (forall rest, t_steps P A E B env allocs pads n (s :: rest) w = Ret (code ++ rest, w')) /\ no_block allocs code w'.
Lemma t_steps_add P A E B env allocs pads n k : forall code w,
  t_steps P A E B env allocs pads (n + k) code w = '(code', w') <- t_steps P A E B env allocs pads n code w;; t_steps P A E B env allocs pads k code' w'.
Proof. induction n as [|n IH]; intros code w; [reflexivity|]. cbn [Nat.add t_steps]. destruct (t_step P A E B env allocs pads code w) as [[c w1]| |]; cbn [bind]; auto. Qed.
Lemma ends_seq P A E B env allocs pads s t w w1 w2 u : (forall rest, t_step P A E B env allocs pads (u :: rest) w = Ret (s :: t :: rest, w)) ->
  ends P A E B env allocs pads s w w1 -> ends P A E B env allocs pads t w1 w2 -> ends P A E B env allocs pads u w w2.
Proof.
  intros H [n Hn] [k Hk]. exists (S (n + k)). intros rest. cbn [t_steps]. rewrite H. cbn [bind]. rewrite t_steps_add, Hn. cbn [bind]. apply Hk.
Qed.
Lemma ends_one P A E B env allocs pads s w w1 u : (forall rest, t_step P A E B env allocs pads (u :: rest) w = Ret (s :: rest, w)) ->
  ends P A E B env allocs pads s w w1 -> ends P A E B env allocs pads u w w1.
Proof. intros H [n Hn]. exists (S n). intros rest. cbn [t_steps]. rewrite H. cbn [bind]. apply Hn. Qed.
Lemma fails_one P A E B env allocs pads s w u : (forall rest, t_step P A E B env allocs pads (u :: rest) w = Ret (s :: rest, w)) ->
  fails P A E B env allocs pads s w -> fails P A E B env allocs pads u w.
Proof. intros H (n & code & w' & Hn & F). exists (S n), code, w'. split; [|exact F]. intros rest. cbn [t_steps]. rewrite H. cbn [bind]. apply Hn. Qed.
Lemma no_block_app allocs code w l : no_block allocs code w -> no_block allocs (code ++ l) w.
Proof. intros (x & h & rest & -> & H). exists x, h, (rest ++ l). auto. Qed.
Lemma fails_first P A E B env allocs pads s t w u : (forall rest, t_step P A E B env allocs pads (u :: rest) w = Ret (s :: t :: rest, w)) ->
  fails P A E B env allocs pads s w -> fails P A E B env allocs pads u w.
Proof.
  intros H (n & code & w' & Hn & F). exists (S n), (code ++ [t]), w'. split; [|now apply no_block_app]. intros rest. cbn [t_steps]. rewrite H. cbn [bind]. rewrite Hn.
  now rewrite <- app_assoc.
Qed.
Lemma fails_second P A E B env allocs pads s t w w1 u : (forall rest, t_step P A E B env allocs pads (u :: rest) w = Ret (s :: t :: rest, w)) ->
  ends P A E B env allocs pads s w w1 -> fails P A E B env allocs pads t w1 -> fails P A E B env allocs pads u w.
Proof.
  intros H [n Hn] (k & code & w' & Hk & F). exists (S (n + k)), code, w'. split; [|exact F]. intros rest. cbn [t_steps]. rewrite H. cbn [bind].
  rewrite t_steps_add, Hn. cbn [bind]. apply Hk.
Qed.
Lemma exec_ends P A E B env allocs pads : forall fuel s w w', exec P A E B env allocs pads fuel s w = Ret (Some w') -> ends P A E B env allocs pads s w w'.
Proof.
  assert (One : forall s w w', (forall rest, t_step P A E B env allocs pads (s :: rest) w = Ret (rest, w')) -> ends P A E B env allocs pads s w w').
  { intros s w w' H. exists 1%nat. intros rest. cbn [t_steps]. now rewrite H. }
  induction fuel as [|fuel IH]; intros s w w' X; [discriminate X|].
  destruct s as [|o|x c|x a|x a b|s t|c s t|c s]; cbn [exec] in X.
  - injection X as <-. now apply One.
  - apply One. intros rest. cbn [t_step]. destruct (v_step P A E (p_objects env) o (pw_values w)); try discriminate X. cbn [bind] in *. now injection X as <-.
  - apply One. intros rest. cbn [t_step]. destruct (p_step P A E B env (allocs (pw_tick w)) (pads (pw_tick w)) c w) as [[h v]| |]; try discriminate X. cbn [bind] in *. now injection X as <-.
  - apply One. intros rest. cbn [t_step]. destruct (arg_value (p_objects env) (pw_values w) a); try discriminate X. cbn [bind] in *. now injection X as <-.
  - apply One. intros rest. cbn [t_step]. destruct (number_value env w a); try discriminate X. cbn [bind] in *. destruct (number_value env w b); try discriminate X. cbn [bind] in *. now injection X as <-.
  - destruct (exec P A E B env allocs pads fuel s w) as [[w1|]| |] eqn:X1; try discriminate X. cbn [bind] in X. eapply ends_seq; [reflexivity|apply IH; exact X1|apply IH; exact X].
  - destruct (cond_value env w c) as [b| |] eqn:Q; try discriminate X. cbn [bind] in X. eapply ends_one; [|apply IH; exact X]. intros rest. cbn [t_step]. rewrite Q. reflexivity.
  - destruct (cond_value env w c) as [b| |] eqn:Q; try discriminate X. cbn [bind] in X. destruct b.
    + destruct (exec P A E B env allocs pads fuel s w) as [[w1|]| |] eqn:X1; try discriminate X. cbn [bind] in X.
      eapply ends_seq; [|apply IH; exact X1|apply IH; exact X]. intros rest. cbn [t_step]. rewrite Q. reflexivity.
    + injection X as <-. apply One. intros rest. cbn [t_step]. rewrite Q. reflexivity.
Qed.
Definition follows (P : profile) (A : N) (E : endian) (B : box_layout) (env : p_env) (Z : p_size) (m0 : mem) (out : Prop)
    (a : outcome (option p_state)) (r : res (option p_world)) : Prop :=
  match a with
  | Fine (Some st') => (exists w' m2, r = Ret (Some w') /\ pinv P A E B env Z m0 m2 w' st') \/ (r = Panic /\ out)
  | Fine None => r = Ret None \/ (r = Panic /\ out)
  | Misused => r = UB \/ (r = Panic /\ out)
  | Unset => True
  end.
Lemma follows_weak P A E B env Z m0 (out out' : Prop) a r : (out -> out') -> follows P A E B env Z m0 out a r -> follows P A E B env Z m0 out' a r.
Proof. intros H. destruct a as [[st'|]| |]; cbn [follows]; [| | |auto]; (intros [G|[G1 G2]]; [left; exact G|right; auto]). Qed.
Lemma follows_bind P A E B env Z m0 (out : Prop) a r f g : follows P A E B env Z m0 out a r ->
  (forall w' st' m2, r = Ret (Some w') -> pinv P A E B env Z m0 m2 w' st' -> follows P A E B env Z m0 out (f st') (g w')) ->
  follows P A E B env Z m0 out (match a with Fine (Some st') => f st' | Fine None => Fine None | Misused => Misused | Unset => Unset end) (r <- r;; match r with Some w' => g w' | None => Ret None end).
Proof.
  intros H G. destruct a as [[st'|]| |]; cbn [follows] in *; [| | |exact Logic.I].
  - destruct H as [(w' & m2 & -> & V)|[-> C]]; cbn [bind]; [eapply G; eauto|]. destruct (f st') as [[]| |]; cbn [follows]; auto.
  - destruct H as [->|[-> C]]; cbn [bind]; auto.
  - destruct H as [->|[-> C]]; cbn [bind]; auto.
Qed.
Lemma exec_ok P A E B env Z m0 allocs pads : In A word_alignments -> box_ok A B -> (forall j, fresh_blocks A B (allocs j)) ->
  forall fuel s m1 w st, stmt_within Z s -> pinv P A E B env Z m0 m1 w st ->
  follows P A E B env Z m0 (fails P A E B env allocs pads s w) (runs fuel s st) (exec P A E B env allocs pads fuel s w).
Proof.
  intros I Bk FB. induction fuel as [|fuel IH]; intros s m1 w st W H; [left; reflexivity|].
  pose proof H as [Hh V D S _]. pose proof V as ((Sv & _) & _).
  destruct s as [|o|x c|x a|x a b|s t|c s t|c s]; cbn [runs exec stmt_within] in *.
  - left. eauto.
  - destruct (v_meaning (ps_val st) o) as [v'|] eqn:Q; [|exact Logic.I].
    destruct (pinv_value P A E B env Z m0 m1 w st o v' I Bk H W Q) as (vw & m2 & -> & H'). cbn [bind]. left. eauto.
  - pose proof (p_step_ok P A E B env Z m0 m1 (allocs (pw_tick w)) (pads (pw_tick w)) c w st I Bk (FB _ _) H W) as Q.
    destruct (p_meaning st c) as [[h v]| |]; cbn [agrees_p follows] in *; [|left; rewrite Q; reflexivity|exact Logic.I].
    destruct Q as [(w' & -> & H')|[-> [Hm [g ->]]]]; cbn [bind]; [left|right].
    + eexists _, m1. split; [reflexivity|]. now apply pinv_heap.
    + split; [reflexivity|]. exists 0%nat, [SCall x (QStartpos g)], w. split; [reflexivity|]. exists x, g, []. auto.
  - destruct (arg_of (ps_val st) a) as [v|] eqn:Q; [|exact Logic.I]. destruct (is_pointer v) eqn:Np; [exact Logic.I|].
    destruct (arg_ok (p_objects env) (pw_values w) (ps_val st) a v Sv Q) as (v' & -> & L). cbn [bind]. assert (v' = v) as -> by (destruct v; try discriminate Np; exact L).
    left. eexists _, m1. split; [reflexivity|]. now apply pinv_var.
  - destruct (number_of (ps_val st) a) as [y|] eqn:Qa; [|exact Logic.I]. destruct (number_of (ps_val st) b) as [z|] eqn:Qb; [|exact Logic.I].
    rewrite (number_ok _ _ _ _ _ _ _ _ _ V Qa), (number_ok _ _ _ _ _ _ _ _ _ V Qb). cbn [bind]. left. eexists _, m1. split; [reflexivity|]. now apply pinv_var.
  - destruct W as [Ws Wt]. apply (follows_bind P A E B env Z m0 _ (runs fuel s st) (exec P A E B env allocs pads fuel s w) (runs fuel t) (exec P A E B env allocs pads fuel t)).
    + eapply follows_weak; [|eapply IH; eauto]. apply (fails_first _ _ _ _ _ _ _ s t). reflexivity.
    + intros w' st' m2 X H'. eapply follows_weak; [|eapply IH; eauto]. apply (fails_second _ _ _ _ _ _ _ s t w w'); [reflexivity|]. eapply exec_ends; eauto.
  - destruct W as [Ws Wt]. destruct (holds (ps_val st) c) as [b|] eqn:Q; [|exact Logic.I]. rewrite (cond_ok _ _ _ _ _ _ _ _ _ V Q). cbn [bind].
    assert (Y : forall rest, t_step P A E B env allocs pads (SIf c s t :: rest) w = Ret ((if b then s else t) :: rest, w)).
    { intros rest. cbn [t_step]. rewrite (cond_ok _ _ _ _ _ _ _ _ _ V Q). reflexivity. }
    destruct b; (eapply follows_weak; [|eapply IH; eauto]); eapply fails_one; exact Y.
  - destruct (holds (ps_val st) c) as [b|] eqn:Q; [|exact Logic.I]. rewrite (cond_ok _ _ _ _ _ _ _ _ _ V Q). cbn [bind].
    destruct b; [|left; eauto].
    assert (Y : forall rest, t_step P A E B env allocs pads (SWhile c s :: rest) w = Ret (s :: SWhile c s :: rest, w)).
    { intros rest. cbn [t_step]. rewrite (cond_ok _ _ _ _ _ _ _ _ _ V Q). reflexivity. }
    apply (follows_bind P A E B env Z m0 _ (runs fuel s st) (exec P A E B env allocs pads fuel s w) (runs fuel (SWhile c s)) (exec P A E B env allocs pads fuel (SWhile c s))).
    + eapply follows_weak; [|eapply IH; eauto]. eapply fails_first. exact Y.
    + intros w' st' m2 X H'. eapply follows_weak; [|eapply IH; eauto]. apply (fails_second _ _ _ _ _ _ _ s (SWhile c s) w w'); [exact Y|]. eapply exec_ends; eauto.
Qed.
Lemma fails_out P A E B env allocs pads s w : fails P A E B env allocs pads s w -> p_out_of_memory P A E B env allocs pads s w.
Proof. intros (n & code & w' & H & F). exists n, (code ++ []), w'. split; [apply H|now apply no_block_app]. Qed.
Lemma p_start_ok P A E B env Z m : all_placed A env Z m -> pinv P A E B env Z m m (p_start m) p_state_start.
Proof.
  intros (P1 & P2 & P3). constructor; auto; cbn [p_start p_state_start pw_heap ps_heap ps_val].
  - now apply hinv_start.
  - split; [|split; [split; discriminate|exact P2]]. split; [reflexivity|]. split; discriminate.
  - split; [auto|tauto].
Qed.
Lemma out_of_steps P A E B env allocs pads n s w :
  match t_steps P A E B env allocs pads n [s] w with Ret (SCall x (QStartpos h) :: _, w') => allocs (pw_tick w') (w_mem (pw_heap w')) = None | _ => False end ->
  p_out_of_memory P A E B env allocs pads s w.
Proof.
  destruct (t_steps P A E B env allocs pads n [s] w) as [[[|[] code] w']| |] eqn:Q; try contradiction. destruct c; try contradiction. intros H. eexists n, _, w'. split; [exact Q|].
  eexists _, _, _. eauto.
Qed.
(** C66: a C program over the whole library, with values flowing through variables from call to call and with branches and loops, has no
    undefined behaviour at any moment of its run as long as the same program over abstract values keeps to the contracts; it panics
    only at a [Position_startpos] for which the allocator has no block. What it computes, what is in its variables and on the heap is what the abstract program says,
    and it changes no memory but its own. *)
Lemma c66_programs_pf : forall P A E B env Z allocs pads s m fuel r, In A word_alignments -> box_ok A B -> (forall j, fresh_blocks A B (allocs j)) ->
  all_placed A env Z m -> stmt_within Z s -> runs fuel s p_state_start = Fine r ->
  match exec P A E B env allocs pads fuel s (p_start m) with
  | Ret (Some w) => exists st, r = Some st /\ p_shows A E B env Z w st /\
      forall y, ~ own_byte A B env Z (pw_heap w) y -> w_mem (pw_heap w) y = m y
  | Ret None => r = None
  | Panic => p_out_of_memory P A E B env allocs pads s (p_start m)
  | UB => False
  end.
Proof.
  intros P A E B env Z allocs pads s m fuel r I Bk FB Pl W Q.
  pose proof (exec_ok P A E B env Z m allocs pads I Bk FB fuel s m (p_start m) p_state_start W (p_start_ok P A E B env Z m Pl)) as G. rewrite Q in G.
  destruct r as [st|]; cbn [follows] in G.
  - destruct G as [(w & m2 & -> & H)|[-> G]]; [|exact (fails_out _ _ _ _ _ _ _ _ _ G)]. exists st. split; [reflexivity|]. destruct H as [Hh V D S _].
    destruct (hinv_shows _ _ _ _ _ _ _ _ _ _ I Bk Hh) as (S1 & S2 & S3 & S4 & S5). split.
    + split; [apply V|]. auto.
    + intros y N. rewrite S5; [apply (proj1 S)| |].
      * intros o K Y. apply N. right. right. eauto.
      * intros O. apply N. now left.
      * intros v K Y. apply N. right. left. eauto.
  - destruct G as [->|[-> G]]; auto using fails_out.
Qed.
(** C66: using a dangling or unset pointer anywhere in such a program is undefined behaviour, unless the program stops before at a
    [Position_startpos] for which the allocator has no block. *)
Lemma c66_misuse_pf : forall P A E B env Z allocs pads s m fuel, In A word_alignments -> box_ok A B -> (forall j, fresh_blocks A B (allocs j)) ->
  all_placed A env Z m -> stmt_within Z s -> runs fuel s p_state_start = Misused ->
  match exec P A E B env allocs pads fuel s (p_start m) with
  | Ret _ => False
  | Panic => p_out_of_memory P A E B env allocs pads s (p_start m)
  | UB => True
  end.
Proof.
  intros P A E B env Z allocs pads s m fuel I Bk FB Pl W Q.
  pose proof (exec_ok P A E B env Z m allocs pads I Bk FB fuel s m (p_start m) p_state_start W (p_start_ok P A E B env Z m Pl)) as G. rewrite Q in G.
  destruct G as [->|[-> G]]; [exact Logic.I|now apply fails_out].
Qed.

(** ** More fuel, and statements one after the other *)
Lemma exec_seq P A E B env allocs pads fuel s t w : exec P A E B env allocs pads (S fuel) (SSeq s t) w =
  (r <- exec P A E B env allocs pads fuel s w;; match r with Some w' => exec P A E B env allocs pads fuel t w' | None => Ret None end).
Proof. reflexivity. Qed.
Lemma exec_if P A E B env allocs pads fuel c s t w : exec P A E B env allocs pads (S fuel) (SIf c s t) w =
  (b <- cond_value env w c;; exec P A E B env allocs pads fuel (if b then s else t) w).
Proof. reflexivity. Qed.
Lemma exec_while P A E B env allocs pads fuel c s w : exec P A E B env allocs pads (S fuel) (SWhile c s) w =
  (g <- cond_value env w c;;
   if g then r <- exec P A E B env allocs pads fuel s w;; match r with Some w' => exec P A E B env allocs pads fuel (SWhile c s) w' | None => Ret None end else Ret (Some w)).
Proof. reflexivity. Qed.
Fixpoint exec_all P A E B env allocs pads (fuel : nat) (code : list c_stmt) (w : p_world) : res (option p_world) :=
  match code with
  | [] => Ret (Some w)
  | s :: rest => r <- exec P A E B env allocs pads fuel s w;; match r with Some w' => exec_all P A E B env allocs pads fuel rest w' | None => Ret None end
  end.
Lemma exec_more P A E B env allocs pads fuel : forall s w r, exec P A E B env allocs pads fuel s w = r -> r <> Ret None -> exec P A E B env allocs pads (S fuel) s w = r.
Proof.
  induction fuel as [|fuel IH]; intros s w r H N; [cbn [exec] in H; now destruct N|].
  assert (Q2 : forall s t w, (r <- exec P A E B env allocs pads fuel s w;; match r with Some w' => exec P A E B env allocs pads fuel t w' | None => Ret None end) = r ->
    (r <- exec P A E B env allocs pads (S fuel) s w;; match r with Some w' => exec P A E B env allocs pads (S fuel) t w' | None => Ret None end) = r).
  { clear H s w. intros s t w H. destruct (exec P A E B env allocs pads fuel s w) as [[w1|]| |] eqn:Q; cbn [bind] in H; [|now destruct N| |]; rewrite (IH _ _ _ Q) by discriminate; cbn [bind]; auto. }
  destruct s as [|o|x c|x a|x a b|s t|c s t|c s]; try exact H.
  - rewrite exec_seq in *. auto.
  - rewrite exec_if in *. destruct (cond_value env w c) as [b| |]; cbn [bind] in *; auto.
  - rewrite exec_while in *. destruct (cond_value env w c) as [[]| |]; cbn [bind] in *; auto.
Qed.
Lemma exec_all_more P A E B env allocs pads fuel code : forall w r, exec_all P A E B env allocs pads fuel code w = r -> r <> Ret None -> exec_all P A E B env allocs pads (S fuel) code w = r.
Proof.
  induction code as [|s rest IH]; intros w r H N; [exact H|]. cbn [exec_all] in *.
  destruct (exec P A E B env allocs pads fuel s w) as [[w1|]| |] eqn:Q; cbn [bind] in H; [|now destruct N| |]; rewrite (exec_more _ _ _ _ _ _ _ _ _ _ _ Q) by discriminate; cbn [bind]; auto.
Qed.
Lemma t_step_back P A E B env allocs pads fuel code w code' w' r : t_step P A E B env allocs pads code w = Ret (code', w') ->
  exec_all P A E B env allocs pads fuel code' w' = r -> r <> Ret None -> exec_all P A E B env allocs pads (S fuel) code w = r.
Proof.
  intros H R N. pose proof (exec_all_more _ _ _ _ _ _ _ _ _ _ _ R N) as R1.
  destruct code as [|[|o|x c|x a|x a b|s t|c s t|c s] rest]; cbn [t_step] in H.
  - injection H as <- <-. exact R1.
  - injection H as <- <-. exact R1.
  - cbn [exec_all exec]. destruct (v_step P A E (p_objects env) o (pw_values w)); try discriminate H. cbn [bind] in *. injection H as <- <-. exact R1.
  - cbn [exec_all exec]. destruct (p_step P A E B env (allocs (pw_tick w)) (pads (pw_tick w)) c w) as [[h v]| |]; try discriminate H. cbn [bind] in *. injection H as <- <-. exact R1.
  - cbn [exec_all exec]. destruct (arg_value (p_objects env) (pw_values w) a); try discriminate H. cbn [bind] in *. injection H as <- <-. exact R1.
  - cbn [exec_all exec]. destruct (number_value env w a); try discriminate H. cbn [bind] in *. destruct (number_value env w b); try discriminate H. cbn [bind] in *. injection H as <- <-. exact R1.
  - injection H as <- <-. cbn [exec_all] in R |- *. rewrite exec_seq. destruct (exec P A E B env allocs pads fuel s w) as [[w1|]| |]; cbn [bind] in *; auto.
    destruct (exec P A E B env allocs pads fuel t w1) as [[w2|]| |]; cbn [bind] in *; auto. now apply exec_all_more.
  - cbn [exec_all]. rewrite exec_if. destruct (cond_value env w c) as [b| |]; try discriminate H. cbn [bind] in *. injection H as <- <-. cbn [exec_all] in R.
    destruct (exec P A E B env allocs pads fuel (if b then s else t) w) as [[w1|]| |]; cbn [bind] in *; auto. now apply exec_all_more.
  - cbn [exec_all]. rewrite exec_while. destruct (cond_value env w c) as [[]| |]; try discriminate H; cbn [bind] in *; injection H as <- <-; [|exact R1]. cbn [exec_all] in R.
    destruct (exec P A E B env allocs pads fuel s w) as [[w1|]| |]; cbn [bind] in *; auto. destruct (exec P A E B env allocs pads fuel (SWhile c s) w1) as [[w2|]| |]; cbn [bind] in *; auto.
    now apply exec_all_more.
Qed.
Lemma out_panics P A E B env allocs pads n : forall code w code' w', t_steps P A E B env allocs pads n code w = Ret (code', w') -> no_block allocs code' w' ->
  exists fuel, exec_all P A E B env allocs pads fuel code w = Panic.
Proof.
  induction n as [|n IH]; intros code w code' w' H N; cbn [t_steps] in H.
  - injection H as -> ->. destruct N as (x & h & rest & -> & N). exists 1%nat. cbn [exec_all exec p_step]. cbv zeta. cbn [h_step].
    unfold Position_startpos, pos_startpos. rewrite startpos_ok, N. reflexivity.
  - destruct (t_step P A E B env allocs pads code w) as [[code1 w1]| |] eqn:Q; try discriminate H. cbn [bind] in H.
    destruct (IH _ _ _ _ H N) as [fuel X]. exists (S fuel). eapply t_step_back; eauto. discriminate.
Qed.
(** C66: and then it does panic. *)
Lemma c66_out_of_memory_pf : forall P A E B env allocs pads s m, p_out_of_memory P A E B env allocs pads s (p_start m) ->
  exists fuel, forall more, (fuel <= more)%nat -> exec P A E B env allocs pads more s (p_start m) = Panic.
Proof.
  intros P A E B env allocs pads s m (n & code & w' & H & N). destruct (out_panics _ _ _ _ _ _ _ _ _ _ _ _ H N) as [fuel X]. exists fuel.
  assert (Y : exec P A E B env allocs pads fuel s (p_start m) = Panic).
  { cbn [exec_all] in X. destruct (exec P A E B env allocs pads fuel s (p_start m)) as [[w|]| |]; cbn [bind] in X; [discriminate X|discriminate X|reflexivity|discriminate X]. }
  intros more L. induction L as [|more L IH]; [exact Y|]. now apply exec_more.
Qed.

Lemma variable_dec A env n k y : (exists v, variable n k v /\ in_variable A env v y) \/ (forall v, variable n k v -> ~ in_variable A env v y).
Proof.
  assert (F : forall c (f : nat -> nat + nat), (exists i, (i < c)%nat /\ in_variable A env (f i) y) \/ (forall i, (i < c)%nat -> ~ in_variable A env (f i) y)).
  { intros c f. induction c as [|c IHc]; [right; intros; lia|]. destruct IHc as [(i & Li & J)|N]; [left; exists i; split; [lia|auto]|].
    assert (DD : in_variable A env (f c) y \/ ~ in_variable A env (f c) y) by (unfold in_variable, in_region; lia). destruct DD as [DD|DD]; [left; exists c; auto|].
    right. intros i Li. destruct (Nat.eq_dec i c) as [->|]; auto. apply N. lia. }
  destruct (F n inl) as [(i & Li & J)|N1]; [left; exists (inl i); auto|]. destruct (F k inr) as [(i & Li & J)|N2]; [left; exists (inr i); auto|].
  right. intros [i|t] Vv; auto.
Qed.
(** C66: such a program that has destructed every object has given all memory back. *)
Lemma c66_no_leak_pf : forall P A E B env Z allocs pads s m fuel st w, In A word_alignments -> box_ok A B -> (forall j, fresh_blocks A B (allocs j)) ->
  all_placed A env Z m -> stmt_within Z s -> runs fuel s p_state_start = Fine (Some st) -> (forall id, hc_object (ps_heap st) id = None) ->
  exec P A E B env allocs pads fuel s (p_start m) = Ret (Some w) -> forall y, w_mem (pw_heap w) y = None <-> m y = None.
Proof.
  intros P A E B env Z allocs pads s m fuel st w I Bk FB Pl W Q D R y.
  pose proof (exec_ok P A E B env Z m allocs pads I Bk FB fuel s m (p_start m) p_state_start W (p_start_ok P A E B env Z m Pl)) as G. rewrite Q, R in G.
  cbn [follows] in G. destruct G as [(w' & m2 & Zq & H)|[Zq _]]; [|discriminate Zq]. injection Zq as <-. destruct H as [H V _ [_ S] _].
  rewrite <- (S y). clear S V R Q. destruct (hinv_shows _ _ _ _ _ _ _ _ _ _ I Bk H) as (_ & _ & _ & L & M).
  assert (NO : ~ SpecHeap.in_object B (pw_heap w) y) by (intros (id & a & ms & Zq & _); rewrite L in Zq by auto; discriminate Zq).
  destruct (variable_dec A (p_positions env) (sz_pos Z) (sz_text Z) y) as [(v & Vv & J)|DV]; [|rewrite M by auto; tauto].
  pose proof (hi_placed _ _ _ _ _ _ _ _ _ _ H) as P1. pose proof (hi_init _ _ _ _ _ _ _ _ _ _ H) as P2.
  assert (AC : forall m', placed A (p_positions env) (sz_pos Z) (sz_text Z) m' -> m' y <> None).
  { intros m' (_ & Ac & _) Zq. destruct (Ac v Vv (y - fst (region A (p_positions env) v))) as [b Hb]; [unfold in_variable, in_region in J; lia|].
    unfold in_variable, in_region in J. replace (fst (region A (p_positions env) v) + (y - fst (region A (p_positions env) v))) with y in Hb by lia. congruence. }
  split; intros Zq; exfalso; [apply (AC _ P1 Zq)|apply (AC _ P2 Zq)].
Qed.
(** C66: every exported function can be called in such programs, except those on games, which C has no way to make. *)
Lemma c66_covers_pf : forall e, In e rust_exports ->
  (exists f, fn_name f = re_name e) \/ (exists c, In (re_name e) (call_symbols c)) \/ about_games e = true.
Proof.
  assert (G : forallb (fun e => existsb (fun f => String.eqb (fn_name f) (re_name e)) all_fns || about_games e ||
    existsb (String.eqb (re_name e)) (flat_map call_symbols
      ([PStartpos 0; PMove 0 (AVar 0); PCopy 0 (Inside 0); PCopy 0 (Initially 0); PKinds (InVar 0) (AVar 0); PSfen (InVar 0) 0; QStartpos 0; QDestruct 0; QMove 0 (AVar 0); QSfen 0 0] ++
       flat_map (fun q => [PAsk (InVar 0) q; QAsk 0 q])
         [KPieceAt (AVar 0); KPly; KSideToMove; KHand (AVar 0); KLastMove; KOccupied; KVacant; KPlayer (AVar 0); KPieces (AVar 0)]))) rust_exports = true)
    by (vm_compute; reflexivity).
  intros e I. rewrite forallb_forall in G. specialize (G e I). rewrite !orb_true_iff in G. destruct G as [[G|G]|G]; [left|auto|right; left].
  - apply existsb_exists in G. destruct G as (f & _ & Q). exists f. now apply String.eqb_eq.
  - apply existsb_exists in G. destruct G as (n & J & Q). apply String.eqb_eq in Q. subst n. apply in_flat_map in J. destruct J as (c & _ & J). eauto.
Qed.
