(*PROPHEAD
Property theorems C70: C programs that pass a static check are safe
From Verif Require Import LSampleQ.
*)
(** C70: C programs that pass a static check are safe. *)
From Coq Require Import String.
From Verif Require Import TPosition LRuntime TClient TCall THeap TProgram.
From Verif Require Export SpecCheck.
Close Scope string_scope.
Notation length := List.length.

(** ** Types *)
Lemma within_iff' lo hi n : within lo hi n = true <-> lo <= n <= hi.
Proof. unfold within. lia. Qed.
Ltac ranges := unfold piece_int, square_int, kind_int, color_int, within in *; rewrite ?orb_true_iff, ?andb_true_iff, ?N.eqb_eq, ?N.leb_le in *.
Lemma move_small n : move_int n = true -> 1 <= n <= 65535.
Proof.
  unfold move_int. rewrite andb_true_iff. intros [H1 H2]. ranges. split; [assert (n <> 0) by (intros ->; change (0 mod 128) with 0 in H1; lia); lia|].
  destruct (n / 128 mod 2 =? 1); ranges; lia.
Qed.
Lemma sub_ok t u v : sub t u = true -> has_vty t v = true -> has_vty u v = true.
Proof.
  destruct t as [a b| | | | | | | | |], u as [c d| | | | | | | | |]; cbn [sub]; intros S H; try discriminate S; destruct v as [n|z|w|bs|w0 w1|p|]; cbn [has_vty] in *; try discriminate H; try exact H;
    try (ranges; lia).
  - ranges. destruct S as [<- S]. assert (n = a) as -> by lia. exact S.
  - apply andb_true_iff in S. destruct S as [E S]. apply N.eqb_eq in E. ranges. assert (n = a) as -> by lia. exact S.
  - apply move_small in H. ranges. lia.
  - apply orb_true_iff. now right.
  - apply orb_true_iff in H. destruct H as [H|H]; [apply N.eqb_eq in H|apply move_small in H]; ranges; lia.
Qed.
Lemma literal_ok v t : vty_of_literal v = Some t -> has_vty t v = true.
Proof.
  destruct v as [n|z|w|bs|w0 w1|p|]; cbn [vty_of_literal]; intros H; try discriminate H;
    try (match type of H with (if ?b then _ else _) = _ => destruct b eqn:Q; [|discriminate H] end); injection H as <-; try exact Q; try reflexivity.
  cbn [has_vty]. ranges. lia.
Qed.

Lemma value_vty t u v : vty_of t = Some u -> value_of t v = has_vty u v.
Proof.
  destruct t as [| | | | | |name|t n|t|t|t|t|t]; cbn [vty_of]; intros H; try discriminate H; try (injection H as <-; destruct v; reflexivity).
  { injection H as <-. destruct v; try reflexivity. cbn [value_of has_vty]. unfold byte_int, within. lia. }
  repeat (match type of H with (if String.eqb name ?x then _ else _) = _ => destruct (String.eqb_spec name x) as [->|?]; [injection H as <-; destruct v; reflexivity|] end).
  discriminate H.
Qed.

(** ** The state is as the facts say *)
Definition sane (x : apos) : Prop :=
  a_ply x < 65536 /\ (forall c k, a_hand x c k < 256) /\ (move_number (a_last x) =? 0) || move_int (move_number (a_last x)) = true.
Lemma sane_opening : sane a_opening.
Proof. split; [reflexivity|]. split; [reflexivity|reflexivity]. Qed.
Lemma sane_pass x mv n : (forall c k, a_hand x c k < 256) -> packed mv = n -> move_int n = true -> sane (a_pass x mv).
Proof.
  intros H Q M. split; [cbn [a_pass a_ply]; apply N.mod_lt; lia|]. split; [exact H|]. cbn [a_pass a_last move_number]. rewrite Q, M. apply orb_true_r.
Qed.
Lemma put_hand x sq y c k : a_hand (a_put x sq y) c k = a_hand x c k.
Proof. reflexivity. Qed.
Lemma sane_try x n : move_int n = true -> sane x -> sane (fst (a_try x (unpack (CompactMove n)))).
Proof.
  intros M S. destruct (as_move_ok n M) as (mv & V & Q & _). subst n. rewrite unpack_packed by exact V.
  pose proof (proj1 (proj2 S)) as H. unfold a_try. destruct (a_move x mv) as [x'|] eqn:A; [|exact S]. cbn [fst].
  assert (HS : forall c k n, n < 256 -> forall d l, a_hand (a_set_hand x c k n) d l < 256).
  { intros c k n L d l. unfold a_set_hand. cbn [a_hand]. destruct (same_color d c && same_kind l k); auto. }
  destruct mv as [f t pr|p t]; cbn [a_move] in A.
  - destruct (a_board x f) as [[k c]|]; [|discriminate A]. destruct (same_color c (a_side x)); [|discriminate A].
    destruct (if pr then promoted k else Some k) as [k'|]; [|discriminate A]. destruct (a_board x t) as [[e d]|].
    + destruct (same_color d (opponent c) && can_be_in_hand (base_kind e)); [|discriminate A]. injection A as <-.
      eapply sane_pass; [|reflexivity|exact M]. intros. rewrite !put_hand. apply HS. apply N.mod_lt. lia.
    + injection A as <-. eapply sane_pass; [|reflexivity|exact M]. intros. rewrite !put_hand. apply H.
  - destruct (same_color (color_of p) (a_side x) && can_be_in_hand (kind_of p) && (0 <? a_hand x (a_side x) (kind_of p))); [|discriminate A].
    destruct (a_board x t); [discriminate A|]. injection A as <-. eapply sane_pass; [|reflexivity|exact M]. intros. rewrite put_hand. apply HS.
    specialize (H (a_side x) (kind_of p)). lia.
Qed.

Lemma listed_cons i l j : listed (i :: drop l i) j = Nat.eqb j i || listed l j.
Proof.
  unfold listed, drop. cbn [existsb]. destruct (Nat.eqb_spec j i) as [->|D]; [reflexivity|]. cbn [orb].
  induction l as [|k l IH]; [reflexivity|]. cbn [filter existsb]. destruct (Nat.eqb_spec i k) as [->|E]; cbn [negb existsb]; rewrite IH; [|reflexivity].
  apply Nat.eqb_neq in D. now rewrite D.
Qed.
Lemma listed_drop l i j : listed (drop l i) j = negb (Nat.eqb j i) && listed l j.
Proof.
  unfold listed, drop. induction l as [|k l IH]; [now rewrite andb_false_r|]. cbn [filter existsb]. destruct (Nat.eqb_spec i k) as [->|E]; cbn [negb existsb]; rewrite IH.
  - destruct (Nat.eqb_spec j k); cbn [negb andb orb]; reflexivity.
  - destruct (Nat.eqb_spec j k) as [->|]; cbn [orb]; [|reflexivity]. replace (Nat.eqb k i) with false by (symmetry; apply Nat.eqb_neq; congruence). reflexivity.
Qed.
Lemma subset_ok l k i : subset l k = true -> listed l i = true -> listed k i = true.
Proof.
  unfold subset, listed. rewrite forallb_forall, !existsb_exists. intros S (j & I & E). apply Nat.eqb_eq in E. subst j.
  specialize (S i I). now apply existsb_exists in S.
Qed.
Lemma lookup_forget l x y : lookup (forget l x) y = if Nat.eqb x y then None else lookup l y.
Proof.
  unfold forget. induction l as [|[z t] l IH]; [now destruct (Nat.eqb x y)|]. cbn [filter fst lookup]. destruct (Nat.eqb_spec z x) as [->|D]; cbn [negb lookup]; rewrite IH.
  - now destruct (Nat.eqb x y).
  - destruct (Nat.eqb_spec x y) as [->|]; [|reflexivity]. replace (Nat.eqb z y) with false by (symmetry; now apply Nat.eqb_neq). reflexivity.
Qed.
Lemma lookup_In l x t : lookup l x = Some t -> exists u, In (x, u) l.
Proof.
  induction l as [|[z u] l IH]; [discriminate|]. cbn [lookup]. destruct (Nat.eqb_spec z x) as [->|].
  - intros _. exists u. now left.
  - intros H. destruct (IH H) as [w I]. exists w. now right.
Qed.

Record okv (F : facts) (v : v_state) : Prop := OkV {
  ok_var : forall x t, lookup (k_var F) x = Some t -> exists w, vs_var v x = Some w /\ has_vty t w = true;
  ok_hand : forall i, listed (k_hand F) i = true -> exists bs, vs_hand v i = Some bs;
  ok_bits : forall i, listed (k_bits F) i = true -> exists w0 w1, vs_bits v i = Some (w0, w1);
  ok_hands : forall i bs, vs_hand v i = Some bs -> hand_ints bs = true;
  ok_words : forall i w0 w1, vs_bits v i = Some (w0, w1) -> words_ints w0 w1 = true
}.
Record okh (F : facts) (h : hclient) : Prop := OkH {
  ok_pos : forall i, listed (k_pos F) i = true -> exists x, cl_pos (hc_local h) i = Some x;
  ok_own : forall g, listed (k_own F) g = true -> exists id x0 x ms, hc_handle h g = Some id /\ hc_object h id = Some (x0, x, ms);
  ok_apart : forall g f, listed (k_own F) g = true -> listed (k_own F) f = true -> hc_handle h g = hc_handle h f -> g = f;
  ok_all : forall id o, hc_object h id = Some o -> exists g, listed (k_own F) g = true /\ hc_handle h g = Some id;
  ok_sane : forall i x, cl_pos (hc_local h) i = Some x -> sane x;
  ok_object : forall id x0 x ms, hc_object h id = Some (x0, x, ms) -> sane x0 /\ sane x /\ id < hc_next h
}.
Definition ok (F : facts) (st : p_state) : Prop := okv F (ps_val st) /\ okh F (ps_heap st).
Lemma ok_start : ok facts_start p_state_start.
Proof. split; constructor; cbn; intros; discriminate. Qed.
Lemma stronger_ok F G st : stronger F G = true -> ok F st -> ok G st.
Proof.
  unfold stronger. rewrite !andb_true_iff. intros (((((V & P) & H) & B) & O1) & O2) [OV OH]. rewrite forallb_forall in V. split; constructor.
  - intros x t L. destruct (lookup_In _ _ _ L) as [u I]. specialize (V _ I). cbn [fst] in V. rewrite L in V.
    destruct (lookup (k_var F) x) as [t'|] eqn:Q; [|discriminate V]. destruct (ok_var F _ OV x t' Q) as (w & E & T). exists w. split; [exact E|]. eapply sub_ok; eauto.
  - intros i L. eapply ok_hand; [exact OV|]. eapply subset_ok; eauto.
  - intros i L. eapply ok_bits; [exact OV|]. eapply subset_ok; eauto.
  - apply (ok_hands F _ OV).
  - apply (ok_words F _ OV).
  - intros i L. eapply ok_pos; [exact OH|]. eapply subset_ok; eauto.
  - intros g L. eapply ok_own; [exact OH|]. eapply subset_ok; eauto.
  - intros g f L1 L2. eapply ok_apart; [exact OH| |]; eapply subset_ok; eauto.
  - intros id o Q. destruct (ok_all F _ OH id o Q) as (g & L & E). exists g. split; [|exact E]. eapply subset_ok; eauto.
  - apply (ok_sane F _ OH).
  - apply (ok_object F _ OH).
Qed.
Lemma know_var_ok F v x t w : okv F v -> has_vty t w = true -> okv (know_var F x t) (let_var v x w).
Proof.
  intros O T. constructor; try apply O. intros y u L. cbn [know_var k_var lookup let_var vs_var] in *. rewrite Nat.eqb_sym. destruct (Nat.eqb_spec x y) as [->|D].
  - injection L as <-. eauto.
  - rewrite lookup_forget in L. apply Nat.eqb_neq in D. rewrite D in L. now apply O.
Qed.
Lemma let_hand_ok F v i bs : okv F v -> hand_ints bs = true -> okv F (let_hand v i bs).
Proof.
  intros O T. constructor; try apply O.
  - intros j L. cbn [let_hand vs_hand]. destruct (Nat.eqb j i); eauto. now apply O.
  - intros j cs. cbn [let_hand vs_hand]. destruct (Nat.eqb j i); [|apply O]. intros H. injection H as <-. exact T.
Qed.
Lemma let_bits_ok F v i w0 w1 : okv F v -> words_ints w0 w1 = true -> okv F (let_bits v i (w0, w1)).
Proof.
  intros O T. constructor; try apply O.
  - intros j L. cbn [let_bits vs_bits]. destruct (Nat.eqb j i); eauto. now apply O.
  - intros j a b. cbn [let_bits vs_bits]. destruct (Nat.eqb j i); [|apply O]. intros H. injection H as <- <-. exact T.
Qed.
Lemma know_hand_ok F v i bs : okv F v -> hand_ints bs = true -> okv (know_hand F i) (let_hand v i bs).
Proof.
  intros O T. apply (let_hand_ok F v i bs) in O as O'; [|exact T]. constructor; try apply O'.
  intros j L. cbn [know_hand k_hand] in L. rewrite listed_cons in L. cbn [let_hand vs_hand]. destruct (Nat.eqb j i); eauto. now apply O.
Qed.
Lemma know_bits_ok F v i w0 w1 : okv F v -> words_ints w0 w1 = true -> okv (know_bits F i) (let_bits v i (w0, w1)).
Proof.
  intros O T. apply (let_bits_ok F v i w0 w1) in O as O'; [|exact T]. constructor; try apply O'.
  intros j L. cbn [know_bits k_bits] in L. rewrite listed_cons in L. cbn [let_bits vs_bits]. destruct (Nat.eqb j i); eauto. now apply O.
Qed.

(** ** Arguments *)
Lemma arg_type_ok F v a t : okv F v -> arg_type F a = Some t -> exists w, arg_of v a = Some w /\ has_vty t w = true.
Proof. intros O. destruct a as [w|x|i|i]; cbn [arg_type arg_of]; intros H; try discriminate H; [|now apply O]. apply literal_ok in H. eauto. Qed.
Lemma fits_ok F v a t : okv F v -> fits F a t = true -> exists w, arg_of v a = Some w /\ has_vty t w = true.
Proof.
  intros O. unfold fits. destruct (arg_type F a) as [u|] eqn:Q; [|discriminate]. intros S. destruct (arg_type_ok F v a u O Q) as (w & E & T).
  exists w. split; [exact E|]. eapply sub_ok; eauto.
Qed.
Lemma int_fits F v a t p : okv F v -> fits F a t = true -> (forall w, has_vty t w = true -> exists n, w = VInt n /\ p n = true) ->
  exists n, int_arg p v a = Some n /\ p n = true.
Proof. intros O S H. destruct (fits_ok F v a t O S) as (w & E & T). destruct (H w T) as (n & -> & Pn). exists n. unfold int_arg. rewrite E, Pn. auto. Qed.
Lemma vty_range lo hi w : has_vty (TInt lo hi) w = true -> exists n, w = VInt n /\ within lo hi n = true.
Proof. destruct w; cbn [has_vty]; intros H; try discriminate H. eauto. Qed.
Lemma vty_move w : has_vty TMove w = true -> exists n, w = VInt n /\ move_int n = true.
Proof. destruct w; cbn [has_vty]; intros H; try discriminate H. eauto. Qed.
Lemma vty_piece w : has_vty TPiece w = true -> exists n, w = VInt n /\ piece_int n = true.
Proof. destruct w; cbn [has_vty]; intros H; try discriminate H. eauto. Qed.
Lemma numeric_ok F v a : okv F v -> numeric F a = true -> exists z, number_of v a = Some z.
Proof.
  intros O. unfold numeric. destruct (arg_type F a) as [t|] eqn:Q; [|discriminate]. intros N. destruct (arg_type_ok F v a t O Q) as (w & E & T).
  unfold number_of. rewrite E. destruct t, w; try discriminate T; try discriminate N; eauto; destruct b; eauto.
Qed.
Lemma cond_ok F v c : okv F v -> cond_fits F c = true -> exists b, holds v c = Some b.
Proof.
  intros O. destruct c as [a|a b|a b]; cbn [cond_fits holds]; rewrite ?andb_true_iff; intros H.
  - destruct (numeric_ok F v a O H) as (z & ->). eauto.
  - destruct H as [H1 H2]. destruct (numeric_ok F v a O H1) as (y & ->), (numeric_ok F v b O H2) as (z & ->). eauto.
  - destruct H as [H1 H2]. destruct (numeric_ok F v a O H1) as (y & ->), (numeric_ok F v b O H2) as (z & ->). eauto.
Qed.

(** ** Conditions *)
Lemma at_least_ok n t w : has_vty t w = true -> (forall k, w = VInt k -> n <= k) -> has_vty (at_least n t) w = true.
Proof.
  intros T H. destruct t as [lo hi| | | | | | | | |]; cbn [at_least]; try exact T.
  - destruct w as [k| | | | | |]; cbn [has_vty] in *; try discriminate T. specialize (H k eq_refl). ranges. lia.
  - destruct (1 <=? n) eqn:Q; [|exact T]. destruct w as [k| | | | | |]; cbn [has_vty] in *; try discriminate T. specialize (H k eq_refl). ranges. lia.
  - destruct (1 <=? n) eqn:Q; [|exact T]. destruct w as [k| | | | | |]; cbn [has_vty] in *; try discriminate T. specialize (H k eq_refl).
    apply orb_true_iff in T. destruct T as [T|T]; [|exact T]. apply N.eqb_eq in T. apply N.leb_le in Q. lia.
Qed.
Lemma at_most_ok n t w : has_vty t w = true -> (forall k, w = VInt k -> k <= n) -> has_vty (at_most n t) w = true.
Proof.
  intros T H. destruct t as [lo hi| | | | | | | | |]; cbn [at_most]; try exact T.
  destruct w as [k| | | | | |]; cbn [has_vty] in *; try discriminate T. specialize (H k eq_refl). ranges. lia.
Qed.
Lemma refine_ok F v x f : okv F v -> (forall w t, vs_var v x = Some w -> has_vty t w = true -> has_vty (f t) w = true) -> okv (refine F x f) v.
Proof.
  intros O H. unfold refine. destruct (lookup (k_var F) x) as [t|] eqn:Q; [|exact O]. constructor; try apply O.
  intros y u L. cbn [know_var k_var lookup] in L. destruct (Nat.eqb_spec x y) as [->|D].
  - injection L as <-. destruct (ok_var F v O y t Q) as (w & E & T). eauto.
  - rewrite lookup_forget in L. apply Nat.eqb_neq in D. rewrite D in L. now apply O.
Qed.
Lemma number_int v x k : vs_var v x = Some (VInt k) -> number_of v (AVar x) = Some (Z.of_N k).
Proof. intros H. unfold number_of. cbn [arg_of]. now rewrite H. Qed.
Lemma assume_ok F v c b : okv F v -> holds v c = Some b -> okv (assume c b F) v.
Proof.
  intros O H. destruct c as [a|a a'|a a'].
  - destruct a as [w|x|i|i]; try (destruct b; exact O). destruct b; cbn [assume holds] in *; apply refine_ok; auto; intros w t E T.
    + apply at_least_ok; [exact T|]. intros k ->. rewrite (number_int v x k E) in H. destruct (Z.eq_dec (Z.of_N k) 0); [discriminate H|]. lia.
    + apply at_most_ok; [exact T|]. intros k ->. rewrite (number_int v x k E) in H. destruct (Z.eq_dec (Z.of_N k) 0); [|discriminate H]. lia.
  - destruct a as [w|x|i|i]; try (destruct b; exact O). destruct a' as [w|y|i|i]; try (destruct b; exact O). destruct w as [n| | | | | |]; try (destruct b; exact O).
    cbn [holds] in H. assert (Hn : forall k, vs_var v x = Some (VInt k) -> Some (if Z.eq_dec (Z.of_N k) (Z.of_N n) then true else false) = Some b).
    { intros k E. rewrite <- H, (number_int v x k E). reflexivity. }
    destruct b; cbn [assume].
    + apply refine_ok; auto. intros w t E T.
      assert (K : forall k, w = VInt k -> k = n) by (intros k ->; specialize (Hn k E); destruct (Z.eq_dec (Z.of_N k) (Z.of_N n)); [lia|discriminate Hn]).
      apply at_most_ok; [apply at_least_ok; [exact T|]|]; intros k Q; apply K in Q; lia.
    + destruct (N.eqb_spec n 0) as [->|]; [|exact O]. apply refine_ok; auto. intros w t E T. apply at_least_ok; [exact T|].
      intros k ->. specialize (Hn k E). destruct (Z.eq_dec (Z.of_N k) (Z.of_N 0)); [discriminate Hn|lia].
  - destruct a as [w|x|i|i]; try (destruct b; exact O). destruct a' as [w|y|i|i]; try (destruct b; exact O). destruct w as [n| | | | | |]; try (destruct b; exact O).
    cbn [holds] in H. assert (Hn : forall k, vs_var v x = Some (VInt k) -> Some (if Z_lt_dec (Z.of_N k) (Z.of_N n) then true else false) = Some b).
    { intros k E. rewrite <- H, (number_int v x k E). reflexivity. }
    destruct b; cbn [assume].
    + destruct (N.eqb_spec n 0) as [|D]; [exact O|]. apply refine_ok; auto. intros w t E T. apply at_most_ok; [exact T|].
      intros k ->. specialize (Hn k E). destruct (Z_lt_dec (Z.of_N k) (Z.of_N n)); [lia|discriminate Hn].
    + apply refine_ok; auto. intros w t E T. apply at_least_ok; [exact T|].
      intros k ->. specialize (Hn k E). destruct (Z_lt_dec (Z.of_N k) (Z.of_N n)); [discriminate Hn|lia].
Qed.
Lemma okh_same F G h : k_pos G = k_pos F -> k_own G = k_own F -> okh F h -> okh G h.
Proof. intros P Q O. constructor; rewrite ?P, ?Q; apply O. Qed.
Lemma refine_heap F x f : k_pos (refine F x f) = k_pos F /\ k_own (refine F x f) = k_own F.
Proof. unfold refine. now destruct (lookup (k_var F) x). Qed.
Lemma assume_heap c b F : k_pos (assume c b F) = k_pos F /\ k_own (assume c b F) = k_own F.
Proof.
  destruct c as [a|a a'|a a']; destruct a as [w|x|i|i]; try (destruct b; split; reflexivity).
  - destruct b; apply refine_heap.
  - destruct a' as [w|y|i|i]; try (destruct b; split; reflexivity). destruct w as [n| | | | | |]; try (destruct b; split; reflexivity).
    destruct b; [apply refine_heap|]. cbn [assume]. destruct (n =? 0); [apply refine_heap|split; reflexivity].
  - destruct a' as [w|y|i|i]; try (destruct b; split; reflexivity). destruct w as [n| | | | | |]; try (destruct b; split; reflexivity).
    destruct b; [|apply refine_heap]. cbn [assume]. destruct (n =? 0); [split; reflexivity|apply refine_heap].
Qed.
Lemma assume_all F st c b : ok F st -> holds (ps_val st) c = Some b -> ok (assume c b F) st.
Proof. intros [O1 O2] H. split; [now apply assume_ok|]. destruct (assume_heap c b F). now apply (okh_same F). Qed.

(** ** Calls on values *)
Lemma on_hand f vs p g : meaning f vs = Some (OnHand p g) -> f = F_Hand_add \/ f = F_Hand_remove.
Proof.
  intros M. destruct f; auto; exfalso; cbn [meaning] in M;
    repeat (match type of M with (match ?l with _ => _ end) = _ => destruct l | when ?b _ = _ => unfold when in M end; try discriminate M).
Qed.
Lemma on_bits f vs p g : meaning f vs = Some (OnBits p g) -> In f [F_Bitboard_pop; F_Bitboard_bitand_assign; F_Bitboard_bitor_assign; F_Bitboard_bitxor_assign].
Proof.
  intros M. destruct f; cbn [In]; auto; exfalso; cbn [meaning] in M;
    repeat (match type of M with (match ?l with _ => _ end) = _ => destruct l | when ?b _ = _ => unfold when in M end; try discriminate M).
Qed.
Fixpoint distinct (l : list string) : bool := match l with [] => true | x :: l => negb (existsb (String.eqb x) l) && distinct l end.
Lemma distinct_inj {X} (f : X -> string) (l : list X) : distinct (map f l) = true -> forall a b, In a l -> In b l -> f a = f b -> a = b.
Proof.
  induction l as [|x l IH]; [intros _ a b []|]. cbn [map distinct]. rewrite andb_true_iff, negb_true_iff. intros [N D] a b Ia Ib E.
  assert (no : forall y, In y l -> f x <> f y).
  { intros y I Q. apply not_true_iff_false in N. apply N. apply existsb_exists. exists (f y). split; [now apply in_map|]. rewrite Q. apply String.eqb_refl. }
  destruct Ia as [<-|Ia], Ib as [<-|Ib]; auto; [destruct (no b Ib E)|destruct (no a Ia (eq_sym E))].
Qed.
Lemma names_distinct : distinct (map re_name rust_exports) = true.
Proof. vm_compute. reflexivity. Qed.
Lemma contract f e args : interface_of f = Some e -> typed (re_args e) args = true -> unchecked_fine f args = true ->
  exists eff, meaning f args = Some eff /\ effect_typed (re_ret e) eff.
Proof.
  intros I. destruct (c62_contract_pf f) as (e' & I' & N' & H). apply find_some in I. destruct I as [I N]. apply String.eqb_eq in N.
  rewrite (distinct_inj re_name rust_exports names_distinct e e' I I'); [apply H|]. congruence.
Qed.
Lemma arg_fits_ok F v t a : okv F v -> arg_fits F t a = true -> exists w, arg_of v a = Some w /\ value_of t w = true.
Proof.
  intros O H. assert (V : match vty_of t with Some u => fits F a u | None => false end = true -> exists w, arg_of v a = Some w /\ value_of t w = true).
  { destruct (vty_of t) as [u|] eqn:Q; [|discriminate]. intros S. destruct (fits_ok F v a u O S) as (w & E & T). exists w. split; [exact E|]. now rewrite (value_vty t u w Q). }
  destruct t as [| | | | | |name|t n|t|t|t|t|t]; cbn [arg_fits] in H; auto.
  destruct t as [| | | | | |name|t n|t|t|t|t|t]; try (destruct a; discriminate H). destruct a as [w|x|i|i]; try discriminate H; exists (VPtr 0); split; reflexivity.
Qed.
Lemma args_fit_ok F v ts : okv F v -> forall l, args_fit F ts l = true -> exists ws, args_of v l = Some ws /\ typed ts ws = true.
Proof.
  intros O. induction ts as [|t ts IH]; intros [|a l] H; try discriminate H; [exists []; split; reflexivity|].
  cbn [args_fit] in H. apply andb_true_iff in H. destruct H as [H1 H2]. destruct (arg_fits_ok F v t a O H1) as (w & E & T), (IH l H2) as (ws & Es & Ts).
  exists (w :: ws). cbn [args_of typed]. rewrite E, Es, T, Ts. split; reflexivity.
Qed.
Lemma unchecked_ok F v f l ws : okv F v -> unchecked_fits F f l = true -> args_of v l = Some ws -> unchecked_fine f ws = true.
Proof.
  intros O. unfold unchecked_fits, unchecked_fine. destruct (unchecked_limit f) as [n|]; [|reflexivity]. destruct l as [|a [|]]; try discriminate.
  intros S E. destruct (fits_ok F v a _ O S) as (w & Ew & T). destruct (vty_range _ _ _ T) as (k & -> & K). cbn [args_of] in E. rewrite Ew in E. injection E as <-. exact K.
Qed.
Lemma value_ok F G v o : okv F v -> check_value F o = Some G -> (k_pos G = k_pos F /\ k_own G = k_own F) /\ exists v', v_meaning v o = Some v' /\ okv G v'.
Proof.
  intros O. destruct o as [x f l|i a|x i|i a|x i]; cbn [check_value v_meaning].
  - destruct (interface_of f) as [e|] eqn:I; [|discriminate]. destruct (args_fit F (re_args e) l && unchecked_fits F f l) eqn:S; [|discriminate].
    apply andb_true_iff in S. destruct S as [S U]. destruct (vty_of (re_ret e)) as [t|] eqn:T; [|discriminate]. intros H. injection H as <-. split; [split; reflexivity|].
    destruct (args_fit_ok F v _ O l S) as (ws & E & Ts). rewrite E. destruct (contract f e ws I Ts (unchecked_ok F v f l ws O U E)) as (eff & M & X). rewrite M.
    destruct eff as [r|p g|p g]; cbn [effect_typed] in X.
    + exists (let_var v x r). split; [reflexivity|]. apply know_var_ok; [exact O|]. now rewrite <- (value_vty _ _ _ T).
    + assert (exists i l', l = AHandPtr i :: l' /\ listed (k_hand F) i = true) as (i & l' & -> & L).
      { destruct (on_hand _ _ _ _ M) as [->| ->]; vm_compute in I; injection I as <-; cbn [re_args] in S; (destruct l as [|a l]; [discriminate S|]); cbn [args_fit] in S;
          apply andb_true_iff in S; destruct S as [S _]; destruct a as [w|y|i|i]; try discriminate S; cbn [arg_fits] in S; try discriminate S; eauto. }
      destruct (ok_hand F v O i L) as (bs & Q). rewrite Q. destruct (X bs (ok_hands F v O i bs Q)) as [X1 X2]. destruct (g bs) as [bs' r]. cbn [fst snd] in *.
      eexists. split; [reflexivity|]. apply know_var_ok; [now apply let_hand_ok|]. now rewrite <- (value_vty _ _ _ T).
    + assert (exists i l', l = ABitsPtr i :: l' /\ listed (k_bits F) i = true) as (i & l' & -> & L).
      { destruct (on_bits _ _ _ _ M) as [<-|[<-|[<-|[<-|[]]]]]; vm_compute in I; injection I as <-; cbn [re_args] in S; (destruct l as [|a l]; [discriminate S|]); cbn [args_fit] in S;
          apply andb_true_iff in S; destruct S as [S _]; destruct a as [w|y|i|i]; try discriminate S; cbn [arg_fits] in S; try discriminate S; eauto. }
      destruct (ok_bits F v O i L) as (w0 & w1 & Q). rewrite Q. destruct (X w0 w1 (ok_words F v O i w0 w1 Q)) as [X1 X2]. destruct (g w0 w1) as [[a0 a1] r]. cbn [fst snd] in *.
      eexists. split; [reflexivity|]. apply know_var_ok; [now apply let_bits_ok|]. now rewrite <- (value_vty _ _ _ T).
  - destruct (fits F a THand) eqn:S; [|discriminate]. intros H. injection H as <-. split; [split; reflexivity|].
    destruct (fits_ok F v a _ O S) as (w & E & T). rewrite E. destruct w; cbn [has_vty] in T; try discriminate T. rewrite T. eexists. split; [reflexivity|]. now apply know_hand_ok.
  - destruct (listed (k_hand F) i) eqn:S; [|discriminate]. intros H. injection H as <-. split; [split; reflexivity|].
    destruct (ok_hand F v O i S) as (bs & Q). rewrite Q. eexists. split; [reflexivity|]. apply know_var_ok; [exact O|]. exact (ok_hands F v O i bs Q).
  - destruct (fits F a TBits) eqn:S; [|discriminate]. intros H. injection H as <-. split; [split; reflexivity|].
    destruct (fits_ok F v a _ O S) as (w & E & T). rewrite E. destruct w; cbn [has_vty] in T; try discriminate T. rewrite T. eexists. split; [reflexivity|]. now apply know_bits_ok.
  - destruct (listed (k_bits F) i) eqn:S; [|discriminate]. intros H. injection H as <-. split; [split; reflexivity|].
    destruct (ok_bits F v O i S) as (w0 & w1 & Q). rewrite Q. eexists. split; [reflexivity|]. apply know_var_ok; [exact O|]. exact (ok_words F v O i w0 w1 Q).
Qed.

(** ** Calls on positions *)
Lemma squares_typed f : has_vty TBits (squares_val f) = true.
Proof. unfold squares_val. cbn [has_vty]. apply words_iff. pose proof (board_words_valid f) as V. now destruct (board_words f). Qed.
Lemma piece_typed x : has_vty TPieceOrNone (VInt (piece_byte x)) = true.
Proof. destruct x as [[k c]|]; [|reflexivity]. destruct k, c; reflexivity. Qed.
Lemma hand_typed x c : sane x -> has_vty THand (VHand (map (a_hand x c) hand_kinds ++ [0])) = true.
Proof.
  intros (_ & H & _). cbn [has_vty]. unfold hand_ints. rewrite !andb_true_iff. split; [split; [reflexivity|]|reflexivity].
  rewrite forallb_app. apply andb_true_iff. split; [|reflexivity]. apply forallb_forall. intros n I. apply in_map_iff in I. destruct I as (k & <- & _).
  unfold byte_int. apply N.ltb_lt. apply H.
Qed.
Lemma query_ok F v q t : okv F v -> query_type F q = Some t -> exists f, a_reply v q = Some f /\ forall x, sane x -> has_vty t (f x) = true.
Proof.
  intros O. destruct q as [a| | |a| | | |a|a]; cbn [query_type a_reply]; intros H;
    try (match type of H with (if ?b then _ else _) = _ => destruct b eqn:S; [|discriminate H] end); injection H as <-.
  - destruct (int_fits F v a _ square_int O S (vty_range 1 81)) as (n & -> & _). cbn [option_map]. eexists. split; [reflexivity|]. intros x _. apply piece_typed.
  - eexists. split; [reflexivity|]. intros x (P & _). cbn [has_vty]. ranges. lia.
  - eexists. split; [reflexivity|]. intros x _. cbn [has_vty]. destruct (a_side x); reflexivity.
  - destruct (int_fits F v a _ color_int O S (vty_range 1 2)) as (n & -> & _). cbn [option_map]. eexists. split; [reflexivity|]. intros x V. now apply hand_typed.
  - eexists. split; [reflexivity|]. intros x (_ & _ & L). exact L.
  - eexists. split; [reflexivity|]. intros x _. apply squares_typed.
  - eexists. split; [reflexivity|]. intros x _. apply squares_typed.
  - destruct (int_fits F v a _ color_int O S (vty_range 1 2)) as (n & -> & _). cbn [option_map]. eexists. split; [reflexivity|]. intros x _. apply squares_typed.
  - destruct (int_fits F v a _ piece_int O S vty_piece) as (n & -> & _). cbn [option_map]. eexists. split; [reflexivity|]. intros x _. apply squares_typed.
Qed.
Lemma own_ok F h g : okh F h -> listed (k_own F) g = true ->
  exists id x0 x ms, hc_handle h g = Some id /\ hc_object h id = Some (x0, x, ms) /\ sane x0 /\ sane x /\ id < hc_next h /\
  forall T (f : N -> apos -> apos -> list move -> T), on_object h g f = Fine (f id x0 x ms).
Proof.
  intros O L. destruct (ok_own F h O g L) as (id & x0 & x & ms & E & Q). destruct (ok_object F h O _ _ _ _ Q) as (S0 & S1 & B).
  exists id, x0, x, ms. repeat (split; [assumption|]). intros T f. unfold on_object, object_of. now rewrite E, Q.
Qed.
Lemma place_ok F h pl : okh F h -> place_fits F pl = true -> exists x, sane x /\ forall T (f : apos -> T), on_place h pl f = Fine (f x).
Proof.
  intros O. destruct pl as [i|g|g]; cbn [place_fits on_place]; intros L.
  - destruct (ok_pos F h O i L) as (x & E). exists x. split; [eapply ok_sane; eauto|]. intros T f. now rewrite E.
  - destruct (own_ok F h g O L) as (id & x0 & x & ms & _ & _ & S0 & S1 & _ & H). exists x. split; [exact S1|]. intros T f. now rewrite H.
  - destruct (own_ok F h g O L) as (id & x0 & x & ms & _ & _ & S0 & S1 & _ & H). exists x0. split; [exact S0|]. intros T f. now rewrite H.
Qed.
Lemma new_pos_ok F h i x : okh F h -> sane x -> okh (know_pos F i) (new_pos h i x).
Proof.
  intros O S. constructor; try apply O; unfold new_pos, put_local, set_pos; cbn [know_pos k_pos hc_local cl_pos].
  - intros j L. rewrite listed_cons in L. destruct (Nat.eqb j i); eauto. now apply O.
  - intros j y. destruct (Nat.eqb j i); [|apply O]. intros H. injection H as <-. exact S.
Qed.
Lemma move_pos_ok F h i x : okh F h -> sane x -> okh F (new_pos h i x).
Proof.
  intros O S. constructor; try apply O; unfold new_pos, put_local, set_pos; cbn [hc_local cl_pos].
  - intros j L. destruct (Nat.eqb j i); eauto. now apply O.
  - intros j y. destruct (Nat.eqb j i); [|apply O]. intros H. injection H as <-. exact S.
Qed.
Lemma new_text_ok F h t x : okh F h -> okh F (new_text h t x).
Proof. intros O. constructor; apply O. Qed.
Lemma call_ok F G st c t : ok F st -> check_call F c = Some (G, t) ->
  (k_var G = k_var F /\ k_hand G = k_hand F /\ k_bits G = k_bits F) /\ exists h w, p_meaning st c = Fine (h, w) /\ okh G h /\ has_vty t w = true.
Proof.
  intros [O1 O2]. destruct st as [h v]. cbn [ps_val ps_heap] in *.
  destruct c as [i|i a|i pl|pl q|pl a|pl b|g|g|g f|g a|g q|g b]; cbn [check_call p_meaning ps_val ps_heap]; intros H;
    try (destruct (query_type F q) as [u|] eqn:Q; [|discriminate H]);
    try (match type of H with (if ?b then _ else _) = _ => destruct b eqn:S; [|discriminate H] end); injection H as <- <-; (split; [split; [|split]; reflexivity|]);
    rewrite ?andb_true_iff, ?negb_true_iff in *.
  - eexists _, _. split; [reflexivity|]. split; [|reflexivity]. apply new_pos_ok; [exact O2|apply sane_opening].
  - destruct S as [L S]. destruct (int_fits F v a _ move_int O1 S vty_move) as (n & -> & M). destruct (ok_pos F h O2 i L) as (x & E). rewrite E.
    pose proof (sane_try x n M (ok_sane F h O2 i x E)) as V. destruct (a_try x (unpack (CompactMove n))) as [x' b]. cbn [fst] in V.
    eexists _, _. split; [reflexivity|]. split; [|reflexivity]. now apply move_pos_ok.
  - destruct (place_ok F h pl O2 S) as (x & V & ->). eexists _, _. split; [reflexivity|]. split; [|reflexivity]. now apply new_pos_ok.
  - destruct (query_ok F v q u O1 Q) as (r & -> & R). destruct (place_ok F h pl O2 S) as (x & V & ->). eexists _, _. split; [reflexivity|]. auto.
  - destruct S as [L S]. destruct (int_fits F v a _ kind_int O1 S (vty_range 1 14)) as (n & -> & M). destruct (place_ok F h pl O2 L) as (x & V & ->).
    eexists _, _. split; [reflexivity|]. split; [exact O2|]. apply squares_typed.
  - destruct (place_ok F h pl O2 S) as (x & V & ->). eexists _, _. split; [reflexivity|]. split; [|reflexivity]. now apply new_text_ok.
  - eexists _, _. split; [reflexivity|]. split; [|reflexivity]. unfold put_handle. cbn [hc_local hc_handle hc_object hc_next].
    assert (F0 : hc_object h (hc_next h) = None).
    { destruct (hc_object h (hc_next h)) as [[[x0 x] ms]|] eqn:E; [|reflexivity]. apply (ok_object F h O2) in E. lia. }
    assert (LG : forall j, listed (g :: k_own F) j = Nat.eqb j g || listed (k_own F) j) by reflexivity.
    constructor; cbn [owning k_own k_pos hc_local hc_handle hc_object hc_next]; try apply O2.
    + intros j. rewrite LG. destruct (Nat.eqb_spec j g) as [->|D]; cbn [orb].
      * intros _. exists (hc_next h), a_opening, a_opening, []. rewrite N.eqb_refl. auto.
      * intros L. destruct (ok_own F h O2 j L) as (id & x0 & x & ms & E & B). exists id, x0, x, ms. split; [exact E|].
        destruct (N.eqb_spec id (hc_next h)) as [->|]; [congruence|exact B].
    + intros j k. rewrite !LG. destruct (Nat.eqb_spec j g) as [->|D], (Nat.eqb_spec k g) as [->|D']; cbn [orb]; intros Lj Lk E; auto.
      * destruct (ok_own F h O2 k Lk) as (id & x0 & x & ms & E' & B). congruence.
      * destruct (ok_own F h O2 j Lj) as (id & x0 & x & ms & E' & B). congruence.
      * now apply (ok_apart F h O2).
    + intros id o. destruct (N.eqb_spec id (hc_next h)) as [->|D]; intros E.
      * exists g. rewrite LG, Nat.eqb_refl. auto.
      * destruct (ok_all F h O2 id o E) as (j & L & E'). exists j. rewrite LG, L, orb_true_r. split; [reflexivity|].
        destruct (Nat.eqb_spec j g) as [->|]; [congruence|exact E'].
    + intros id x0 x ms. destruct (N.eqb_spec id (hc_next h)) as [->|D]; intros E.
      * injection E as <- <- <-. split; [apply sane_opening|]. split; [apply sane_opening|]. lia.
      * destruct (ok_object F h O2 _ _ _ _ E) as (? & ? & ?). split; [assumption|]. split; [assumption|]. lia.
  - destruct (own_ok F h g O2 S) as (id & x0 & x & ms & E & B & S0 & S1 & Lt & ->). eexists _, _. split; [reflexivity|]. split; [|reflexivity].
    unfold put_object. constructor; cbn [owning k_own k_pos hc_local hc_handle hc_object hc_next]; try apply O2.
    + intros j. rewrite listed_drop, andb_true_iff, negb_true_iff, Nat.eqb_neq. intros [D L]. destruct (ok_own F h O2 j L) as (id' & y0 & y & l & E' & B').
      exists id', y0, y, l. split; [exact E'|]. destruct (N.eqb_spec id' id) as [->|]; [|exact B']. destruct D. apply (ok_apart F h O2); congruence.
    + intros j k. rewrite !listed_drop, !andb_true_iff. intros [_ Lj] [_ Lk]. now apply (ok_apart F h O2).
    + intros id' o. destruct (N.eqb_spec id' id) as [->|D]; [discriminate|]. intros E'. destruct (ok_all F h O2 id' o E') as (j & L & Q). exists j. split; [|exact Q].
      rewrite listed_drop, L, andb_true_r, negb_true_iff, Nat.eqb_neq. congruence.
    + intros id' y0 y l. destruct (N.eqb_spec id' id) as [->|D]; [discriminate|]. apply (ok_object F h O2).
  - destruct S as [Lf Lg]. destruct (own_ok F h f O2 Lf) as (id & x0 & x & ms & E & B & S0 & S1 & Lt & _). rewrite E. eexists _, _. split; [reflexivity|]. split; [|reflexivity].
    assert (LG : forall j, listed (g :: drop (k_own F) f) j = Nat.eqb j g || (negb (Nat.eqb j f) && listed (k_own F) j)) by (intros j; rewrite <- listed_drop; reflexivity).
    unfold put_handle. constructor; cbn [owning k_own k_pos hc_local hc_handle hc_object hc_next]; try apply O2.
    + intros j. rewrite LG. destruct (Nat.eqb_spec j g) as [->|D]; cbn [orb]; [eauto 6|]. rewrite andb_true_iff. intros [_ L]. now apply (ok_own F h O2).
    + intros j k. rewrite !LG. destruct (Nat.eqb_spec j g) as [->|D], (Nat.eqb_spec k g) as [->|D']; cbn [orb]; rewrite ?andb_true_iff, ?negb_true_iff, ?Nat.eqb_neq; auto.
      * intros _ [D2 Lk] Q. destruct D2. apply (ok_apart F h O2); congruence.
      * intros [D2 Lj] _ Q. destruct D2. apply (ok_apart F h O2); congruence.
      * intros [_ Lj] [_ Lk]. now apply (ok_apart F h O2).
    + intros id' o E'. destruct (ok_all F h O2 id' o E') as (j & L & Q). destruct (Nat.eqb_spec j f) as [->|D].
      * exists g. rewrite LG, Nat.eqb_refl. split; [reflexivity|]. congruence.
      * exists j. apply Nat.eqb_neq in D. rewrite LG, D, L. cbn [negb andb]. rewrite orb_true_r. split; [reflexivity|]. destruct (Nat.eqb_spec j g) as [->|]; [congruence|exact Q].
  - destruct S as [L S]. destruct (int_fits F v a _ move_int O1 S vty_move) as (n & -> & M). destruct (own_ok F h g O2 L) as (id & x0 & x & ms & E & B & S0 & S1 & Lt & ->).
    pose proof (sane_try x n M S1) as V. destruct (a_try x (unpack (CompactMove n))) as [x' b]. cbn [fst] in V. eexists _, _. split; [reflexivity|]. split; [|reflexivity].
    unfold put_object. constructor; cbn [hc_local hc_handle hc_object hc_next]; try apply O2.
    + intros j Lj. destruct (ok_own F h O2 j Lj) as (id' & y0 & y & l & E' & B'). destruct (N.eqb_spec id' id) as [->|D].
      * exists id, x0, x', (if b then ms ++ [unpack (CompactMove n)] else ms). rewrite N.eqb_refl. auto.
      * exists id', y0, y, l. apply N.eqb_neq in D. rewrite D. auto.
    + intros id' o. destruct (N.eqb_spec id' id) as [->|D]; [|apply (ok_all F h O2)]. intros _. apply (ok_all F h O2 id _ B).
    + intros id' y0 y l. destruct (N.eqb_spec id' id) as [->|D]; [|apply (ok_object F h O2)]. intros Q. injection Q as <- <- <-. auto.
  - destruct (query_ok F v q u O1 Q) as (r & -> & R). destruct (own_ok F h g O2 S) as (id & x0 & x & ms & E & B & S0 & S1 & Lt & ->). eexists _, _. split; [reflexivity|]. auto.
  - destruct (own_ok F h g O2 S) as (id & x0 & x & ms & E & B & S0 & S1 & Lt & ->). eexists _, _. split; [reflexivity|]. split; [|reflexivity]. now apply new_text_ok.
Qed.

(** ** Statements *)
Lemma okv_same F G v : k_var G = k_var F -> k_hand G = k_hand F -> k_bits G = k_bits F -> okv F v -> okv G v.
Proof. intros A B C O. constructor; rewrite ?A, ?B, ?C; apply O. Qed.
Lemma while_inv F c b G : check F (SWhile c b) = Some G ->
  exists K H, cond_fits K c = true /\ stronger F K = true /\ check (assume c true K) b = Some H /\ stronger H K = true /\ G = assume c false K.
Proof.
  cbn [check]. match goal with |- ?f tries F = _ -> _ => assert (X : forall n K, f n K = Some G ->
    exists K H, cond_fits K c = true /\ stronger F K = true /\ check (assume c true K) b = Some H /\ stronger H K = true /\ G = assume c false K) end; [|apply X].
  induction n as [|n IH]; intros K Q; [discriminate Q|]. destruct (cond_fits K c && stronger F K) eqn:S; [|discriminate Q]. apply andb_true_iff in S. destruct S as [S1 S2].
  destruct (check (assume c true K) b) as [H|] eqn:D; [|discriminate Q]. destruct (stronger H K) eqn:W; [|eapply IH; exact Q].
  injection Q as <-. exists K, H. auto 6.
Qed.
Lemma numeric_value F v a t : okv F v -> arg_type F a = Some t -> numeric F a = true ->
  exists z, number_of v a = Some z /\ forall lo hi, t = TInt lo hi -> (Z.of_N lo <= z <= Z.of_N hi)%Z.
Proof.
  intros O Q S. destruct (numeric_ok F v a O S) as (z & E). exists z. split; [exact E|]. intros lo hi ->. destruct (arg_type_ok F v a _ O Q) as (w & E' & T).
  destruct (vty_range _ _ _ T) as (n & -> & R). unfold number_of in E. rewrite E' in E. injection E as <-. ranges. lia.
Qed.
Lemma sum_ok t u y z : (forall lo hi, t = TInt lo hi -> (Z.of_N lo <= y <= Z.of_N hi)%Z) -> (forall lo hi, u = TInt lo hi -> (Z.of_N lo <= z <= Z.of_N hi)%Z) ->
  has_vty (sum_type t u) (VInt (Z.to_N ((y + z) mod 256))) = true.
Proof.
  intros A B. assert (W : has_vty (TInt 0 255) (VInt (Z.to_N ((y + z) mod 256))) = true).
  { cbn [has_vty]. pose proof (Z.mod_pos_bound (y + z) 256). ranges. lia. }
  destruct t as [a b| | | | | | | | |], u as [c d| | | | | | | | |]; cbn [sum_type]; try exact W. destruct (N.ltb_spec (b + d) 256) as [L|]; [|exact W].
  specialize (A _ _ eq_refl). specialize (B _ _ eq_refl). rewrite Z.mod_small by lia. cbn [has_vty]. ranges. lia.
Qed.
Lemma check_ok s : forall F G, check F s = Some G -> forall fuel st, ok F st ->
  exists r, runs fuel s st = Fine r /\ match r with Some st' => ok G st' | None => True end.
Proof.
  induction s as [|o|x c|x a|x a b|s IHs t IHt|c s IHs t IHt|c s IHs]; intros F G C fuel st O; (destruct fuel as [|fuel]; [exists None; split; [reflexivity|exact I]|]).
  - injection C as <-. exists (Some st). split; [reflexivity|exact O].
  - cbn [check] in C. destruct O as [O1 O2]. destruct (value_ok F G (ps_val st) o O1 C) as ((P & Q) & v' & M & V). cbn [runs]. rewrite M. eexists. split; [reflexivity|].
    split; [exact V|]. cbn [ps_heap]. now apply (okh_same F).
  - cbn [check] in C. destruct (check_call F c) as [[H t]|] eqn:Q; [|discriminate C]. injection C as <-. destruct (call_ok F H st c t O Q) as ((A1 & A2 & A3) & h & w & M & Oh & T).
    cbn [runs]. rewrite M. eexists. split; [reflexivity|]. split; [|now apply (okh_same H)]. cbn [ps_val]. apply know_var_ok; [|exact T]. apply (okv_same F); auto. apply O.
  - cbn [check] in C. destruct (arg_type F a) as [t|] eqn:Q; [|discriminate C]. injection C as <-. destruct O as [O1 O2]. destruct (arg_type_ok F _ a t O1 Q) as (w & E & T).
    cbn [runs]. rewrite E. assert (is_pointer w = false) as -> by (destruct t, w; try discriminate T; reflexivity).
    eexists. split; [reflexivity|]. split; [now apply know_var_ok|]. now apply (okh_same F).
  - cbn [check] in C. destruct (arg_type F a) as [t|] eqn:Qa; [|discriminate C]. destruct (arg_type F b) as [u|] eqn:Qb; [|discriminate C].
    destruct (numeric F a && numeric F b) eqn:S; [|discriminate C]. apply andb_true_iff in S. destruct S as [Sa Sb]. injection C as <-. destruct O as [O1 O2].
    destruct (numeric_value F _ a t O1 Qa Sa) as (y & Ey & Ty), (numeric_value F _ b u O1 Qb Sb) as (z & Ez & Tz). cbn [runs]. rewrite Ey, Ez.
    eexists. split; [reflexivity|]. split; [|now apply (okh_same F)]. cbn [ps_val]. apply know_var_ok; [exact O1|]. now apply sum_ok.
  - cbn [check] in C. destruct (check F s) as [H|] eqn:Q; [|discriminate C]. cbn [runs]. destruct (IHs F H Q fuel st O) as (r & -> & R). destruct r as [st'|]; [|exists None; auto].
    apply (IHt H G C fuel st' R).
  - cbn [check] in C. destruct (cond_fits F c) eqn:S; [|discriminate C]. destruct (check (assume c true F) s) as [H|] eqn:Q1; [|discriminate C].
    destruct (check (assume c false F) t) as [K|] eqn:Q2; [|discriminate C]. destruct (stronger H (common false H K) && stronger K (common false H K)) eqn:W; [|discriminate C].
    apply andb_true_iff in W. destruct W as [W1 W2]. injection C as <-. destruct (cond_ok F _ c (proj1 O) S) as (b & E). cbn [runs]. rewrite E.
    destruct b.
    + destruct (IHs _ _ Q1 fuel st (assume_all F st c true O E)) as (r & -> & R). exists r. split; [reflexivity|]. destruct r as [st'|]; [|exact I]. exact (stronger_ok H _ _ W1 R).
    + destruct (IHt _ _ Q2 fuel st (assume_all F st c false O E)) as (r & -> & R). exists r. split; [reflexivity|]. destruct r as [st'|]; [|exact I]. exact (stronger_ok K _ _ W2 R).
  - apply while_inv in C. destruct C as (K & H & S & W & Q & W' & ->). apply (stronger_ok F K _ W) in O. clear F W. revert st O.
    enough (X : forall fuel st, ok K st -> exists r, runs fuel (SWhile c s) st = Fine r /\ match r with Some st' => ok (assume c false K) st' | None => True end) by (intros st O; now apply X).
    clear fuel. induction fuel as [|fuel IHf]; intros st O; [exists None; split; [reflexivity|exact I]|]. destruct (cond_ok K _ c (proj1 O) S) as (b & E). cbn [runs]. rewrite E.
    destruct b; [|exists (Some st); split; [reflexivity|now apply assume_all]]. destruct (IHs _ _ Q fuel st (assume_all K st c true O E)) as (r & -> & R).
    destruct r as [st'|]; [|exists None; auto]. apply IHf. exact (stronger_ok H K _ W' R).
Qed.

(** C70: a program that the checker accepts never uses anything before it is set, no argument it passes breaks a contract, and it uses no
    dangling pointer: it is safe in every profile and with every layout and allocator, and does what its meaning says. *)
Lemma c70_accepted_pf : forall P A E B env Z allocs pads s m fuel, In A word_alignments -> box_ok A B -> (forall j, fresh_blocks A B (allocs j)) ->
  all_placed A env Z m -> stmt_within Z s -> accepted s = true ->
  match exec P A E B env allocs pads fuel s (p_start m) with
  | Ret (Some w) => exists st, runs fuel s p_state_start = Fine (Some st) /\ p_shows A E B env Z w st
  | Ret None => runs fuel s p_state_start = Fine None
  | Panic => p_out_of_memory P A E B env allocs pads s (p_start m)
  | UB => False
  end.
Proof.
  intros P A E B env Z allocs pads s m fuel HA HB HF HP HS H. unfold accepted in H. destruct (check facts_start s) as [G|] eqn:C; [|discriminate H].
  destruct (check_ok s facts_start G C fuel p_state_start ok_start) as (r & R & _).
  pose proof (c66_programs_pf P A E B env Z allocs pads s m fuel r HA HB HF HP HS R) as X. destruct (exec P A E B env allocs pads fuel s (p_start m)) as [[w|]| |]; auto.
  - destruct X as (st & -> & X & _). eauto.
  - now subst r.
Qed.
(** C70: what the checker says about the variables of a program holds whenever it ends: their values are within the types found. *)
Lemma c70_types_pf : forall s F fuel st x t, check facts_start s = Some F -> runs fuel s p_state_start = Fine (Some st) -> lookup (k_var F) x = Some t ->
  exists v, vs_var (ps_val st) x = Some v /\ has_vty t v = true.
Proof.
  intros s F fuel st x t C R L. destruct (check_ok s facts_start F C fuel p_state_start ok_start) as (r & R' & O). rewrite R in R'. injection R' as <-.
  exact (ok_var F _ (proj1 O) x t L).
Qed.
(** C70: a program accepted with no pointer left that owns an object has given all memory back when it ends. *)
Lemma c70_no_leak_pf : forall P A E B env Z allocs pads s m fuel w, In A word_alignments -> box_ok A B -> (forall j, fresh_blocks A B (allocs j)) ->
  all_placed A env Z m -> stmt_within Z s -> accepted_clean s = true ->
  exec P A E B env allocs pads fuel s (p_start m) = Ret (Some w) -> forall y, w_mem (pw_heap w) y = None <-> m y = None.
Proof.
  intros P A E B env Z allocs pads s m fuel w HA HB HF HP HS H X. unfold accepted_clean in H. destruct (check facts_start s) as [G|] eqn:C; [|discriminate H].
  destruct (check_ok s facts_start G C fuel p_state_start ok_start) as (r & R & O).
  pose proof (c66_programs_pf P A E B env Z allocs pads s m fuel r HA HB HF HP HS R) as Y. rewrite X in Y. destruct Y as (st & -> & _).
  eapply (c66_no_leak_pf P A E B env Z allocs pads s m fuel st w); eauto. intros id. destruct (hc_object (ps_heap st) id) as [o|] eqn:Q; [|reflexivity].
  destruct (ok_all G _ (proj2 O) id o Q) as (g & L & _). destruct (k_own G); [discriminate L|discriminate H].
Qed.
Lemma literal_fits F t v : is_pointer v = false -> has_vty t v = true -> fits F (ALit v) t = true.
Proof.
  unfold fits. cbn [arg_type]. intros N T. destruct v as [n|z|b|bs|w0 w1|p|]; try discriminate N; cbn [vty_of_literal];
    destruct t; try discriminate T; cbn [has_vty] in *; rewrite ?T; try reflexivity; cbn [sub has_vty]; try (ranges; lia).
  - now rewrite T, N.eqb_refl.
  - now rewrite T, N.eqb_refl.
Qed.
Lemma literals_fit F ts : forall vs, forallb (fun v => negb (is_pointer v)) vs = true -> typed ts vs = true -> args_fit F ts (map ALit vs) = true.
Proof.
  induction ts as [|t ts IH]; intros [|v vs] N T; try discriminate T; [reflexivity|]. cbn [forallb typed map args_fit] in *. apply andb_true_iff in N, T.
  destruct N as [N Ns], T as [T Ts]. rewrite IH by assumption. rewrite andb_true_r. apply negb_true_iff in N.
  assert (V : forall u, vty_of t = Some u -> fits F (ALit v) u = true) by (intros u Q; apply literal_fits; [exact N|]; now rewrite <- (value_vty t u v Q)).
  destruct t as [| | | | | |name|t n|t|t|t|t|t]; try (apply V; reflexivity); try (destruct v; discriminate T || discriminate N).
  cbn [arg_fits]. destruct (vty_of (RNamed name)) as [u|] eqn:Q; [now apply V|]. exfalso. cbn [vty_of] in Q.
  repeat (match type of Q with (if String.eqb name ?x then _ else _) = _ => destruct (String.eqb_spec name x) as [->|?]; [discriminate Q|] end).
  destruct v; cbn [value_of] in T; try discriminate T;
    repeat (match type of T with context [String.eqb name ?x] => destruct (String.eqb_spec name x); [contradiction|] end); discriminate T.
Qed.
(** C70: the checker does not reject everything: every call with constants of the declared types passes, if the unchecked conversions get
    a number in their range. *)
Lemma c70_constants_pf : forall f e args x, interface_of f = Some e -> typed (re_args e) args = true -> unchecked_fine f args = true ->
  forallb (fun v => negb (is_pointer v)) args = true -> accepted (SValue (OCall x f (map ALit args))) = true.
Proof.
  intros f e args x I T U N. unfold accepted. cbn [check check_value]. rewrite I, (literals_fit _ _ _ N T).
  assert (unchecked_fits facts_start f (map ALit args) = true) as ->.
  { unfold unchecked_fits, unchecked_fine in *. destruct (unchecked_limit f) as [n|]; [|reflexivity]. destruct args as [|v [|]]; try discriminate U; [|destruct v; discriminate U].
    destruct v; try discriminate U. cbn [map]. now apply literal_fits. }
  assert (R : exists t, vty_of (re_ret e) = Some t) by (destruct f; vm_compute in I; injection I as <-; eexists; reflexivity). destruct R as (t & ->). reflexivity.
Qed.
