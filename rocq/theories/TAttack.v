(** Proofs of the property theorems on attacks worked out on bitboards (restated in Prop_Attack.v). *)
From Verif Require Export SpecAttack.
From Verif Require Import LSampleR.
From Verif Require Import LBase LSquare LPiece LBits LBitboard LShift LPosition LRefine LAbstract LExt LEdit TBitboard TPosition TRules.
(*PROPHEAD
Property theorems C73: attacks on bitboards
From Verif Require Import LSample LSampleR LPosition LRefine TRules LSampleX.
*)
Local Opaque check.

(** ** Steps *)
Definition moved_files (P : profile) (x : Z) (b : bitboard) : res bitboard :=
  if (0 <=? x)%Z then bb_shift_left P b (Z.to_N x) else r <- bb_shift_right P b (Z.to_N (- x));; Ret (bb_and r whole).
Lemma whole_member s : valid_square s -> member whole s = true.
Proof. intros V. unfold whole. now rewrite member_not, member_empty. Qed.
Lemma mask_valid r : bb0 r < 2 ^ 64 -> valid_bb (bb_and r whole).
Proof. intros _. apply valid_bb_bits. pose proof (not_valid bb_empty) as W. apply valid_bb_bits in W as [W0 W1]. unfold bb_and, whole in *. cbn [bb0 bb1]. split; intros i Hi; rewrite N.land_spec; [rewrite W0|rewrite W1]; auto using andb_false_r. Qed.
Lemma moved_files_ok P x b : valid_bb b -> (-9 <= x <= 9)%Z -> exists b', moved_files P x b = Ret b' /\ valid_bb b' /\
  forall f r, on_board f r -> (member b' (square_at f r) = true <-> exists g, on_board g r /\ Z.of_N f = (Z.of_N g + x)%Z /\ member b (square_at g r) = true).
Proof.
  intros V Hx. unfold moved_files. destruct (Z.leb_spec 0 x).
  - destruct (shift_left_ok P b (Z.to_N x) V ltac:(lia)) as (b' & -> & V' & M). exists b'. split; auto. split; auto. intros f r B. rewrite M by auto.
    destruct (N.ltb_spec (Z.to_N x) f).
    + split; [intros Q; exists (f - Z.to_N x); unfold on_board in *; repeat split; auto; lia|]. intros (g & Bg & E & Q). replace (f - Z.to_N x) with g by lia. auto.
    + split; [discriminate|]. intros (g & Bg & E & _). unfold on_board in *. lia.
  - destruct (shift_right_ok P b (Z.to_N (- x)) V ltac:(lia)) as (b' & -> & _ & [B0 _] & M). cbn [bind]. eexists. split; [reflexivity|]. split; [now apply mask_valid|].
    intros f r B. rewrite member_and, whole_member, andb_true_r, M by auto using square_at_valid.
    destruct (N.leb_spec (f + Z.to_N (- x)) 9).
    + split; [intros Q; exists (f + Z.to_N (- x)); unfold on_board in *; repeat split; auto; lia|]. intros (g & Bg & E & Q). replace (f + Z.to_N (- x)) with g by lia. auto.
    + split; [discriminate|]. intros (g & Bg & E & _). unfold on_board in *. lia.
Qed.
Definition moved_ranks (P : profile) (y : Z) (b : bitboard) : res bitboard :=
  if (0 <=? y)%Z then bb_shift_down P b (Z.to_N y) else bb_shift_up P b (Z.to_N (- y)).
Lemma moved_ranks_ok P y b : valid_bb b -> (-9 <= y <= 9)%Z -> exists b', moved_ranks P y b = Ret b' /\ valid_bb b' /\
  forall f r, on_board f r -> (member b' (square_at f r) = true <-> exists q, on_board f q /\ Z.of_N r = (Z.of_N q + y)%Z /\ member b (square_at f q) = true).
Proof.
  intros V Hx. unfold moved_ranks. destruct (Z.leb_spec 0 y).
  - destruct (shift_down_ok P b (Z.to_N y) V ltac:(lia)) as (b' & -> & V' & M). exists b'. split; auto. split; auto. intros f r B. rewrite M by auto.
    destruct (N.ltb_spec (Z.to_N y) r).
    + split; [intros Q; exists (r - Z.to_N y); unfold on_board in *; repeat split; auto; lia|]. intros (g & Bg & E & Q). replace (r - Z.to_N y) with g by lia. auto.
    + split; [discriminate|]. intros (g & Bg & E & _). unfold on_board in *. lia.
  - destruct (shift_up_ok P b (Z.to_N (- y)) V ltac:(lia)) as (b' & -> & V' & M). exists b'. split; auto. split; auto. intros f r B. rewrite M by auto.
    destruct (N.leb_spec (r + Z.to_N (- y)) 9).
    + split; [intros Q; exists (r + Z.to_N (- y)); unfold on_board in *; repeat split; auto; lia|]. intros (g & Bg & E & Q). replace (r + Z.to_N (- y)) with g by lia. auto.
    + split; [discriminate|]. intros (g & Bg & E & _). unfold on_board in *. lia.
Qed.
Definition short (d : Z * Z) : Prop := (-9 <= fst d <= 9 /\ -9 <= snd d <= 9)%Z.
Definition shifted (c : color) (d : Z * Z) (b : bitboard) (t : square) : Prop := exists s, valid_square s /\ member b s = true /\ step c s d = Some t.
Lemma translate_ok P c d b : valid_bb b -> short d -> exists b', translate P c d b = Ret b' /\ valid_bb b' /\
  forall t, valid_square t -> (member b' t = true <-> shifted c d b t).
Proof.
  intros V [Hx Hy]. unfold translate. set (sign := match c with Black => 1 | White => -1 end%Z). assert (Hs : (sign = 1 \/ sign = -1)%Z) by (unfold sign; destruct c; auto).
  destruct (moved_files_ok P (sign * fst d) b V ltac:(lia)) as (b1 & E1 & V1 & M1). unfold moved_files in E1. rewrite E1. cbn [bind].
  destruct (moved_ranks_ok P (sign * snd d) b1 V1 ltac:(lia)) as (b2 & E2 & V2 & M2). unfold moved_ranks in E2. rewrite E2.
  exists b2. split; auto. split; auto. intros t Vt. pose proof (coords_on_board t Vt) as B. rewrite <- (square_at_coords t Vt). set (f := file_of t) in *. set (r := rank_of t) in *.
  rewrite M2 by auto. unfold shifted. split.
  - intros (q & Bq & Er & Q). apply M1 in Q; auto. destruct Q as (g & Bg & Ef & Q). exists (square_at g q). split; [now apply square_at_valid|]. split; auto.
    unfold step. fold sign. unfold on_board in *. rewrite at_file, at_rank by lia. rewrite <- Er, <- Ef, !N2Z.id. destruct (_ && _ && _ && _)%Z eqn:K; auto. lia.
  - intros (s & Vs & Q & S). pose proof (coords_on_board s Vs) as Bs. unfold step in S. fold sign in S. destruct (_ && _ && _ && _)%Z eqn:K; [|discriminate]. injection S as S.
    assert (F : Z.of_N f = (Z.of_N (file_of s) + sign * fst d)%Z /\ Z.of_N r = (Z.of_N (rank_of s) + sign * snd d)%Z).
    { set (f0 := (Z.of_N (file_of s) + sign * fst d)%Z) in *. set (r0 := (Z.of_N (rank_of s) + sign * snd d)%Z) in *. unfold on_board in *. unfold square_at in S. lia. }
    exists (rank_of s). split; [unfold on_board in *; lia|]. split; [lia|]. apply M1; [unfold on_board in *; lia|].
    exists (file_of s). split; auto. split; [lia|]. now rewrite square_at_coords.
Qed.

(** ** Slides *)
Lemma fill_ok P c d v (bd : board) : valid_bb v -> short d -> (forall t, valid_square t -> (member v t = true <-> bd t = None)) ->
  forall n b acc, valid_bb b -> valid_bb acc -> exists b', fill P c d v n b acc = Ret b' /\ valid_bb b' /\
    forall t, valid_square t -> (member b' t = true <-> member acc t = true \/ exists s, valid_square s /\ member b s = true /\ In t (ray bd c d n s)).
Proof.
  intros Vv Hd Hv. induction n as [|n IH]; intros b acc Vb Va; cbn [fill ray].
  - exists acc. split; auto. split; auto. intros t Vt. split; auto. intros [A|(s & _ & _ & [])]; auto.
  - destruct (translate_ok P c d b Vb Hd) as (g & -> & Vg & Hg). cbn [bind].
    destruct (IH (bb_and g v) (bb_or acc g)) as (b' & -> & V' & M); auto using and_valid, or_valid. exists b'. split; auto. split; auto. intros t Vt.
    rewrite M by auto. rewrite member_or, orb_true_iff, Hg by auto. split.
    + intros [[A|(s & Vs & B & S)]|(u & Vu & B & I)]; auto.
      * right. exists s. rewrite S. split; [|split]; auto. now left.
      * rewrite member_and, andb_true_iff, Hv, Hg in B by auto. destruct B as [(s & Vs & B & S) E]. right. exists s. rewrite S, E. split; [|split]; auto. now right.
    + intros [A|(s & Vs & B & I)]; auto. destruct (step c s d) as [u|] eqn:S; [|destruct I]. assert (Vu : valid_square u) by (eapply step_valid; eauto). destruct I as [->|I].
      * left. right. exists s. auto.
      * right. exists u. destruct (bd u) eqn:E; [destruct I|]. split; [|split]; auto. rewrite member_and, andb_true_iff, Hv, Hg by auto. split; auto. exists s. auto.
Qed.

(** ** All kinds *)
Lemma union_ok {A} (f : A -> res bitboard) (Q : A -> square -> Prop) l :
  (forall x, In x l -> exists b, f x = Ret b /\ valid_bb b /\ forall t, valid_square t -> (member b t = true <-> Q x t)) ->
  exists b, union (map f l) = Ret b /\ valid_bb b /\ forall t, valid_square t -> (member b t = true <-> exists x, In x l /\ Q x t).
Proof.
  induction l as [|x l IH]; intros H; cbn [map union].
  - exists bb_empty. split; auto. split; [apply bb_empty_valid|]. intros t Vt. rewrite member_empty. split; [discriminate|]. intros (x & [] & _).
  - destruct (H x) as (b & -> & Vb & Hb); [now left|]. destruct IH as (b' & -> & Vb' & Hb'); [intros; apply H; now right|]. cbn [bind].
    eexists. split; [reflexivity|]. split; [now apply or_valid|]. intros t Vt. rewrite member_or, orb_true_iff, Hb, Hb' by auto. split.
    + intros [E|(y & I & E)]; [exists x|exists y]; split; auto; [now left|now right].
    + intros (y & [->|I] & E); auto. right. eauto.
Qed.
Lemma union_app l l' b b' : union l = Ret b -> union l' = Ret b' -> valid_bb b -> valid_bb b' ->
  exists b'', union (l ++ l') = Ret b'' /\ valid_bb b'' /\ forall t, valid_square t -> member b'' t = member b t || member b' t.
Proof.
  revert b. induction l as [|x l IH]; intros b; cbn [app union].
  - intros [= <-] E _ V. exists b'. split; auto. split; auto. intros t _. now rewrite member_empty.
  - destruct x as [x| |]; cbn [bind]; try discriminate. destruct (union l) as [y| |] eqn:U; cbn [bind]; try discriminate. intros [= <-] E V V'.
    assert (N : forall i, (63 <= i -> N.testbit (bb0 x) i = false /\ N.testbit (bb0 y) i = false) /\ (18 <= i -> N.testbit (bb1 x) i = false /\ N.testbit (bb1 y) i = false)).
    { apply valid_bb_bits in V as [V0 V1]. cbn [bb0 bb1 bb_or] in V0, V1. intros i. split; intros Hi; [specialize (V0 i Hi)|specialize (V1 i Hi)]; rewrite N.lor_spec in *; now apply orb_false_iff. }
    assert (Vx : valid_bb x) by (apply valid_bb_bits; split; intros i Hi; now apply N). assert (Vy : valid_bb y) by (apply valid_bb_bits; split; intros i Hi; now apply N).
    destruct (IH y eq_refl E Vy V') as (z & -> & Vz & M). cbn [bind]. eexists. split; [reflexivity|]. split; [now apply or_valid|].
    intros t Vt. rewrite !member_or, M by auto. apply orb_assoc.
Qed.
Lemma directions_short k d : In d (steps k) \/ In d (slides k) -> short d.
Proof.
  assert (H : forallb (fun d => (-9 <=? fst d) && (fst d <=? 9) && (-9 <=? snd d) && (snd d <=? 9))%Z (steps k ++ slides k) = true) by (destruct k; reflexivity).
  rewrite forallb_forall in H. intros I. specialize (H d (proj2 (in_app_iff _ _ _) I)). unfold short. lia.
Qed.
Lemma attacks_from_ok P c k v (bd : board) b : valid_bb v -> valid_bb b -> (forall t, valid_square t -> (member v t = true <-> bd t = None)) ->
  exists b', attacks_from P c k v b = Ret b' /\ valid_bb b' /\
    forall t, valid_square t -> (member b' t = true <-> exists s, valid_square s /\ member b s = true /\ In t (reach bd c k s)).
Proof.
  intros Vv Vb Hv. unfold attacks_from.
  destruct (union_ok (fun d => translate P c d b) (fun d t => shifted c d b t) (steps k)) as (b1 & E1 & V1 & M1).
  { intros d I. apply translate_ok; auto. apply (directions_short k). auto. }
  destruct (union_ok (fun d => fill P c d v 8 b bb_empty) (fun d t => exists s, valid_square s /\ member b s = true /\ In t (ray bd c d 8 s)) (slides k)) as (b2 & E2 & V2 & M2).
  { intros d I. destruct (fill_ok P c d v bd Vv (directions_short k d (or_intror I)) Hv 8 b bb_empty Vb bb_empty_valid) as (b' & -> & V' & M). exists b'. split; auto. split; auto.
    intros t Vt. rewrite M, member_empty by auto. split; auto. intros [?|?]; auto. discriminate. }
  destruct (union_app _ _ _ _ E1 E2 V1 V2) as (b' & -> & V' & M). exists b'. split; auto. split; auto. intros t Vt. rewrite M, orb_true_iff, M1, M2 by auto. unfold reach. split.
  - intros [(d & I & s & Vs & B & S)|(d & I & s & Vs & B & S)]; exists s; (split; [|split]); auto; apply in_app_iff; [left|right]; apply in_flat_map; exists d; split; auto. rewrite S. now left.
  - intros (s & Vs & B & I). apply in_app_iff in I as [I|I]; apply in_flat_map in I as (d & I & S); [left|right]; exists d; split; auto; exists s; split; auto.
    destruct (step c s d); [|destruct S]. destruct S as [->|[]]. auto.
Qed.
Lemma all_kinds_all k : In k all_kinds.
Proof. destruct k; cbn; tauto. Qed.
Lemma bb_is_member P b f : bb_is P b f <-> valid_bb b /\ forall t, valid_square t -> member b t = f t.
Proof. unfold bb_is. split; intros [V H]; split; auto; intros t Vt; specialize (H t Vt); rewrite bb_contains_ok in * by auto; [now apply ret_inj|now f_equal]. Qed.
Lemma sees_vacant P s a : reachable P s -> sees P s a -> exists v, vacant_bitboard s = Ret v /\ valid_bb v /\ forall t, valid_square t -> (member v t = true <-> a_board a t = None).
Proof.
  intros R S. destruct (c21_bitboards_pf P s a R S) as (_ & _ & _ & _ & v & E & B). apply bb_is_member in B as [V B]. exists v. split; auto. split; auto. intros t Vt. rewrite B by auto.
  destruct (a_board a t); split; congruence.
Qed.
Lemma sees_pieces P s a k c : reachable P s -> sees P s a -> exists b, piece_bitboard P s (piece_of k c) = Ret b /\ valid_bb b /\
  forall t, valid_square t -> (member b t = true <-> a_board a t = Some (k, c)).
Proof.
  intros R S. destruct (c21_bitboards_pf P s a R S) as (_ & _ & H & _). destruct (H (piece_of k c)) as (b & E & B); [apply piece_of_valid|]. apply bb_is_member in B as [V B]. exists b. split; auto. split; auto. intros t Vt. rewrite B by auto.
  rewrite kind_of_of, color_of_of. destruct (a_board a t) as [[j e]|]; [|split; discriminate]. rewrite andb_true_iff. destruct (same_kind_spec j k), (same_color_spec e c); subst; split; try tauto; try (intros []; discriminate); congruence.
Qed.
Lemma attacks_iff (bd : board) s t k c : bd s = Some (k, c) -> (attacks bd s t = true <-> In t (reach bd c k s)).
Proof.
  intros E. unfold attacks. rewrite E, existsb_exists. split; [intros (x & I & Q); destruct (same_square_spec t x); [subst; auto|discriminate]|]. intros I. exists t. split; auto. unfold same_square. apply N.eqb_refl.
Qed.
Lemma attacked_iff (bd : board) c t : attacked_by bd c t = true <-> exists s k, valid_square s /\ bd s = Some (k, c) /\ In t (reach bd c k s).
Proof.
  unfold attacked_by. rewrite existsb_exists. split.
  - intros (s & I & Q). apply In_squares in I. unfold owned_by in Q. destruct (bd s) as [[k e]|] eqn:E; [|discriminate]. destruct (same_color_spec c e); [subst e|discriminate]. exists s, k. split; [|split]; auto. now apply (attacks_iff bd s t k c).
  - intros (s & k & V & E & I). exists s. split; [now apply In_squares|]. unfold owned_by. rewrite E. destruct (same_color_spec c c); [|congruence]. now apply (attacks_iff bd s t k c).
Qed.
Lemma attack_set_ok P s a c : reachable P s -> sees P s a -> exists b, attack_set P s c = Ret b /\ valid_bb b /\ forall t, valid_square t -> (member b t = true <-> attacked_by (a_board a) c t = true).
Proof.
  intros R S. destruct (sees_vacant P s a R S) as (v & Ev & Vv & Hv). unfold attack_set. rewrite Ev. cbn [bind].
  destruct (union_ok (fun k => b <- piece_bitboard P s (piece_of k c);; attacks_from P c k v b)
    (fun k t => exists q, valid_square q /\ a_board a q = Some (k, c) /\ In t (reach (a_board a) c k q)) all_kinds) as (b & E & V & M).
  { intros k _. destruct (sees_pieces P s a k c R S) as (pb & -> & Vp & Hp). cbn [bind]. destruct (attacks_from_ok P c k v (a_board a) pb Vv Vp Hv) as (b & -> & Vb & Hb). exists b. split; auto. split; auto.
    intros t Vt. rewrite Hb by auto. split; intros (q & Vq & E & I); exists q; (split; [|split]); auto; now apply Hp. }
  exists b. split; [exact E|]. clear E. split; auto. intros t Vt. rewrite M, attacked_iff by auto. split.
  - intros (k & _ & q & Vq & E & I). eauto.
  - intros (q & k & Vq & E & I). exists k. split; [apply all_kinds_all|]. eauto.
Qed.
Lemma bool_iff a b : (a = true <-> b = true) -> a = b.
Proof. destruct a, b; intuition congruence. Qed.

(** C73: the shifts, with the mask, move every member by one step and nothing else. *)
Lemma c73_translate_pf : forall P c d b, valid_bb b -> (-9 <= fst d <= 9)%Z -> (-9 <= snd d <= 9)%Z -> exists b', translate P c d b = Ret b' /\ valid_bb b' /\
  forall t, valid_square t -> (bb_contains P b' t = Ret true <-> moved P c d b t).
Proof.
  intros P c d b V Hx Hy. destruct (translate_ok P c d b V (conj Hx Hy)) as (b' & -> & V' & M). exists b'. split; auto. split; auto. intros t Vt. rewrite bb_contains_ok by auto.
  transitivity (member b' t = true); [split; congruence|]. rewrite M by auto. unfold shifted, moved. split; intros (s & Vs & B & S); exists s; (split; [|split]); auto; rewrite bb_contains_ok in * by auto; congruence.
Qed.

(** C73: the squares a player attacks in any reachable position, worked out on bitboards, are those of the rules. *)
Lemma c73_attacks_pf : forall P s a c, reachable P s -> sees P s a -> exists b, attack_set P s c = Ret b /\ bb_is P b (attacked_by (a_board a) c).
Proof.
  intros P s a c R S. destruct (attack_set_ok P s a c R S) as (b & -> & V & M). exists b. split; auto. apply bb_is_member. split; auto. intros t Vt. apply bool_iff. auto.
Qed.
Lemma empty_iff b : valid_bb b -> (bb_is_empty b = true <-> forall t, valid_square t -> member b t = false).
Proof.
  intros V. rewrite bb_is_empty_ok. split; [intros -> t _; apply member_empty|]. intros H. apply member_ext; auto using bb_empty_valid. intros t Vt. now rewrite H, member_empty.
Qed.
Local Transparent check.
Lemma check_iff (bd : board) c : check bd c = true <-> exists t, valid_square t /\ bd t = Some (King, c) /\ attacked_by bd (opponent c) t = true.
Proof.
  unfold check. rewrite existsb_exists. split.
  - intros (s & I & Q). destruct (owned_by bd (opponent c) s) eqn:O; [|discriminate]. apply existsb_exists in Q as (t & J & Q). destruct (is_king_of bd c t) eqn:K; [|discriminate]. apply In_squares in J. exists t. split; [|split]; auto.
    + unfold is_king_of in K. destruct (bd t) as [[[] e]|]; try discriminate. now destruct (same_color_spec c e); [subst|].
    + unfold attacked_by. apply existsb_exists. exists s. split; auto. now rewrite O.
  - intros (t & V & K & A). unfold attacked_by in A. apply existsb_exists in A as (s & I & Q). exists s. split; auto. destruct (owned_by bd (opponent c) s); auto. apply existsb_exists. exists t. split; [now apply In_squares|].
    unfold is_king_of. rewrite K. now destruct (same_color_spec c c).
Qed.
Local Opaque check.

(** C73: ... and so is check. *)
Lemma c73_check_pf : forall P s a c, reachable P s -> sees P s a -> in_check P s c = Ret (check (a_board a) c).
Proof.
  intros P s a c R S. unfold in_check. destruct (sees_pieces P s a King c R S) as (k & -> & Vk & Hk). destruct (attack_set_ok P s a (opponent c) R S) as (b & -> & V & M). cbn [bind].
  apply (f_equal Ret). apply bool_iff. rewrite check_iff, negb_true_iff, <- not_true_iff_false, empty_iff by now apply and_valid. split.
  - intros H. destruct (existsb (member (bb_and k b)) squares) eqn:E.
    + apply existsb_exists in E as (t & I & E). apply In_squares in I. rewrite member_and, andb_true_iff in E. exists t. split; auto. split; [now apply Hk|now apply M].
    + exfalso. apply H. intros t Vt. destruct (member (bb_and k b) t) eqn:F; auto. rewrite <- E. symmetry. apply existsb_exists. exists t. split; auto. now apply In_squares.
  - intros (t & Vt & K & A) H. specialize (H t Vt). rewrite member_and, andb_false_iff in H. apply Hk in K; auto. apply M in A; auto. destruct H; congruence.
Qed.
Lemma stuck_promotes c k t : stuck c k t = true -> can_promote k = true /\ in_camp c t = true.
Proof. unfold stuck, in_camp. intros H. destruct k; try discriminate; split; auto; lia. Qed.
Lemma right_either a from to k : a_board a from = Some (k, a_side a) ->
  moves_right a (Normal from to false) || moves_right a (Normal from to true) = attacks (a_board a) from to && negb (owned_by (a_board a) (a_side a) to).
Proof.
  intros E. unfold moves_right. rewrite E. destruct (same_color_spec (a_side a) (a_side a)); [|congruence]. destruct (attacks (a_board a) from to); auto. destruct (owned_by (a_board a) (a_side a) to); cbn [negb andb]; auto.
  destruct (stuck (a_side a) k to) eqn:S; cbn [negb orb]; auto. apply stuck_promotes in S as [-> ->]. apply orb_true_r.
Qed.
Lemma sees_piece P s a sq : sees P s a -> valid_square sq -> piece_at P s sq = Ret (option_map the_piece (a_board a sq)).
Proof. intros S V. now apply S. Qed.

(** C73: the squares the piece on a square can go to: those the rules let it go to. *)
Lemma c73_destinations_pf : forall P s a from, reachable P s -> sees P s a -> valid_square from -> exists b, destinations P s from = Ret b /\
  bb_is P b (fun to => match a_board a from with Some (_, c) => attacks (a_board a) from to && negb (owned_by (a_board a) c to) | None => false end) /\
  (owned_by (a_board a) (a_side a) from = true -> bb_is P b (fun to => moves_right a (Normal from to false) || moves_right a (Normal from to true))).
Proof.
  intros P s a from R S V. unfold destinations. rewrite (sees_piece P s a from S V). cbn [bind]. destruct (a_board a from) as [[k c]|] eqn:E; cbn [option_map].
  - unfold the_piece. cbn [fst snd]. rewrite kind_of_of, color_of_of. destruct (sees_vacant P s a R S) as (v & -> & Vv & Hv). cbn [bind].
    destruct (c21_bitboards_pf P s a R S) as (H & _). destruct (H c) as (own & -> & B). apply bb_is_member in B as [Vo Ho]. cbn [bind]. rewrite bb_single_ok by auto. cbn [bind].
    destruct (attacks_from_ok P c k v (a_board a) (single from) Vv (single_valid from V) Hv) as (t & -> & Vt & Ht). cbn [bind]. eexists. split; [reflexivity|].
    assert (Q : forall to, valid_square to -> member (bb_andnot own t) to = attacks (a_board a) from to && negb (owned_by (a_board a) c to)).
    { intros to Vto. rewrite member_andnot, Ho by auto. rewrite andb_comm. f_equal.
      - apply bool_iff. rewrite Ht, (attacks_iff _ _ _ k c E) by auto. split; [|intros I; exists from; split; [|split]; auto; rewrite member_single by auto; apply N.eqb_refl].
        intros (q & Vq & M & I). rewrite member_single in M by auto. unfold sq_eqb in M. apply N.eqb_eq in M. destruct q, from. cbn in M. now subst.
      - unfold owned_by. destruct (a_board a to) as [[j e]|]; auto. destruct c, e; reflexivity. }
    split; [apply bb_is_member; split; [now apply andnot_valid|auto]|]. intros O. unfold owned_by in O. rewrite E in O. destruct (same_color_spec (a_side a) c); [subst c|discriminate].
    apply bb_is_member. split; [now apply andnot_valid|]. intros to Vto. rewrite Q, (right_either a from to k) by auto. reflexivity.
  - exists bb_empty. split; auto. split; [apply bb_is_member; split; [apply bb_empty_valid|]; intros; apply member_empty|]. unfold owned_by. rewrite E. discriminate.
Qed.

(** ** Drops of pawns *)
Lemma pattern_zero p (bits : N -> bool) : p < 512 -> (forall r, 1 <= r <= 9 -> N.testbit p (r - 1) = bits r) -> ((p =? 0) = true <-> forall r, 1 <= r <= 9 -> bits r = false).
Proof.
  intros L H. rewrite N.eqb_eq. split; [intros -> r B; now rewrite <- H, N.bits_0|]. intros Z. apply (bits_ext _ _ 9); auto; [reflexivity|]. intros i Hi. rewrite N.bits_0. specialize (H (i + 1) ltac:(lia)).
  replace (i + 1 - 1) with i in H by lia. rewrite H. apply Z. lia.
Qed.
Lemma pattern_bits c r : 1 <= r <= 9 -> N.testbit (match c with Black => 510 | White => 255 end) (r - 1) = negb (seen_by c r =? 1).
Proof. intros H. assert (E : In r nine_files) by (unfold nine_files; cbn; lia). clear H. destruct c; cbn in E; repeat (destruct E as [<-|E]; [reflexivity|]); destruct E. Qed.
Lemma nine_files_in f : In f nine_files <-> 1 <= f <= 9.
Proof. unfold nine_files. cbn. lia. Qed.
Lemma bind_ret {A B} (x : A) (f : A -> res B) : bind (Ret x) f = f x.
Proof. reflexivity. Qed.
Lemma pawn_drops_ok P s a c : reachable P s -> sees P s a -> exists b, pawn_drops P s c = Ret b /\ valid_bb b /\ forall t, valid_square t ->
  (member b t = true <-> a_board a t = None /\ pawn_on_file (a_board a) c (file_of t) = false /\ stuck c Pawn t = false).
Proof.
  intros R S. unfold pawn_drops. destruct (sees_vacant P s a R S) as (v & -> & Vv & Hv). rewrite bind_ret. destruct (sees_pieces P s a Pawn c R S) as (pb & -> & Vp & Hp). rewrite bind_ret.
  destruct (union_ok (fun f => p <- bb_get_file_unchecked P pb f;; bb_from_file_unchecked P f (if p =? 0 then match c with Black => 510 | White => 255 end else 0))
    (fun f t => file_of t = f /\ pawn_on_file (a_board a) c f = false /\ stuck c Pawn t = false) nine_files) as (b & E & V & M).
  { intros f If. apply nine_files_in in If. destruct (get_file_ok P pb f If) as (p & -> & Lp & Mp). cbn [bind]. pose proof (pattern_zero p _ Lp Mp) as Z.
    assert (Zf : (p =? 0) = true <-> pawn_on_file (a_board a) c f = false).
    { rewrite Z. unfold pawn_on_file. rewrite <- not_true_iff_false, existsb_exists. split.
      - intros H (t & I & Q). apply In_squares in I. destruct (N.eqb_spec (file_of t) f) as [<-|]; [|discriminate]. assert (a_board a t = Some (Pawn, c)) as K by (destruct (a_board a t) as [[[] e]|]; try discriminate; destruct (same_color_spec c e); [subst; auto|discriminate]).
        apply Hp in K; auto. specialize (H (rank_of t) (rank_bounds t)). rewrite square_at_coords in H by auto. congruence.
      - intros H r B. destruct (member pb (square_at f r)) eqn:K; auto. exfalso. apply H. exists (square_at f r). assert (valid_square (square_at f r)) as Vs by (apply at_valid; auto). apply Hp in K; auto. split; [now apply In_squares|].
        rewrite at_file, N.eqb_refl, K by auto. destruct (same_color_spec c c); congruence. }
    destruct (from_file_ok P f (if p =? 0 then match c with Black => 510 | White => 255 end else 0) If) as (b & -> & Vb & Mb); [destruct (p =? 0), c; reflexivity|]. exists b. split; auto. split; auto. intros t Vt.
    rewrite <- (square_at_coords t Vt) at 1. rewrite Mb by now apply coords_on_board. rewrite andb_true_iff, N.eqb_eq. apply and_iff_compat_l. unfold stuck. destruct (p =? 0).
    - rewrite pattern_bits, negb_true_iff by apply rank_bounds. split; [intros Q; split; auto; now apply Zf|now intros []].
    - rewrite N.bits_0. split; [discriminate|]. intros [K _]. apply Zf in K. discriminate. }
  rewrite E, bind_ret. eexists. split; [reflexivity|]. split; [now apply and_valid|]. intros t Vt.
  rewrite member_and, andb_true_iff, Hv, M by auto. apply and_iff_compat_l. split; [intros (f & _ & <- & Q); auto|]. intros Q. exists (file_of t). split; [apply nine_files_in, file_bounds; auto|auto].
Qed.

(** C73: the squares a player who has a pawn in hand can drop it on, by the rules. *)
Lemma c73_pawn_drops_pf : forall P s a, reachable P s -> sees P s a -> 0 < a_hand a (a_side a) Pawn -> exists b, pawn_drops P s (a_side a) = Ret b /\
  bb_is P b (fun to => moves_right a (Drop (piece_of Pawn (a_side a)) to)).
Proof.
  intros P s a R S H. destruct (pawn_drops_ok P s a (a_side a) R S) as (b & -> & V & M). exists b. split; auto. apply bb_is_member. split; auto. intros t Vt. apply bool_iff. rewrite M by auto.
  unfold moves_right. rewrite kind_of_of, color_of_of. destruct (same_color_spec (a_side a) (a_side a)); [|congruence]. replace (0 <? a_hand a (a_side a) Pawn) with true by lia. cbn [can_be_in_hand same_kind].
  destruct (a_board a t); [split; [intros []|]; discriminate|]. destruct (stuck (a_side a) Pawn t); cbn [negb]; [split; [intros (? & ? & ?)|]; discriminate|]. change (same_kind Pawn Pawn) with true. cbv iota.
  change (can_be_in_hand Pawn) with true. cbv iota. destruct (pawn_on_file (a_board a) (a_side a) (file_of t)); cbn; intuition congruence.
Qed.

(** ** Laws *)
Lemma translate_ext P c d b b1 b2 : valid_bb b -> short d -> translate P c d b = Ret b1 -> valid_bb b2 -> (forall t, valid_square t -> (member b2 t = true <-> shifted c d b t)) -> b1 = b2.
Proof.
  intros V Hd E V2 H. destruct (translate_ok P c d b V Hd) as (b' & E' & V' & M). rewrite E in E'. apply ret_inj in E'. subst b'. apply member_ext; auto. intros t Vt. apply bool_iff. rewrite M, H by auto. reflexivity.
Qed.
Lemma step_rotate c s d : valid_square s -> step (opponent c) (rotate s) d = option_map rotate (step c s d).
Proof.
  intros V. unfold step. pose proof (coords_on_board s V) as [F R]. unfold rotate at 1 2 3 4. rewrite at_file, at_rank by lia. set (x := fst d). set (y := snd d).
  set (sg := match c with Black => 1 | White => -1 end%Z). replace (match opponent c with Black => 1 | White => -1 end%Z) with (- sg)%Z by (unfold sg; now destruct c).
  destruct ((1 <=? Z.of_N (file_of s) + sg * x) && (Z.of_N (file_of s) + sg * x <=? 9) && (1 <=? Z.of_N (rank_of s) + sg * y) && (Z.of_N (rank_of s) + sg * y <=? 9))%Z eqn:K; cbn [option_map].
  - destruct (_ && _ && _ && _)%Z eqn:K' in |- *; [|lia]. f_equal. unfold rotate. rewrite !at_file, !at_rank by lia. f_equal; lia.
  - destruct (_ && _ && _ && _)%Z eqn:K' in |- *; [lia|reflexivity].
Qed.

Lemma rotate_back s t : valid_square t -> valid_square s -> rotate t = s -> t = rotate s.
Proof. intros Vt Vs <-. now rewrite rotate_involutive. Qed.

(** C73: what one player does is what the other does on the board turned round. *)
Lemma c73_flip_pf : forall P c d b, valid_bb b -> (-9 <= fst d <= 9)%Z -> (-9 <= snd d <= 9)%Z -> exists f t r,
  bb_flip P b = Ret f /\ translate P c d b = Ret t /\ bb_flip P t = Ret r /\ translate P (opponent c) d f = Ret r.
Proof.
  intros P c d b V Hx Hy. assert (Hd : short d) by (split; auto). destruct (bb_flip_ok P b) as (f & Ef & Vf & Mf). specialize (Vf V). specialize (Mf V). destruct (translate_ok P c d b V Hd) as (t & Et & Vt & Mt).
  destruct (bb_flip_ok P t) as (r & Er & Vr & Mr). specialize (Vr Vt). specialize (Mr Vt). destruct (translate_ok P (opponent c) d f Vf Hd) as (u & Eu & Vu & Mu).
  exists f, t, r. do 3 (split; auto). rewrite Eu. f_equal. apply member_ext; auto. intros q Vq. rewrite <- (rotate_involutive q) by auto. set (q' := rotate q). assert (Vq' : valid_square q') by now apply rotate_valid.
  rewrite Mr by auto. apply bool_iff. rewrite Mu, Mt by auto using rotate_valid. unfold shifted. split; intros (s & Vs & B & S).
  - exists (rotate s). split; [now apply rotate_valid|]. assert (S' := step_rotate (opponent c) s d Vs). rewrite S, opponent_twice in S'. cbn [option_map] in S'. rewrite rotate_involutive in S' by auto. split; auto.
    rewrite <- Mf, rotate_involutive by auto using rotate_valid. auto.
  - exists (rotate s). split; [now apply rotate_valid|]. rewrite Mf by auto. split; auto. rewrite step_rotate by auto. now rewrite S.
Qed.

(** C73: shifts of a union are the union of the shifts, and of an intersection the intersection. *)
Lemma c73_set_laws_pf : forall P c d a b, valid_bb a -> valid_bb b -> (-9 <= fst d <= 9)%Z -> (-9 <= snd d <= 9)%Z -> exists x y,
  translate P c d a = Ret x /\ translate P c d b = Ret y /\ translate P c d (bb_or a b) = Ret (bb_or x y) /\ translate P c d (bb_and a b) = Ret (bb_and x y).
Proof.
  intros P c d a b Va Vb Hx Hy. assert (Hd : short d) by (split; auto). destruct (translate_ok P c d a Va Hd) as (x & Ex & Vx & Mx). destruct (translate_ok P c d b Vb Hd) as (y & Ey & Vy & My).
  exists x, y. do 2 (split; auto). split.
  - destruct (translate_ok P c d (bb_or a b) (or_valid a b Va Vb) Hd) as (z & Ez & Vz & Mz). rewrite Ez. f_equal. apply member_ext; auto using or_valid. intros t Vt. apply bool_iff.
    rewrite member_or, orb_true_iff, Mz, Mx, My by auto. unfold shifted. split.
    + intros (s & Vs & B & S). rewrite member_or, orb_true_iff in B. destruct B; [left|right]; exists s; auto.
    + intros [(s & Vs & B & S)|(s & Vs & B & S)]; exists s; rewrite member_or, B; auto using orb_true_r.
  - destruct (translate_ok P c d (bb_and a b) (and_valid a b Va Vb) Hd) as (z & Ez & Vz & Mz). rewrite Ez. f_equal. apply member_ext; auto using and_valid. intros t Vt. apply bool_iff.
    rewrite member_and, andb_true_iff, Mz, Mx, My by auto. unfold shifted. split.
    + intros (s & Vs & B & S). rewrite member_and, andb_true_iff in B. destruct B. split; exists s; auto.
    + intros [(s & Vs & B & S) (s' & Vs' & B' & S')]. assert (s = s').
      { pose proof (coords_on_board s Vs) as [F R]. pose proof (coords_on_board s' Vs') as [F' R']. rewrite <- (square_at_coords s), <- (square_at_coords s') by auto.
        unfold step in S, S'. destruct (_ && _ && _ && _)%Z eqn:K in S; [|discriminate]. destruct (_ && _ && _ && _)%Z eqn:K' in S'; [|discriminate]. injection S as S. injection S' as S'. rewrite <- S' in S. pose proof (f_equal file_of S) as SF. pose proof (f_equal rank_of S) as SR. rewrite !at_file in SF by lia. rewrite !at_rank in SR by lia. f_equal; lia. }
      subst s'. exists s. rewrite member_and, B, B'. auto.
Qed.

(** C73: shifts in a direction add up. *)
Lemma c73_add_up_pf : forall P b m n, valid_bb b -> m + n <= 9 ->
  (x <- bb_shift_up P b m;; bb_shift_up P x n) = bb_shift_up P b (m + n) /\
  (x <- bb_shift_down P b m;; bb_shift_down P x n) = bb_shift_down P b (m + n) /\
  (x <- bb_shift_left P b m;; bb_shift_left P x n) = bb_shift_left P b (m + n) /\
  (x <- bb_shift_right P b m;; y <- bb_shift_right P (bb_and x whole) n;; Ret (bb_and y whole)) = (y <- bb_shift_right P b (m + n);; Ret (bb_and y whole)).
Proof.
  intros P b m n V H. split; [|split; [|split]].
  - destruct (shift_up_ok P b m V ltac:(lia)) as (x & -> & Vx & Mx). rewrite bind_ret. destruct (shift_up_ok P x n Vx ltac:(lia)) as (y & -> & Vy & My). destruct (shift_up_ok P b (m + n) V ltac:(lia)) as (z & -> & Vz & Mz).
    f_equal. apply member_ext; auto. intros t Vt. rewrite <- (square_at_coords t Vt). pose proof (coords_on_board t Vt) as B. rewrite My, Mz by auto. unfold on_board in *.
    destruct (N.leb_spec (rank_of t + n) 9), (N.leb_spec (rank_of t + (m + n)) 9); try lia; auto; rewrite Mx by (unfold on_board; lia);
      [replace (rank_of t + n + m <=? 9) with true by lia; do 2 f_equal; lia|replace (rank_of t + n + m <=? 9) with false by lia; auto].
  - destruct (shift_down_ok P b m V ltac:(lia)) as (x & -> & Vx & Mx). rewrite bind_ret. destruct (shift_down_ok P x n Vx ltac:(lia)) as (y & -> & Vy & My). destruct (shift_down_ok P b (m + n) V ltac:(lia)) as (z & -> & Vz & Mz).
    f_equal. apply member_ext; auto. intros t Vt. rewrite <- (square_at_coords t Vt). pose proof (coords_on_board t Vt) as B. rewrite My, Mz by auto. unfold on_board in *.
    destruct (N.ltb_spec n (rank_of t)), (N.ltb_spec (m + n) (rank_of t)); try lia; auto; rewrite Mx by (unfold on_board; lia);
      [replace (m <? rank_of t - n) with true by lia; do 2 f_equal; lia|replace (m <? rank_of t - n) with false by lia; auto].
  - destruct (shift_left_ok P b m V ltac:(lia)) as (x & -> & Vx & Mx). rewrite bind_ret. destruct (shift_left_ok P x n Vx ltac:(lia)) as (y & -> & Vy & My). destruct (shift_left_ok P b (m + n) V ltac:(lia)) as (z & -> & Vz & Mz).
    f_equal. apply member_ext; auto. intros t Vt. rewrite <- (square_at_coords t Vt). pose proof (coords_on_board t Vt) as B. rewrite My, Mz by auto. unfold on_board in *.
    destruct (N.ltb_spec n (file_of t)), (N.ltb_spec (m + n) (file_of t)); try lia; auto; rewrite Mx by (unfold on_board; lia);
      [replace (m <? file_of t - n) with true by lia; do 2 f_equal; lia|replace (m <? file_of t - n) with false by lia; auto].
  - destruct (shift_right_ok P b m V ltac:(lia)) as (x & -> & _ & [B0 _] & Mx). rewrite bind_ret. destruct (shift_right_ok P (bb_and x whole) n (mask_valid x B0) ltac:(lia)) as (y & -> & _ & [B1 _] & My). rewrite bind_ret.
    destruct (shift_right_ok P b (m + n) V ltac:(lia)) as (z & -> & _ & [B2 _] & Mz). rewrite bind_ret. f_equal. apply member_ext; auto using mask_valid. intros t Vt.
    rewrite !member_and, whole_member, !andb_true_r by auto. rewrite <- (square_at_coords t Vt). pose proof (coords_on_board t Vt) as B. rewrite My, Mz by auto. unfold on_board in *.
    destruct (N.leb_spec (file_of t + n) 9), (N.leb_spec (file_of t + (m + n)) 9); try lia; auto; rewrite member_and, whole_member, andb_true_r, Mx by (try (apply square_at_valid); unfold on_board; lia);
      [replace (file_of t + n + m <=? 9) with true by lia; do 2 f_equal; lia|replace (file_of t + n + m <=? 9) with false by lia; auto].
Qed.

(** C73: without the mask the squares next to 9A are counted as three, though there are two, and taking them out one by one panics in a build with debug
    assertions and gives 7I in any other. *)
Lemma c73_careless_pf : exists b t, valid_bb b /\ (forall P, bb_single P (square_at 9 1) = Ret b /\ careless P b = Ret t /\ bb_count P t = Ret 3 /\
    (forall q, valid_square q -> bb_contains P t q = Ret (same_square q (square_at 8 1) || same_square q (square_at 9 2)))) /\
  (forall P, debug_assertions P = true -> bb_pop P t = Panic) /\
  (forall P, debug_assertions P = false -> exists r, bb_pop P t = Ret (r, Some (square_at 7 9))).
Proof.
  exists (single (square_at 9 1)), (Bitboard (2 ^ 63) (2 ^ 10 + 1)). split; [apply single_valid, square_at_valid; unfold on_board; lia|]. split.
  - intros P. split; [rewrite bb_single_ok; auto; apply square_at_valid; unfold on_board; lia|]. split; [destruct P; vm_compute; reflexivity|]. split; [destruct P; vm_compute; reflexivity|].
    intros q. destruct P; sweep_square q.
  - split; intros P H; destruct P; try discriminate; [| |eexists|eexists]; vm_compute; reflexivity.
Qed.
