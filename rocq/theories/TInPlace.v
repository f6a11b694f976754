(** Proofs of the property theorems on searching in place (restated in Prop_InPlace.v). *)
From Coq Require Import Sorting.Permutation.
From Verif Require Export SpecInPlace.
From Verif Require Import LBase LSquare LPiece LBits LBitboard LHand LMove LPosition LRefine LAbstract LExt LEdit TBitboard TPosition TLegal TGame TRules TRepeat TContract TSearch.
(*PROPHEAD
Property theorems C89: programs that search in one position and take moves back
From Verif Require Import LPiece LSample LSampleR LSampleS LRefine LSampleX LSampleSearch TSearch TRules.
*)
Local Opaque check.

(** ** The last move does not matter *)
Lemma legal_last a x m : legal (with_last a x) m = legal a m.
Proof. now destruct a, m. Qed.
Lemma after_last a x m : after (with_last a x) m = after a m.
Proof. now destruct a, m. Qed.
Lemma legal_move_last a x m : legal_move (with_last a x) m <-> legal_move a m.
Proof. unfold legal_move. now rewrite legal_last. Qed.
Lemma with_last_aeq a b x : aeq a b -> aeq (with_last a x) (with_last b x).
Proof. intros (A & B & C & D & E & F). repeat split; auto. Qed.
Lemma edits_last os : forall a x, forallb is_edit os = true -> a_ops (with_last a x) os = (with_last (fst (a_ops a os)) x, snd (a_ops a os)).
Proof.
  induction os as [|o os IH]; intros a x E; [reflexivity|]. cbn [forallb] in E. apply andb_prop in E as [E1 E2]. cbn [a_ops].
  assert (X : a_op (with_last a x) o = (with_last (fst (a_op a o)) x, snd (a_op a o))).
  { destruct o; try discriminate; cbn [a_op]; try reflexivity. destruct (_ =? 0); reflexivity. }
  rewrite X. destruct (a_op a o) as [a1 b]. cbn [fst snd]. rewrite IH by auto. now destruct (a_ops a1 os).
Qed.

(** ** Kings and plies *)
Lemma known_after a m : kings_known a -> legal_move a m -> kings_known (after a m).
Proof.
  intros K [V G] sq c Vs. pose proof (legal_right a m G) as R. destruct m as [f t pr|p t]; cbn [after a_board a_king].
  - destruct V as [Vf Vt]. cbn [moves_right] in R. destruct (a_board a f) as [[k d]|] eqn:Bf; [|discriminate].
    destruct (same_color (a_side a) d) eqn:Sd; [|discriminate]. apply same_color_eq in Sd. subst d.
    destruct (same_square_spec sq t) as [->|Nt].
    + intros H. injection H as Hk <-. rewrite (proj2 (same_color_eq _ _) eq_refl). destruct pr; [|subst k; reflexivity].
      destruct k; cbn [promoted] in Hk; try discriminate. reflexivity.
    + destruct (same_square_spec sq f) as [->|Nf]; [discriminate|]. intros H. pose proof (K sq c Vs H) as Kc.
      destruct (same_color_spec c (a_side a)) as [->|Nc]; [|exact Kc]. destruct k; cbn [same_kind andb]; try exact Kc.
      exfalso. pose proof (K f (a_side a) Vf Bf) as Kf. congruence.
  - destruct (same_square_spec sq t) as [->|Nt]; [|apply K; auto]. intros H. injection H as Hk _.
    cbn [moves_right] in R. rewrite Hk in R. destruct (same_color (a_side a) (color_of p)); discriminate R.
Qed.
Record in_place (P : profile) (s : partial_position) (a : apos) : Prop := { i_here : here P s a; i_known : kings_known a; i_ply : a_ply a <> 0 }.
Lemma few_last a x : few_pieces (with_last a x) <-> few_pieces a.
Proof. unfold few_pieces, on_board_count, count_squares. cbn [with_last a_board a_hand]. apply iff_refl. Qed.
Lemma safe_last a x : left_safe (with_last a x) <-> left_safe a.
Proof. unfold left_safe. cbn [with_last a_board a_side]. apply iff_refl. Qed.
Lemma known_last a x : kings_known (with_last a x) <-> kings_known a.
Proof. unfold kings_known. cbn [with_last a_board a_king]. apply iff_refl. Qed.
Lemma ply_after a m : a_ply a + 1 < 65536 -> a_ply (after a m) = a_ply a + 1.
Proof. intros H. destruct m; cbn [after a_ply]; now rewrite N.mod_small. Qed.

(** ** A move made and taken back *)
Lemma back_ok P s a m : in_place P s a -> legal_move a m ->
  exists os t, undo_list P s m = Ret os /\ go P s m = Ret t /\ here P t (after a m) /\
    forall u x, reachable P u -> sees P u (with_last (after a m) x) ->
      exists v bs, run_ops P u os = Ret (v, bs) /\ forallb (fun b => b) bs = true /\ in_place P v (with_last a x).
Proof.
  intros [[R S Ls F] K Hp] M. pose proof (proj1 (few_iff a) F) as F'.
  destruct (look_sees P s a R S) as (b & Eb & Ab). pose proof (reachable_wf P s R) as W.
  assert (Sb : sees P s b) by (apply (aeq_sees P s a b); [now apply aeq_sym|exact S]). pose proof M as [V G].
  unfold undo_list. rewrite Eb. cbn [bind]. rewrite hand_of_a_player_ok by auto. cbn [bind]. set (h := hand_at s (side_to_move s)).
  destruct (go_ok P s a m (Build_here P s a R S Ls F) M) as (t & Et & Ht). exists (take_back b m h), t. split; [reflexivity|]. split; auto. split; auto.
  intros u x Ru Su. pose proof Ab as (A1 & A2 & A3 & A4 & A5 & A6).
  pose proof (right_sense a m V Ls (legal_right a m G)) as MS. apply a_move_accepts in MS as (a' & Ea).
  assert (X : exists b', a_move b m = Some b' /\ aeq b' a').
  { pose proof (a_move_aeq b a m V Ab) as Q. rewrite Ea in Q. destruct (a_move b m) as [b'|]; [eauto|destruct Q]. }
  destruct X as (b' & Eb' & Ab'). pose proof (after_move a m a' V (fun k => few_hands a F' (a_side a) k) Ea) as Aa.
  assert (Hd : forall k, In k hand_kinds -> in_hand h k = a_hand b (a_side b) k).
  { intros k Hk. apply sees_iff in Sb; auto. destruct Sb as (B1 & _ & _ & D & _). rewrite <- B1. exact (D (side_to_move s) k Hk). }
  assert (RK : right_king b m).
  { destruct m as [f tt0 pr|p tt0]; cbn [right_king]; [|exact I]. intros B. destruct V as [Vf Vt]. rewrite A3 in B by auto. rewrite A6. now apply K. }
  assert (Hpb : a_ply b <> 0) by now rewrite A2.
  destruct (take_back_abs b m b' h Eb' Hpb RK Hd) as [T1 T2].
  assert (Vo : Forall valid_op (take_back b m h)).
  { apply take_back_valid; auto; [now apply hand_at_valid|]. destruct Sb as (_ & S2 & _). rewrite <- S2. apply (wf_ply s W). }
  assert (Ed : forallb is_edit (take_back b m h) = true) by now destruct m.
  pose proof (reachable_wf P u Ru) as Wu. apply sees_iff in Su; auto.
  assert (Su' : aeq (abs u) (with_last b' x)).
  { eapply aeq_trans; [exact Su|]. apply with_last_aeq. apply aeq_sym. eapply aeq_trans; [exact Ab'|exact Aa]. }
  destruct (do_ops_abs u _ _ Wu Vo Su') as [C D]. pose proof (do_ops_wf u _ Wu Vo) as Wv. rewrite edits_last in C, D by auto. cbn [fst snd] in C, D.
  pose proof (run_ops_ok P u (take_back b m h) Wu Vo) as Run. rewrite Run. destruct (do_ops u (take_back b m h)) as [v bs]. cbn [fst snd] in *.
  exists v, bs. split; auto. split; [subst bs; rewrite T1; cbn [snd]; apply forallb_forall; intros y Hy; now apply repeat_spec in Hy|].
  assert (Sv : sees P v (with_last a x)).
  { apply sees_iff; auto. eapply aeq_trans; [exact C|]. eapply aeq_trans; [apply with_last_aeq; exact T2|]. change (with_last (but_last b m) x) with (with_last b x). now apply with_last_aeq. }
  split; [|now apply known_last|exact Hp]. split; [|exact Sv|now apply safe_last|now apply few_last]. eapply reachable_run; [exact Ru|exact Vo|exact Run].
Qed.
(** what a part of the search does: it answers [r] and gives the position back, with another last move *)
Definition keeps {B} (P : profile) (a : apos) (call : res (partial_position * B)) (r : res B) : Prop :=
  exists t y, call = (x <- r;; Ret (t, x)) /\ in_place P t (with_last a y).
Lemma in_place_id P s a : in_place P s a -> exists x, in_place P s (with_last a x).
Proof. intros H. exists (a_last a). now destruct a. Qed.
Lemma within_ok {B} P s a x m f (r : res B) : in_place P s (with_last a x) -> legal_move a m -> a_ply a + 1 < 65536 ->
  (forall t, in_place P t (after a m) -> keeps P (after a m) (f t) r) -> keeps P a (within P s m f) r.
Proof.
  intros H M Hp Hf. destruct (back_ok P s _ m H (proj2 (legal_move_last a x m) M)) as (os & t & Eo & Et & Ht & Hu). rewrite after_last in Ht, Hu.
  assert (It : in_place P t (after a m)).
  { split; auto; [apply known_after; auto; exact (proj1 (known_last a x) (i_known _ _ _ H))|]. rewrite ply_after by auto. rewrite N.add_1_r. apply N.neq_succ_0. }
  destruct (Hf t It) as (u & y & Ef & Iu). unfold within. rewrite Eo, Et. cbn [bind]. rewrite Ef.
  destruct (Hu u y (h_reach _ _ _ (i_here _ _ _ Iu)) (h_sees _ _ _ (i_here _ _ _ Iu))) as (v & bs & Er & Eb & Iv).
  exists v, y. split; auto. destruct r; cbn [bind]; auto. rewrite Er. cbn [bind]. now rewrite Eb.
Qed.
(** ** Loops *)
Lemma sum_in_ok {A} P a f (g : A -> N) l :
  (forall x s y, In x l -> in_place P s (with_last a y) -> keeps P a (f s x) (sum_u64 P (g x))) ->
  forall n m s y, sum_u64 P n = Ret m -> in_place P s (with_last a y) -> keeps P a (sum_in P f m s l) (sum_u64 P (n + add_up g l)).
Proof.
  induction l as [|x l IH]; intros H n m s y E I; cbn [sum_in add_up fold_right].
  - rewrite N.add_0_r, E. exists s, y. auto.
  - fold (add_up g l). rewrite N.add_assoc. destruct (H x s y) as (t & z & Ef & It); auto; [now left|]. rewrite Ef.
    pose proof (sum_add' P n (g x) m E) as Q.
    destruct (sum_u64 P (g x)) as [k| |] eqn:Ek; cbn [bind] in Q |- *.
    + destruct (add_w P 64 m k) as [j| |] eqn:Ej; cbn [bind].
      * apply (IH (fun x s y Hx => H x s y (or_intror Hx)) (n + g x) j t z); auto.
      * exists t, z. split; auto. rewrite sum_panics by auto. reflexivity.
      * unfold sum_u64 in Q. destruct (n + g x <? modulus 64), (overflow_checks P); discriminate.
    + exists t, z. split; auto. rewrite sum_panics by auto. reflexivity.
    + unfold sum_u64 in Ek. destruct (g x <? modulus 64), (overflow_checks P); discriminate.
Qed.
Lemma all_in_ok {A} P a f (q : A -> bool) l : (forall x s y, In x l -> in_place P s (with_last a y) -> keeps P a (f s x) (Ret (q x))) ->
  forall s y, in_place P s (with_last a y) -> keeps P a (all_in f s l) (Ret (forallb q l)).
Proof.
  induction l as [|x l IH]; intros H s y I; cbn [all_in forallb]; [exists s, y; auto|].
  destruct (H x s y) as (t & z & -> & It); auto; [now left|]. cbn [bind]. destruct (q x); cbn [andb]; [|exists t, z; auto].
  apply (IH (fun x s y Hx => H x s y (or_intror Hx)) t z It).
Qed.
Lemma find_in_ok {A} P a f (q : A -> bool) l : (forall x s y, In x l -> in_place P s (with_last a y) -> keeps P a (f s x) (Ret (q x))) ->
  forall s y, in_place P s (with_last a y) -> keeps P a (find_in f s l) (Ret (find q l)).
Proof.
  induction l as [|x l IH]; intros H s y I; cbn [find_in find]; [exists s, y; auto|].
  destruct (H x s y) as (t & z & -> & It); auto; [now left|]. cbn [bind]. destruct (q x); [exists t, z; auto|].
  apply (IH (fun x s y Hx => H x s y (or_intror Hx)) t z It).
Qed.
Lemma all_res_is {A} f (q : A -> bool) l : (forall x, In x l -> f x = Ret (q x)) -> all_res f l = Ret (forallb q l).
Proof.
  induction l as [|x l IH]; intros H; cbn [all_res forallb]; [reflexivity|]. rewrite (H x) by now left. cbn [bind]. destruct (q x); cbn [andb]; [|reflexivity].
  apply IH. intros z Hz. apply H. now right.
Qed.
Lemma find_res_is {A} f (q : A -> bool) l : (forall x, In x l -> f x = Ret (q x)) -> find_res f l = Ret (find q l).
Proof.
  induction l as [|x l IH]; intros H; cbn [find_res find]; [reflexivity|]. rewrite (H x) by now left. cbn [bind]. destruct (q x); [reflexivity|].
  apply IH. intros z Hz. apply H. now right.
Qed.
Lemma forallb_same {A} (q : A -> bool) l l' : (forall x, In x l <-> In x l') -> forallb q l = forallb q l'.
Proof.
  intros H. apply eq_true_iff_eq. rewrite !forallb_forall. split; intros G x Hx; apply G, H, Hx.
Qed.

(** ** The programs *)
Lemma next_ply a m k : a_ply a + (1 + k) < 65536 -> a_ply a + 1 < 65536 /\ a_ply (after a m) + k < 65536.
Proof. intros H. assert (a_ply a + 1 < 65536) by lia. split; auto. rewrite ply_after by auto. lia. Qed.
Lemma games_last n a x : games n (with_last a x) = games n a.
Proof. destruct n; [reflexivity|]. cbn [games]. now destruct a. Qed.
(** who wins, as a truth value *)
Fixpoint winb (n : nat) (a : apos) : bool :=
  match n with
  | O => false
  | S n => existsb (fun m => forallb (fun r => winb n (after (after a m) r)) (legal_list (after a m))) (legal_list a)
  end.
Definition wins_by (n : nat) (a : apos) (m : move) : bool := forallb (fun r => winb n (after (after a m) r)) (legal_list (after a m)).
Lemma find_some_iff {A} (q : A -> bool) l : (match find q l with Some _ => true | None => false end) = existsb q l.
Proof. induction l as [|x l IH]; [reflexivity|]. cbn [find existsb]. now destruct (q x). Qed.
Lemma existsb_same {A} (q : A -> bool) l l' : (forall x, In x l <-> In x l') -> existsb q l = existsb q l'.
Proof. intros H. apply eq_true_iff_eq. rewrite !existsb_exists. split; intros (x & Hx & G); exists x; (split; [apply H, Hx|exact G]). Qed.
Lemma solve_is P L : by_the_rules P L -> forall n s a, here P s a ->
  exists o, solve P L n s = Ret o /\ (match o with Some _ => true | None => false end) = winb n a /\
    match n with O => True | S n => forall l, generate P L s = Ret l -> o = find (wins_by n a) l end.
Proof.
  intros B. induction n as [|n IH]; intros s a H; cbn [solve]; [exists None; auto|].
  destruct (generate_ok P L s a B H) as (l & El & _ & I). rewrite El. cbn [bind]. exists (find (wins_by n a) l). split; [|split].
  - apply find_res_is. intros m M. apply I in M. destruct (go_ok P s a m H M) as (t & -> & Ht). cbn [bind].
    destruct (generate_ok P L t _ B Ht) as (rs & -> & _ & Ir). cbn [bind]. unfold wins_by.
    rewrite (forallb_same _ (legal_list (after a m)) rs) by (intros r; rewrite Ir; apply in_legal_list).
    apply all_res_is. intros r Hr. apply Ir in Hr. destruct (go_ok P t _ r Ht Hr) as (u & -> & Hu). cbn [bind].
    destruct (IH u _ Hu) as (o & -> & <- & _). reflexivity.
  - rewrite find_some_iff. cbn [winb]. apply existsb_same. intros m. rewrite I, in_legal_list. reflexivity.
  - intros l' E. injection E as <-. reflexivity.
Qed.
Lemma perft_in_ok P L : by_the_rules P L -> forall n s a, in_place P s a -> a_ply a + N.of_nat n < 65536 ->
  keeps P a (perft_in P L n s) (sum_u64 P (N.of_nat (length (games n a)))).
Proof.
  intros B. induction n as [|n IH]; intros s a H Hp.
  - cbn [perft_in games length]. destruct (in_place_id P s a H) as (x & I). exists s, x. split; [unfold sum_u64; now destruct P|exact I].
  - cbn [perft_in]. destruct (generate_ok P L s a B (i_here _ _ _ H)) as (l & -> & N & I). cbn [bind].
    assert (Hl : forall m, In m l -> a_ply a + 1 < 65536 /\ a_ply (after a m) + N.of_nat n < 65536) by (intros m _; apply next_ply; lia).
    rewrite games_length.
    rewrite (add_up_perm _ (legal_list a) l); [|apply NoDup_Permutation; auto; [apply NoDup_filter, candidates_NoDup|intros m; rewrite I, in_legal_list; reflexivity]].
    destruct (in_place_id P s a H) as (x & Ix). rewrite <- (N.add_0_l (add_up _ l)). apply (sum_in_ok P a) with (y := x); auto.
    + intros m t y M It. apply (within_ok P t a y); auto; [now apply I|now apply (Hl m M)|]. intros u Iu. apply IH; auto. now apply (Hl m M).
Qed.
Lemma two_plies a m r k : a_ply a + (2 * N.succ k) < 65536 ->
  a_ply a + 1 < 65536 /\ a_ply (after a m) + 1 < 65536 /\ a_ply (after (after a m) r) + (2 * k) < 65536.
Proof. intros H. assert (A : a_ply a + 1 < 65536) by lia. split; auto. rewrite (ply_after (after a m)); rewrite ply_after by auto; lia. Qed.
Lemma solve_in_ok P L : by_the_rules P L -> forall n s a, in_place P s a -> a_ply a + (2 * N.of_nat n) < 65536 ->
  exists o, solve P L n s = Ret o /\ (match o with Some _ => true | None => false end) = winb n a /\ keeps P a (solve_in P L n s) (Ret o).
Proof.
  intros B. induction n as [|n IH]; intros s a H Hp.
  - exists None. split; auto. split; auto. destruct (in_place_id P s a H) as (x & I). exists s, x. auto.
  - destruct (solve_is P L B (S n) s a (i_here _ _ _ H)) as (o & Eo & Io & Fo). exists o. split; auto. split; auto. cbn [solve_in].
    destruct (generate_ok P L s a B (i_here _ _ _ H)) as (l & El & _ & I). rewrite (Fo l El), El. cbn [bind]. clear Fo Io Eo.
    rewrite Nat2N.inj_succ in Hp. destruct (in_place_id P s a H) as (x & Ix). apply (find_in_ok P a) with (y := x); auto.
    intros m t y M It. apply I in M. apply (within_ok P t a y); auto; [now apply (two_plies a m m (N.of_nat n))|]. intros u Iu.
    destruct (generate_ok P L u _ B (i_here _ _ _ Iu)) as (rs & -> & _ & Ir). cbn [bind]. unfold wins_by.
    rewrite (forallb_same _ (legal_list (after a m)) rs) by (intros r; rewrite Ir; apply in_legal_list).
    destruct (in_place_id P u _ Iu) as (z & Iz). apply (all_in_ok P (after a m)) with (y := z); auto. intros r v w Hr Iv. apply Ir in Hr.
    apply (within_ok P v (after a m) w); auto; [now apply (two_plies a m r (N.of_nat n))|]. intros k Ik.
    destruct (IH k _ Ik) as (o' & _ & Io & (k' & y' & Ek & Ik')); [now apply (two_plies a m r (N.of_nat n))|]. rewrite Ek. cbn [bind]. rewrite Io.
    exists k', y'. auto.
Qed.
Lemma in_place_intro P s a : reachable P s -> sees P s a -> left_safe a -> few_pieces a -> kings_known a -> a_ply a <> 0 -> in_place P s a.
Proof. intros. split; auto. now split. Qed.

(** C89: a move that was made in a regular position is taken back by editing, even if in between other moves were made and taken back:
    all that remains is another last move. *)
Lemma c89_taken_back_pf : forall P s a m, reachable P s -> sees P s a -> left_safe a -> few_pieces a -> kings_known a -> a_ply a <> 0 -> legal_move a m ->
  exists os t, undo_list P s m = Ret os /\ forallb is_edit os = true /\ make_move P m s = Ret (t, Some tt) /\ sees P t (after a m) /\
    forall u x, reachable P u -> sees P u (with_last (after a m) x) ->
      exists v, run_ops P u os = Ret (v, repeat true (length os)) /\ reachable P v /\ sees P v (with_last a x).
Proof.
  intros P s a m R S Ls F K Hp M. destruct (back_ok P s a m (in_place_intro P s a R S Ls F K Hp) M) as (os & t & Eo & Et & Ht & Hu).
  exists os, t. split; auto. split.
  { unfold undo_list in Eo. destruct (look P s) as [b| |]; cbn [bind] in Eo; try discriminate. destruct (hand_of_a_player P s (side_to_move s)) as [h| |]; cbn [bind] in Eo; try discriminate.
    injection Eo as <-. now destruct m. }
  split. { unfold go in Et. destruct (make_move P m s) as [[t' [[]|]]| |]; cbn [bind] in Et; try discriminate. injection Et as <-. reflexivity. }
  split; [apply Ht|]. intros u x Ru Su. destruct (Hu u x Ru Su) as (v & bs & Er & Eb & Iv). exists v. split; [|split; apply Iv].
  rewrite Er. do 2 f_equal. clear -Er Eb. revert u v bs Er Eb. induction os as [|o os IH]; intros u v bs Er Eb; cbn [run_ops] in Er.
  - injection Er as _ <-. reflexivity.
  - destruct (run_op P u o) as [[u1 b]| |]; cbn [bind] in Er; try discriminate. destruct (run_ops P u1 os) as [[u2 bs']| |] eqn:E; cbn [bind] in Er; try discriminate.
    injection Er as -> <-. cbn [forallb] in Eb. apply andb_prop in Eb as [-> Eb]. cbn [length repeat]. f_equal. now apply (IH u1 v).
Qed.
(** C89: searching in place answers as searching with clones does, in every build, and leaves the position as it was but for the last
    move, if [king_position] names the kings and the plies stay below 65536. *)
Lemma c89_solve_pf : forall P L n s a, by_the_rules P L -> reachable P s -> sees P s a -> left_safe a -> few_pieces a -> kings_known a ->
  a_ply a <> 0 -> a_ply a + 2 * N.of_nat n < 65536 ->
  exists o t x, solve P L n s = Ret o /\ solve_in P L n s = Ret (t, o) /\ reachable P t /\ sees P t (with_last a x).
Proof.
  intros P L n s a B R S Ls F K Hp Hn. destruct (solve_in_ok P L B n s a (in_place_intro P s a R S Ls F K Hp) Hn) as (o & Eo & _ & (t & x & Et & It)).
  exists o, t, x. split; auto. split; [exact Et|]. split; apply It.
Qed.
(** C89: counting in place as well; if the count does not fit, both panic or both wrap. *)
Lemma c89_perft_pf : forall P L n s a, by_the_rules P L -> reachable P s -> sees P s a -> left_safe a -> few_pieces a -> kings_known a ->
  a_ply a <> 0 -> a_ply a + N.of_nat n < 65536 ->
  exists t x, perft_in P L n s = (k <- perft P L n s;; Ret (t, k)) /\ reachable P t /\ sees P t (with_last a x).
Proof.
  intros P L n s a B R S Ls F K Hp Hn. destruct (perft_in_ok P L B n s a (in_place_intro P s a R S Ls F K Hp) Hn) as (t & x & Et & It).
  exists t, x. split; [|split; apply It]. rewrite (perft_ok P L B n s a); [exact Et|]. now split.
Qed.
(** C89: in play [king_position] names the kings. *)
Lemma c89_in_play_pf : forall P s a, played P s -> sees P s a -> kings_known a.
Proof.
  intros P s a R Hs sq c V Bf. destruct (played_facts P s R) as (W & _ & K). apply sees_iff in Hs; auto. apply (kings_right_aeq _ _ Hs) in K.
  destruct (K c) as [_ K2]. now apply K2.
Qed.
