(** Proofs of the property theorems on the contract of [LegalityChecker] (restated in Prop_Contract.v). *)
From Verif Require Export SpecContract.
From Verif Require Import LSampleR LSampleS.
From Verif Require Import LBase LSquare LPiece LBits LBitboard LHand LMove LPosition LRefine LAbstract LExt LEdit TBitboard TPosition TLegal TGame TRules TRepeat.
(*PROPHEAD
Property theorems C75: the contract of LegalityChecker
From Verif Require Import LPiece LSample LSampleR LSampleS LRefine LSampleX.
*)
Local Opaque check.

(** ** The provided methods *)
Lemma ps_eqb_spec st : ps_eqb st PSInProgress = true <-> st = PSInProgress.
Proof. destruct st; vm_compute; split; congruence. Qed.
(** C75: whoever keeps the contract, the provided methods answer, agree with each other, let no move pass when the game is over and only
    moves that succeed otherwise, and [make_move] does not panic. *)
Lemma c75_provided_pf : forall P L ok p m, keeps_contract P L ok -> ok p -> valid_move m ->
  exists st r b l p', lc_status L p = Ret st /\ lc_is_legal L p m = Ret r /\ lc_is_legal_lite L p m = Ret b /\ lc_all_legal_moves L p = Ret l /\
    lc_make_move P L p m = Ret (p', r) /\
    (r = ROk <-> b = true) /\ (b = true <-> In m l) /\
    (st <> PSInProgress -> r = RErr GameFinished /\ l = []) /\
    (r = ROk -> make_move P m (inner p) = Ret (inner p', Some tt) /\ moves p' = moves p ++ [m]) /\ (r <> ROk -> p' = p).
Proof.
  intros P L ok p m K O V. destruct (k_status _ _ _ K p O) as (R & st & Es). destruct (k_answer _ _ _ K (inner p) m R V) as (r & Er).
  destruct (k_lite _ _ _ K (inner p) m R V) as (b & Eb & Ib). destruct (k_all _ _ _ K (inner p) R) as (l & El & _ & Il). specialize (Il m V).
  assert (X : exists r' b' l', lc_is_legal L p m = Ret r' /\ lc_is_legal_lite L p m = Ret b' /\ lc_all_legal_moves L p = Ret l' /\
    (r' = ROk <-> b' = true) /\ (b' = true <-> In m l') /\ (st <> PSInProgress -> r' = RErr GameFinished /\ l' = []) /\
    (r' = ROk -> says_legal L (inner p) m)).
  { unfold lc_is_legal, lc_is_legal_lite, lc_all_legal_moves. rewrite Es. cbn [bind]. destruct (ps_eqb st PSInProgress) eqn:Q; cbn [negb].
    - apply ps_eqb_spec in Q. exists r, b, l. split; auto. split; auto. split; auto. unfold says_legal in *. rewrite Er in *.
      assert (Z : Ret r = Ret ROk <-> r = ROk) by (split; [apply ret_inj|congruence]). rewrite Z in *. split; [tauto|]. split; [tauto|]. split; [congruence|tauto].
    - eexists _, _, _. split; [reflexivity|]. split; [reflexivity|]. split; [reflexivity|]. cbn [In]. split; [split; discriminate|]. split; [split; [discriminate|tauto]|]. split; [auto|discriminate]. }
  destruct X as (r' & b' & l' & E1 & E2 & E3 & I1 & I2 & I3 & I4).
  assert (Hr : r' = ROk -> exists q, pos_make_move P p m = Ret (q, Some tt)).
  { intros H. destruct (k_succeeds _ _ _ K (inner p) m R V (I4 H)) as (s' & E). eexists. unfold pos_make_move. change (pos_inner p) with (inner p). rewrite E. cbn [bind]. reflexivity. }
  destruct (c45_make_move_pf P L p m r' R V E1 Hr) as (p' & M & D). exists st, r', b', l', p'. split; auto. split; auto. split; auto. split; auto. split; auto. split; auto. split; auto. split; auto.
  destruct r' as [|e]; [|split; [discriminate|auto]]. destruct D as (_ & D1 & D2 & _). split; [auto|congruence].
Qed.

(** ** The client *)
Lemma each_ok P b : valid_bb b -> exists l, each P b = Ret l /\ NoDup l /\ forall s, In s l <-> valid_square s /\ bb_contains P b s = Ret true.
Proof.
  intros V. unfold each. assert (F : (82 <= 82)%nat) by auto. destruct (c14_iteration_pf P b 82 V F) as (l & -> & A & I & _). cbn [bind]. exists l. split; auto. split; auto.
  clear I. induction l as [|x l IH]; [constructor|]. destruct A as [A1 A2]. constructor; auto. intros Q. specialize (A1 x Q). lia.
Qed.
Lemma map_res_ex {A B} (f : A -> res B) (Q : A -> B -> Prop) l : (forall x, In x l -> exists y, f x = Ret y /\ Q x y) ->
  exists ys, map_res f l = Ret ys /\ Forall2 Q l ys.
Proof.
  induction l as [|x l IH]; intros H; cbn [map_res]; [eexists; split; [reflexivity|constructor]|]. destruct (H x (or_introl eq_refl)) as (y & -> & Qy). cbn [bind].
  destruct IH as (ys & -> & F); [intros; apply H; now right|]. cbn [bind]. eexists. split; [reflexivity|]. constructor; auto.
Qed.
Definition lists {B} (G : B -> Prop) (ys : list B) : Prop := NoDup ys /\ forall m, In m ys <-> G m.
Lemma concat_lists {A B} (G : A -> B -> Prop) l yss : Forall2 (fun x => lists (G x)) l yss -> NoDup l -> (forall x y m, G x m -> G y m -> x = y) ->
  lists (fun m => exists x, In x l /\ G x m) (concat yss).
Proof.
  intros F N D. induction F as [|x ys l yss [H1 H2] _ IH]; cbn [concat]; [split; [constructor|]; intros m; split; [intros []|intros (x & [] & _)]|].
  inversion_clear N as [|? ? N1 N2]. destruct (IH N2) as [I1 I2]. split.
  - clear IH. induction ys as [|y ys IHy]; [exact I1|]. inversion_clear H1 as [|? ? Hy1 Hy2].
    assert (Gen : forall ys, NoDup ys -> (forall m, In m ys -> G x m) -> NoDup (ys ++ concat yss)).
    { clear -I1 I2 N1 D. induction ys as [|y ys IH]; intros Ny Gy; [exact I1|]. inversion_clear Ny as [|? ? Y1 Y2]. cbn [app]. constructor.
      - rewrite in_app_iff. intros [I|I]; [contradiction|]. apply I2 in I as (z & Iz & Gz). assert (x = z) by (eapply D; eauto; apply Gy; now left). congruence.
      - apply IH; auto. intros m I. apply Gy. now right. }
    apply Gen; [constructor; auto|]. intros m. apply H2.
  - intros m. rewrite in_app_iff, H2, I2. split.
    + intros [I|(z & Iz & Gz)]; [exists x|exists z]; cbn [In]; auto.
    + intros (z & [<-|Iz] & Gz); eauto.
Qed.
Lemma lists_iff {B} (G H : B -> Prop) ys : (forall m, G m <-> H m) -> lists G ys -> lists H ys.
Proof. intros E [N I]. split; auto. intros m. now rewrite I. Qed.
Lemma lists_app {B} (G H : B -> Prop) xs ys : lists G xs -> lists H ys -> (forall m, G m -> H m -> False) -> lists (fun m => G m \/ H m) (xs ++ ys).
Proof.
  intros [N1 I1] [N2 I2] D. split; [|intros m; rewrite in_app_iff, I1, I2; tauto].
  assert (D' : forall m, In m xs -> ~ In m ys) by (intros m X Y; apply I1 in X; apply I2 in Y; eauto). clear -N1 N2 D'. induction N1 as [|x xs Nx _ IH]; auto. cbn [app]. constructor.
  - rewrite in_app_iff. intros [I|I]; [contradiction|]. apply (D' x); auto. now left.
  - apply IH. intros m I. apply D'. now right.
Qed.
Lemma filter_res_ok {A} (f : A -> res bool) (G : A -> Prop) l : (forall x, In x l -> exists b, f x = Ret b /\ (b = true <-> G x)) -> NoDup l ->
  exists ys, filter_res f l = Ret ys /\ lists (fun x => In x l /\ G x) ys.
Proof.
  induction l as [|x l IH]; intros H N; cbn [filter_res]; [eexists; split; [reflexivity|]; split; [constructor|]; intros m; cbn [In]; tauto|].
  inversion_clear N as [|? ? N1 N2]. destruct (H x (or_introl eq_refl)) as (b & -> & Ib). cbn [bind]. destruct IH as (ys & -> & Ny & Iy); auto; [intros; apply H; now right|]. cbn [bind].
  eexists. split; [reflexivity|]. destruct b.
  - split; [constructor; auto; rewrite Iy; tauto|]. intros m. cbn [In]. rewrite Iy. split; [intros [<-|Q]; tauto|]. intros [[<-|Q] Z]; tauto.
  - split; auto. intros m. cbn [In]. rewrite Iy. split; [tauto|]. intros [[<-|Q] Z]; [|tauto]. apply Ib in Z. discriminate.
Qed.
Lemma sensible_parts P L ok s a m : keeps_contract P L ok -> reachable P s -> sees P s a -> valid_move m -> says_legal L s m -> makes_sense a m.
Proof.
  intros K R S V H. destruct (k_succeeds _ _ _ K s m R V H) as (s' & E). destruct (c22_accepts_pf P s a m R S V) as (s2 & o & E2 & I). rewrite E in E2. apply ret_inj in E2.
  injection E2 as <- <-. now apply I.
Qed.
(** C75: whoever keeps the contract, the client that uses the bitboards finds every legal move exactly once, without an allocator. *)
Lemma c75_generate_pf : forall P L ok s, keeps_contract P L ok -> reachable P s ->
  exists l, generate P L s = Ret l /\ NoDup l /\ forall m, In m l <-> valid_move m /\ says_legal L s m.
Proof.
  intros P L ok s K R. pose proof (sees_abs P s (reachable_wf P s R)) as S. set (a := abs s) in *. unfold generate.
  destruct (c21_bitboards_pf P s a R S) as (PB & _). destruct (PB (side_to_move s)) as (own & -> & Vo & Ho). clear PB. cbn [bind].
  destruct (each_ok P own Vo) as (froms & -> & Nf & If). cbn [bind].
  assert (Hf : forall from, In from froms <-> valid_square from /\ exists k, a_board a from = Some (k, a_side a)).
  { intros from. rewrite If. split; intros [V H]; (split; [exact V|]).
    - rewrite Ho in H by auto. apply ret_inj in H. destruct (a_board a from) as [[k d]|]; [|discriminate]. exists k. destruct S as (S & _). rewrite S in H.
      apply same_color_true in H. now rewrite H.
    - destruct H as (k & E). rewrite Ho, E by auto. destruct S as (-> & _). now rewrite same_color_refl. }
  clear Ho If Vo.
  destruct (map_res_ex (fun from => b <- lc_normal_from_candidates L s from;; tos <- each P b;;
    ls <- map_res (fun to => filter_res (lc_is_legal_partial_lite L s) [Normal from to false; Normal from to true]) tos;; Ret (concat ls))
    (fun from => lists (fun m => exists to pr, m = Normal from to pr /\ valid_square to /\ says_legal L s m)) froms) as (normal & -> & Fn).
  { intros from I. apply Hf in I as [Vf _]. destruct (k_from _ _ _ K s from R Vf) as (b & -> & Vb & Hb). cbn [bind]. destruct (each_ok P b Vb) as (tos & -> & Nt & It). cbn [bind].
    destruct (map_res_ex (fun to => filter_res (lc_is_legal_partial_lite L s) [Normal from to false; Normal from to true])
      (fun to => lists (fun m => In m [Normal from to false; Normal from to true] /\ says_legal L s m)) tos) as (ls & -> & Fl).
    { intros to I. apply It in I as [Vt _]. apply filter_res_ok; [|repeat constructor; cbn [In]; intuition discriminate].
      intros m I. apply (k_lite _ _ _ K); auto. destruct I as [<-|[<-|[]]]; split; auto. }
    cbn [bind]. eexists. split; [reflexivity|]. eapply lists_iff; [|apply (concat_lists _ _ _ Fl Nt)].
    - intros m. split.
      + intros (to & I & [J Lm]). apply It in I as [Vt _]. destruct J as [<-|[<-|[]]]; eauto 6.
      + intros (to & pr & -> & Vt & Lm). exists to. split; [apply It; split; auto; apply Hb; eauto|]. split; auto. destruct pr; cbn [In]; auto.
    - intros x y m [A _] [B _]. cbn [In] in A, B. intuition congruence. }
  cbn [bind].
  match goal with |- context [map_res ?f hand_kinds] => destruct (map_res_ex f
    (fun k => lists (fun m => exists to, m = Drop (piece_of k (side_to_move s)) to /\ valid_square to /\ says_legal L s m)) hand_kinds) as (drops & -> & Fd) end.
  { intros k _. cbv zeta. destruct (k_drop _ _ _ K s (piece_of k (side_to_move s)) R (piece_of_valid _ _)) as (b & -> & Vb & Hb). cbn [bind].
    destruct (each_ok P b Vb) as (tos & -> & Nt & It). cbn [bind]. eexists. split; [reflexivity|]. split.
    - apply map_NoDup; auto. intros x y _ _ [= E]. exact E.
    - intros m. rewrite in_map_iff. split.
      + intros (to & <- & I). apply It in I as [Vt I]. exists to. split; auto. split; auto. now apply Hb.
      + intros (to & -> & Vt & Lm). exists to. split; auto. apply It. split; auto. now apply Hb. }
  cbn [bind]. eexists. split; [reflexivity|].
  assert (LN := concat_lists _ _ _ Fn Nf). assert (LD := concat_lists _ _ _ Fd).
  match type of LN with ?A -> _ => assert (HA : A) by (intros x y m (t & pr & -> & _) (t' & pr' & E & _); congruence); specialize (LN HA); clear HA end.
  assert (Nk : NoDup hand_kinds) by (repeat constructor; cbn [In]; intuition discriminate). specialize (LD Nk).
  match type of LD with ?A -> _ => assert (HA : A) end.
  { intros x y m (t & -> & _) (t' & E & _). apply (f_equal (fun m => match m with Drop p _ => kind_of p | Normal _ _ _ => King end)) in E. now rewrite !kind_of_of in E. }
  specialize (LD HA). clear HA.
  destruct (lists_app _ _ _ _ LN LD) as [N I]; [intros m (x & _ & t & pr & -> & _) (k & _ & t' & E & _); discriminate|]. split; auto. intros m. rewrite I. clear I N LN LD Fn Fd. split.
  - intros [(from & If & to & pr & -> & Vt & Lm)|(k & _ & to & -> & Vt & Lm)]; (split; [|exact Lm]); [apply Hf in If as [Vf _]; split; auto|split; auto; apply piece_of_valid].
  - intros [V Lm]. pose proof (sensible_parts P L ok s a m K R S V Lm) as MS. destruct m as [from to pr|p to]; destruct V as [V1 V2]; [left|right].
    + destruct MS as [(k & E & _) _]. exists from. split; [apply Hf; eauto|]. eauto 6.
    + destruct MS as (C & H & _). exists (kind_of p). split; auto. exists to. split; auto. f_equal. destruct S as (-> & _). rewrite <- C. symmetry. now apply piece_of_parts.
Qed.

(** ** Implementors *)
Lemma sense_candidate a m : valid_move m -> makes_sense a m -> In m (candidates (a_side a)).
Proof.
  intros V MS. unfold candidates. apply in_app_iff. rewrite !in_flat_map. destruct m as [f t pr|p t]; destruct V as [V1 V2].
  - left. exists f. split; [now apply In_squares|]. apply in_flat_map. exists t. split; [now apply In_squares|]. destruct pr; cbn [In]; auto.
  - right. destruct MS as (C & H & _). exists (kind_of p). split; auto. apply in_map_iff. exists t. split; [|now apply In_squares]. f_equal. rewrite <- C. now apply piece_of_parts.
Qed.
Lemma table_contract P full st f why (ok : position -> Prop) :
  (forall a b m, aeq a b -> valid_move m -> f a m = f b m) -> (forall a b, aeq a b -> st a = st b) -> (forall a, st a <> PSDraw) ->
  (forall a m, valid_move m -> f a m = true -> makes_sense a m /\ st a = PSInProgress) ->
  (forall p, ok p -> reachable P (inner p) /\ exists x, full p = Ret x) ->
  keeps_contract P (table_checker P full st f why) ok.
Proof.
  intros Ef Es Nd Hf Hok. set (L := table_checker P full st f why).
  assert (LK : forall s, reachable P s -> exists b, look P s = Ret b /\ aeq b (abs s)) by (intros s R; apply look_sees; auto; apply sees_abs, (reachable_wf P), R).
  assert (SL : forall s m, reachable P s -> valid_move m -> (says_legal L s m <-> f (abs s) m = true)).
  { intros s m R V. destruct (LK s R) as (b & E & A). unfold says_legal, L, table_checker. cbn [lc_is_legal_partial]. rewrite E. cbn [bind]. rewrite (Ef b (abs s) m A V).
    destruct (f (abs s) m); split; congruence. }
  assert (T : forall x, Ret x = Ret true <-> x = true) by (intros []; split; congruence).
  assert (EX : forall s from to, reachable P s -> valid_square from -> valid_square to ->
    ((exists pr, says_legal L s (Normal from to pr)) <-> f (abs s) (Normal from to false) = true \/ f (abs s) (Normal from to true) = true)).
  { intros s from to R V1 V2. split; [intros ([] & H); apply SL in H; auto; split; auto|intros [H|H]; [exists false|exists true]; apply SL; auto; split; auto]. }
  constructor; auto; try (intros s; intros; destruct (LK s) as (b & E & A); [assumption|]; unfold L, table_checker; cbn [lc_status_partial lc_is_legal_partial lc_is_legal_partial_lite lc_all_legal_moves_partial
    lc_normal_from_candidates lc_normal_to_candidates lc_drop_candidates]; rewrite E; cbn [bind]).
  - eauto.
  - eauto.
  - intros Q. apply ret_inj in Q. now apply (Nd b).
  - match goal with H : says_legal _ _ _ |- _ => apply SL in H; auto; apply Hf in H; auto; destruct H as [_ H]; rewrite (Es b _ A), H; reflexivity end.
  - intros s m R V H. apply SL in H; auto. apply Hf in H as [H _]; auto.
    destruct (c22_accepts_pf P s (abs s) m) as (s' & o & Em & I); auto; [now apply sees_abs, (reachable_wf P)|]. exists s'. rewrite Em. f_equal. f_equal. now apply I.
  - eexists. split; [reflexivity|]. rewrite (Ef b (abs s)) by auto. symmetry. now apply SL.
  - eexists. split; [reflexivity|]. split; [apply Forall_forall; intros m I; apply filter_In in I as [I _]; eapply candidates_valid; eauto|]. intros m V. rewrite filter_In, (Ef b (abs s)) by auto.
    rewrite <- SL by auto. split; [tauto|]. intros Lm. split; auto. rewrite (proj1 A). apply sense_candidate; auto. apply SL in Lm; auto. now apply Hf.
  - match goal with |- context [filter ?g squares] => destruct (collect_filter P g) as (bb & -> & V & Hb) end. exists bb. split; auto. split; auto. intros to Vt.
    rewrite Hb, T, orb_true_iff by auto. rewrite !(Ef b (abs s)) by (auto; split; auto). symmetry. now apply EX.
  - match goal with |- context [filter ?g squares] => destruct (collect_filter P g) as (bb & -> & V & Hb) end. exists bb. split; auto. split; auto. intros from Vf.
    apply (iff_trans (B := piece_at P s from = Ret (Some p) /\ (f (abs s) (Normal from to false) = true \/ f (abs s) (Normal from to true) = true)));
      [|apply and_iff_compat_l; symmetry; now apply EX]. rewrite Hb, T by auto.
    rewrite (proj1 (proj2 (proj2 A)) from Vf). pose proof (sees_abs P s (reachable_wf P s H)) as (_ & _ & S & _). rewrite S by auto.
    destruct (a_board (abs s) from) as [x|]; cbn [option_map]; [|intuition discriminate]. unfold piece_eqb. destruct (N.eqb_spec (piece_repr (the_piece x)) (piece_repr p)) as [Q|Q].
    + assert (H2 : the_piece x = p) by (destruct (the_piece x), p; cbn in Q; congruence). rewrite orb_true_iff, !(Ef b (abs s)) by (auto; split; auto). rewrite H2. split; [intros Z; split; [reflexivity|exact Z]|intros [_ Z]; exact Z].
    + split; [discriminate|]. intros [F _]. exfalso. apply Q. congruence.
  - match goal with |- context [filter ?g squares] => destruct (collect_filter P g) as (bb & -> & V & Hb) end. exists bb. split; auto. split; auto. intros to Vt.
    rewrite Hb, T by auto. rewrite (Ef b (abs s)) by (auto; split; auto). symmetry. apply SL; auto. split; auto.
Qed.
Lemma allowed_sense a m : valid_move m -> allowed a m = true -> makes_sense a m /\ status_of a = PSInProgress.
Proof. intros V H. apply allowed_iff in H as [L H]. split; [apply right_sense; auto using legal_right|now apply (legal_in_progress a m)]. Qed.
Lemma status_no_draw a : status_of a <> PSDraw.
Proof. unfold status_of. destruct (check _ _); [discriminate|]. destruct (existsb _ _); [discriminate|]. destruct (a_side a); discriminate. Qed.
(** C75: the implementor that goes by the rules keeps the contract, and so does the one that knows of repetition. *)
Lemma c75_rules_pf : forall P, keeps_contract P (rules_checker P) (fun p => reachable P (inner p)) /\ keeps_contract P (full_checker P) (recorded P).
Proof.
  intros P. split.
  - apply (table_contract P (fun p => rules_status P (inner p)) status_of allowed fault); auto using allowed_ext, status_ext, status_no_draw, allowed_sense.
    intros p R. split; auto. destruct (look_sees P (inner p) _ R (sees_abs P _ (reachable_wf P _ R))) as (b & E & _). unfold rules_status. rewrite E. cbn [bind]. eauto.
  - apply (table_contract P (full_status P) status_of allowed fault); auto using allowed_ext, status_ext, status_no_draw, allowed_sense.
    intros p (p0 & s0 & a0 & xs & bs & C & S & F & V & E). destruct (c74_status_pf P p0 s0 a0 xs C S F V) as (p' & bs' & E' & _ & St). rewrite E in E'. apply ret_inj in E'.
    injection E' as <- <-. split; [|eauto]. destruct (c31_replay_pf P p0 s0 xs C V) as (p' & bs' & E' & _ & _ & Run & _). rewrite E in E'. apply ret_inj in E'. injection E' as <- <-.
    apply created_facts in C as [R _]. eapply reachable_run; [exact R| |exact Run]. apply Forall_map. eapply Forall_impl; [|exact V]. intros [m|c]; simpl; auto. intros Vc. now apply valid_compact_unpack.
Qed.
(** C75: the contract does not say what the rules are: an implementor that calls every move legal that [make_move] accepts keeps it too,
    and the two differ. *)
Lemma c75_not_determined_pf : forall P, keeps_contract P (lenient P) (fun p => reachable P (inner p)) /\
  exists s m, reachable P s /\ valid_move m /\ says_legal (lenient P) s m /\ ~ says_legal (rules_checker P) s m.
Proof.
  intros P. split.
  - apply table_contract; auto; try discriminate.
    + intros a b m A V. pose proof (a_move_aeq a b m V A) as H. destruct (a_move a m), (a_move b m); cbn in *; tauto.
    + intros a m V H. split; auto. apply a_move_accepts. destruct (a_move a m); [eauto|discriminate].
    + intros p R. eauto.
  - exists the_startpos, (rm 9 9 1 5 false). split; [exists the_startpos, [], []; split; [right; apply startpos_ok|]; split; auto|]. split; [repeat split; discriminate|].
    destruct P; (split; [vm_compute; reflexivity|]); intros H; unfold says_legal in H; vm_compute in H; discriminate.
Qed.
