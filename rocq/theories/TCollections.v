(*PROPHEAD
Property theorems C87: values of the crate as keys of the standard maps
From Verif Require Import LSample TOrd TRepeat.
*)
(** Proofs of the property theorems on values as keys of maps (restated in Prop_Collections.v). *)
From Coq Require Import Permutation.
From Verif Require Import TOrd TOrder TRepeat LSample.
From Verif Require Export SpecCollections.

(** ** What is held after one more call *)
Definition equivalence {K} (valid : K -> Prop) (same : K -> K -> Prop) : Prop :=
  (forall a, valid a -> same a a) /\ (forall a b, valid a -> valid b -> same a b -> same b a) /\
  (forall a b c, valid a -> valid b -> valid c -> same a b -> same b c -> same a c) /\
  (forall a b, valid a -> valid b -> same a b \/ ~ same a b).
Lemma last_app {A} (l l' : list A) x y : l ++ [x] = l' ++ [y] -> l = l' /\ x = y.
Proof. apply app_inj_tail. Qed.
Lemma split_last {A} (l : list A) : l = [] \/ exists l' x, l = l' ++ [x].
Proof. destruct l as [|a l] using rev_ind; [now left|right; eauto]. Qed.
Lemma held_nil {K V} same k (v : V) : ~ held (K := K) same [] k v.
Proof. intros (b & k' & a & E & _). destruct b; discriminate. Qed.
Lemma held_untouched {K V} (same : K -> K -> Prop) past c k (v : V) : ~ touches same c k -> held same (past ++ [c]) k v <-> held same past k v.
Proof.
  intros T. split.
  - intros (b & k' & a & E & S & U). destruct (split_last a) as [->|(a' & x & ->)].
    + apply last_app in E as [_ ->]. exfalso. apply T. exact S.
    + rewrite app_comm_cons, app_assoc in E. apply last_app in E as [-> _]. exists b, k', a'. repeat split; auto. intros c' I. apply U. apply in_app_iff. now left.
  - intros (b & k' & a & -> & S & U). exists b, k', (a ++ [c]). rewrite <- app_assoc. repeat split; auto. intros c' I. apply in_app_iff in I as [I|[<-|[]]]; auto.
Qed.
Lemma held_insert {K V} (same : K -> K -> Prop) past k k' (v w : V) : same k' k -> held same (past ++ [MInsert k' w]) k v <-> v = w.
Proof.
  intros S. split.
  - intros (b & k0 & a & E & S0 & U). destruct (split_last a) as [->|(a' & x & ->)].
    + apply last_app in E as [_ E]. now injection E as _ ->.
    + rewrite app_comm_cons, app_assoc in E. apply last_app in E as [_ <-]. exfalso. eapply U; [apply in_app_iff; right; now left|]. exact S.
  - intros ->. exists past, k', []. repeat split; auto.
Qed.
Lemma held_remove {K V} (same : K -> K -> Prop) past k k' (v : V) : same k' k -> ~ held same (past ++ [MRemove k']) k v.
Proof.
  intros S (b & k0 & a & E & S0 & U). destruct (split_last a) as [->|(a' & x & ->)].
  - apply last_app in E as [_ E]. discriminate.
  - rewrite app_comm_cons, app_assoc in E. apply last_app in E as [_ <-]. eapply U; [apply in_app_iff; right; now left|]. exact S.
Qed.

(** ** The entries of a map, in any order, that are right after the calls [past] *)
Definition apart {K V} (same : K -> K -> Prop) (es : list (K * V)) : Prop := ForallOrdPairs (fun a b => ~ same a b) (map fst es).
Definition right_entries {K V} (valid : K -> Prop) (same : K -> K -> Prop) (past : list (map_call K V)) (es : list (K * V)) : Prop :=
  Forall (fun e => valid (fst e)) es /\ apart same es /\
  forall k v, valid k -> (exists k', In (k', v) es /\ same k' k) <-> held same past k v.

Lemma pairs_perm {A} (R : A -> A -> Prop) l l' : (forall a b, In a l -> In b l -> R a b -> R b a) -> Permutation l l' -> ForallOrdPairs R l -> ForallOrdPairs R l'.
Proof.
  intros S Pm. revert S. induction Pm as [|x l l' Pm IH|x y l|l l' l'' Pm1 IH1 Pm2 IH2]; intros S F; auto.
  - inversion F as [|? ? F1 F2]; subst. constructor; [now rewrite <- Pm|]. apply IH; auto. intros; apply S; auto using in_cons.
  - inversion F as [|? ? F1 F2]; subst. inversion F2 as [|? ? F3 F4]; subst. inversion F1 as [|? ? F5 F6]; subst.
    constructor; [constructor; auto; apply S; auto; [now left|right; now left]|]. constructor; auto.
  - apply IH2; [|now apply IH1]. intros a b Ia Ib. apply S; eapply Permutation_in; try eassumption; now apply Permutation_sym.
Qed.
Lemma right_perm {K V} (valid : K -> Prop) same past (es es' : list (K * V)) : equivalence valid same -> Permutation es es' ->
  right_entries valid same past es -> right_entries valid same past es'.
Proof.
  intros (_ & Sy & _ & _) Pm (Va & Ap & Q). split; [now rewrite <- Pm|]. split.
  - unfold apart in *. revert Ap. apply pairs_perm; [|now apply Permutation_map].
    intros a b Ia Ib N S. apply N. apply in_map_iff in Ia as (x & <- & Ix), Ib as (y & <- & Iy). rewrite Forall_forall in Va. apply Sy; auto.
  - intros k v Vk. rewrite <- Q by auto. split; intros (k' & I & S); exists k'; split; auto; [now rewrite Pm|now rewrite <- Pm].
Qed.
Lemma apart_hd {K V} (same : K -> K -> Prop) k (v : V) es k' v' : apart same ((k, v) :: es) -> In (k', v') es -> ~ same k k'.
Proof. intros Ap I. inversion Ap as [|? ? F]; subst. rewrite Forall_forall in F. apply F. apply in_map_iff. exists (k', v'). auto. Qed.

(** the answers *)
Lemma right_found {K V} (valid : K -> Prop) same past (es : list (K * V)) k k0 v : equivalence valid same -> valid k -> valid k0 ->
  right_entries valid same past ((k0, v) :: es) -> same k0 k -> forall w, Some v = Some w <-> held same past k w.
Proof.
  intros (Re & Sy & Tr & De) Vk V0 (Va & Ap & Q) S w. rewrite <- Q by auto. split.
  - intros [= ->]. exists k0. split; auto. now left.
  - intros (k' & [E|I] & S'); [now injection E as _ ->|]. exfalso. apply (apart_hd _ _ _ _ _ _ Ap I).
    inversion Va as [|? ? _ Va']; subst. rewrite Forall_forall in Va'. specialize (Va' _ I). cbn in Va'. apply Tr with k; auto.
Qed.
Lemma right_missing {K V} (valid : K -> Prop) same past (es : list (K * V)) k : valid k -> right_entries valid same past es ->
  (forall k' v, In (k', v) es -> ~ same k' k) -> forall w, None = Some w <-> held same past k w.
Proof. intros Vk (Va & Ap & Q) N w. rewrite <- Q by auto. split; [discriminate|]. intros (k' & I & S). now apply N in I. Qed.
Lemma right_keys {K V} (valid : K -> Prop) same past (es : list (K * V)) : right_entries valid same past es -> keys_of valid same past (map fst es).
Proof.
  intros (Va & Ap & Q). split; [|split; [exact Ap|]].
  - apply Forall_map. exact Va.
  - intros k Vk. split.
    + intros (v & Hd). apply Q in Hd as (k' & I & S); auto. exists k'. split; auto. apply in_map_iff. now exists (k', v).
    + intros (k' & I & S). apply in_map_iff in I as ((k1 & v) & E & I). cbn in E. subst k1. exists v. apply Q; eauto.
Qed.

(** the changes *)
Lemma right_replaced {K V} (valid : K -> Prop) same past (es : list (K * V)) k k0 v w : equivalence valid same -> valid k -> valid k0 ->
  right_entries valid same past ((k0, v) :: es) -> same k0 k -> right_entries valid same (past ++ [MInsert k w]) ((k0, w) :: es).
Proof.
  intros (Re & Sy & Tr & De) Vk V0 (Va & Ap & Q) S. inversion Va as [|? ? _ Va']; subst. split; [constructor; auto|]. split; [exact Ap|].
  rewrite Forall_forall in Va'. intros k1 v1 V1. destruct (De k k1 Vk V1) as [Sk|Nk].
  - rewrite held_insert by auto. split.
    + intros (k' & [E|I] & S'); [now injection E as _ ->|]. exfalso. specialize (Va' _ I) as Vk'. cbn in Vk'.
      apply (apart_hd _ _ _ _ _ _ Ap I). apply Tr with k; auto. apply Tr with k1; auto.
    + intros ->. exists k0. split; [now left|]. apply Tr with k; auto.
  - rewrite held_untouched by exact Nk. rewrite <- Q by auto. split; intros (k' & [E|I] & S').
    + injection E as <- <-. exfalso. apply Nk. apply Tr with k0; auto.
    + exists k'. split; auto. now right.
    + injection E as <- <-. exfalso. apply Nk. apply Tr with k0; auto.
    + exists k'. split; auto. now right.
Qed.
Lemma right_added {K V} (valid : K -> Prop) same past (es : list (K * V)) k w : equivalence valid same -> valid k ->
  right_entries valid same past es -> (forall k' v, In (k', v) es -> ~ same k' k) -> right_entries valid same (past ++ [MInsert k w]) ((k, w) :: es).
Proof.
  intros (Re & Sy & Tr & De) Vk (Va & Ap & Q) N. split; [constructor; auto|]. rewrite Forall_forall in Va. split.
  { constructor; [|exact Ap]. apply Forall_forall. intros k' I S. apply in_map_iff in I as ((k1 & v) & E & I). cbn in E. subst k1. apply (N _ _ I). apply Sy; auto. apply (Va _ I). }
  intros k1 v1 V1. destruct (De k k1 Vk V1) as [Sk|Nk].
  - rewrite held_insert by auto. split.
    + intros (k' & [E|I] & S'); [now injection E as _ ->|]. exfalso. specialize (Va _ I) as Vk'. cbn in Vk'. apply (N _ _ I). apply Tr with k1; auto.
    + intros ->. exists k. split; [now left|]. auto.
  - rewrite held_untouched by exact Nk. rewrite <- Q by auto. split; intros (k' & I & S').
    + destruct I as [E|I]; [|eauto]. injection E as <- <-. now exfalso.
    + exists k'. split; auto. now right.
Qed.
Lemma right_removed {K V} (valid : K -> Prop) same past (es : list (K * V)) k k0 v : equivalence valid same -> valid k -> valid k0 ->
  right_entries valid same past ((k0, v) :: es) -> same k0 k -> right_entries valid same (past ++ [MRemove k]) es.
Proof.
  intros (Re & Sy & Tr & De) Vk V0 (Va & Ap & Q) S. inversion Va as [|? ? _ Va']; subst. split; [auto|]. split; [now inversion Ap|].
  rewrite Forall_forall in Va'. intros k1 v1 V1. destruct (De k k1 Vk V1) as [Sk|Nk].
  - split; [|intros Hd; destruct (held_remove _ _ _ _ _ Sk Hd)]. intros (k' & I & S'). exfalso. specialize (Va' _ I) as Vk'. cbn in Vk'.
    apply (apart_hd _ _ _ _ _ _ Ap I). apply Tr with k; auto. apply Tr with k1; auto.
  - rewrite held_untouched by exact Nk. rewrite <- Q by auto. split; intros (k' & I & S').
    + exists k'. split; auto. now right.
    + destruct I as [E|I]; [|eauto]. injection E as <- <-. exfalso. apply Nk. apply Tr with k0; auto.
Qed.
Lemma right_unchanged {K V} (valid : K -> Prop) same past (es : list (K * V)) c : (forall k, valid k -> ~ touches same c k) ->
  right_entries valid same past es -> right_entries valid same (past ++ [c]) es.
Proof. intros T (Va & Ap & Q). split; auto. split; auto. intros k v Vk. rewrite Q by auto. symmetry. apply held_untouched. auto. Qed.
Lemma right_not_there {K V} (valid : K -> Prop) same past (es : list (K * V)) k : equivalence valid same -> valid k -> right_entries valid same past es ->
  (forall k' v, In (k', v) es -> ~ same k' k) -> right_entries valid same (past ++ [MRemove k]) es.
Proof.
  intros (Re & Sy & Tr & De) Vk (Va & Ap & Q) N. split; auto. split; auto. rewrite Forall_forall in Va.
  intros k1 v1 V1. destruct (De k k1 Vk V1) as [Sk|Nk].
  - split; [|intros Hd; destruct (held_remove _ _ _ _ _ Sk Hd)]. intros (k' & I & S'). exfalso. specialize (Va _ I) as Vk'. cbn in Vk'. apply (N _ _ I). apply Tr with k1; auto.
  - rewrite held_untouched by exact Nk. now apply Q.
Qed.

(** ** Sessions *)
Lemma session_right {K V T} (valid : K -> Prop) same ord (step : T -> map_call K V -> T * map_answer K V) (inv : list (map_call K V) -> T -> Prop) :
  (forall past t c, inv past t -> valid_key valid c -> right_answer valid same ord past c (snd (step t c)) /\ inv (past ++ [c]) (fst (step t c))) ->
  forall cs t past, inv past t -> Forall (valid_key valid) cs ->
    length (map_session step t cs) = length cs /\
    forall before c after a, cs = before ++ c :: after -> nth_error (map_session step t cs) (length before) = Some a -> right_answer valid same ord (past ++ before) c a.
Proof.
  intros St. induction cs as [|c0 cs IH]; intros t past I F; cbn [map_session].
  - split; [reflexivity|]. intros [|? ?]; discriminate.
  - inversion F as [|? ? F1 F2]; subst. destruct (St past t c0 I F1) as [Ra I']. destruct (step t c0) as [t' a0] eqn:E. cbn [fst snd] in *.
    destruct (IH t' (past ++ [c0]) I' F2) as [L R]. split; [cbn; now rewrite L|].
    intros [|b0 before] c after a Eq; cbn [app length nth_error] in *; injection Eq as <- Eq.
    + intros [= <-]. now rewrite app_nil_r.
    + intros N. specialize (R before c after a Eq N). now rewrite <- app_assoc in R.
Qed.

(** ** Buckets *)
Lemma in_bucket_split {K V} f i (bs : buckets K V) : (i < length bs)%nat ->
  exists b1 l b2, bs = b1 ++ l :: b2 /\ length b1 = i /\ in_bucket K V i f bs = b1 ++ f l :: b2 /\ nth i bs [] = l.
Proof.
  revert i. induction bs as [|b bs IH]; intros [|i] L; cbn in L; try lia.
  - now exists [], b, bs.
  - destruct (IH i) as (b1 & l & b2 & E & Lb & Eq & N); [lia|]. exists (b :: b1), l, b2. subst bs. cbn [in_bucket]. rewrite Eq. cbn. repeat split; auto.
Qed.
Lemma in_bucket_length {K V} f i (bs : buckets K V) : length (in_bucket K V i f bs) = length bs.
Proof. revert i. induction bs as [|b bs IH]; intros [|i]; cbn; auto. Qed.
Lemma in_bucket_nth {K V} f i j (bs : buckets K V) : (i < length bs)%nat ->
  nth j (in_bucket K V i f bs) [] = if Nat.eqb j i then f (nth i bs []) else nth j bs [].
Proof.
  revert i j. induction bs as [|b bs IH]; intros [|i] [|j] L; cbn in *; try lia; auto. apply IH. lia.
Qed.
Definition well_placed {K V} (hash : K -> list htok) (H : list htok -> N) (bs : buckets K V) : Prop :=
  forall i e, In e (nth i bs []) -> bucket_of K hash H (length bs) (fst e) = i.
Lemma bucket_bound {K} hash H n k : (0 < n)%nat -> (bucket_of K hash H n k < n)%nat.
Proof. intros L. unfold bucket_of. pose proof (N.mod_lt (H (hash k)) (N.of_nat n)). lia. Qed.
Lemma nth_in_concat {A} i (bs : list (list A)) e : In e (nth i bs []) -> In e (concat bs).
Proof.
  intros I. destruct (Nat.lt_ge_cases i (length bs)) as [L|L]; [|rewrite nth_overflow in I by lia; destruct I].
  apply in_concat. exists (nth i bs []). split; auto. now apply nth_In.
Qed.
Lemma concat_in_nth {A} (bs : list (list A)) e : In e (concat bs) -> exists i, (i < length bs)%nat /\ In e (nth i bs []).
Proof. intros I. apply in_concat in I as (l & Il & Ie). apply In_nth with (d := []) in Il as (i & L & <-). eauto. Qed.

Lemma push_entries {K V} hash H (bs : buckets K V) e : (0 < length bs)%nat -> well_placed hash H bs ->
  Permutation (concat (hm_push K V hash H bs e)) (e :: concat bs) /\ well_placed hash H (hm_push K V hash H bs e) /\ length (hm_push K V hash H bs e) = length bs.
Proof.
  intros L W. unfold hm_push. pose proof (bucket_bound hash H (length bs) (fst e) L) as Lt.
  destruct (in_bucket_split (cons e) _ bs Lt) as (b1 & l & b2 & E & Lb & Eq & N). split; [|split].
  - rewrite Eq, E, !concat_app. cbn [concat]. rewrite <- app_comm_cons. symmetry. apply Permutation_middle.
  - intros i x I. rewrite in_bucket_length. rewrite in_bucket_nth in I by auto. destruct (Nat.eqb_spec i (bucket_of K hash H (length bs) (fst e))) as [->|]; [|now apply W].
    destruct I as [<-|I]; [reflexivity|now apply W].
  - apply in_bucket_length.
Qed.
Lemma pushes_entries {K V} hash H (es : list (K * V)) : forall bs, (0 < length bs)%nat -> well_placed hash H bs ->
  let bs' := fold_left (hm_push K V hash H) es bs in Permutation (concat bs') (es ++ concat bs) /\ well_placed hash H bs' /\ length bs' = length bs.
Proof.
  induction es as [|e es IH]; intros bs L W; cbn; [auto|]. destruct (push_entries hash H bs e L W) as (Pm & W' & L').
  destruct (IH (hm_push K V hash H bs e)) as (Pm2 & W2 & L2); [lia|auto|]. cbn in *. split; [|split; [auto|lia]].
  rewrite Pm2, Pm. symmetry. apply Permutation_middle.
Qed.
Lemma reserve_entries {K V} hash H grow (bs : buckets K V) : well_placed hash H bs ->
  let bs' := hm_reserve K V hash H grow bs in Permutation (concat bs') (concat bs) /\ well_placed hash H bs' /\ (0 < length bs')%nat.
Proof.
  intros W bs'. unfold bs', hm_reserve. set (n := Nat.max 1 _). assert (1 <= n)%nat by (unfold n; lia).
  destruct (Nat.eqb_spec n (length bs)) as [E|_]; [split; [reflexivity|split; [auto|lia]]|].
  assert (C : concat (repeat (@nil (K * V)) n) = []) by (clear; induction n; auto).
  destruct (pushes_entries hash H (concat bs) (repeat [] n)) as (Pm & W' & L).
  - rewrite repeat_length. lia.
  - intros i e I. exfalso. apply nth_in_concat in I. rewrite C in I. destruct I.
  - cbn in *. rewrite C, app_nil_r in Pm. split; [exact Pm|]. split; [exact W'|]. rewrite L, repeat_length. lia.
Qed.

(** chains *)
Lemma chain_cases {K V} (eqb : K -> K -> bool) k (l : list (K * V)) :
  (chain_get K V eqb k l = None /\ forall k' v, In (k', v) l -> eqb k k' = false) \/
  exists l1 k0 v l2, l = l1 ++ (k0, v) :: l2 /\ eqb k k0 = true /\ chain_get K V eqb k l = Some v /\
    (forall w, chain_set K V eqb k w l = l1 ++ (k0, w) :: l2) /\ chain_remove K V eqb k l = l1 ++ l2.
Proof.
  induction l as [|(k1 & v1) l IH]; cbn; [left; split; [reflexivity|intros ? ? []]|]. destruct (eqb k k1) eqn:E.
  - right. exists [], k1, v1, l. auto.
  - destruct IH as [[G N]|(l1 & k0 & v & l2 & -> & E0 & G & Se & Re)].
    + left. split; auto. intros k' v [[= <- <-]|I]; eauto.
    + right. exists ((k1, v1) :: l1), k0, v, l2. cbn. split; auto. split; auto. split; auto. split; [intros w; now rewrite Se|now rewrite Re].
Qed.
Lemma find_cases {K V} (valid : K -> Prop) (eqb : K -> K -> bool) hash H k (bs : buckets K V) :
  (forall a b, valid a -> valid b -> eqb a b = true -> hash a = hash b) -> well_placed hash H bs -> Forall (fun e => valid (fst e)) (concat bs) -> valid k ->
  (hm_get K V eqb hash H k bs = None /\ forall k' v, In (k', v) (concat bs) -> eqb k k' = false) \/
  exists k0 v rest, hm_get K V eqb hash H k bs = Some v /\ eqb k k0 = true /\ Permutation (concat bs) ((k0, v) :: rest) /\
    (forall w, let bs' := in_bucket K V (bucket_of K hash H (length bs) k) (chain_set K V eqb k w) bs in Permutation (concat bs') ((k0, w) :: rest) /\ well_placed hash H bs') /\
    (let bs' := in_bucket K V (bucket_of K hash H (length bs) k) (chain_remove K V eqb k) bs in Permutation (concat bs') rest /\ well_placed hash H bs').
Proof.
  intros Ha W Va Vk. unfold hm_get. set (i := bucket_of K hash H (length bs) k).
  destruct (chain_cases eqb k (nth i bs [])) as [[G N]|(l1 & k0 & v & l2 & E & E0 & G & Se & Re)].
  - left. split; auto. intros k' v I. destruct (eqb k k') eqn:Eq; auto. rewrite <- Eq. apply (N _ v).
    rewrite Forall_forall in Va. specialize (Va _ I) as Vk'. cbn in Vk'.
    apply concat_in_nth in I as (j & _ & I). specialize (W _ _ I) as Wj. cbn in Wj. unfold bucket_of in Wj. rewrite <- (Ha k k') in Wj by auto. unfold i, bucket_of. now rewrite Wj.
  - right. assert (L : (i < length bs)%nat).
    { destruct (Nat.lt_ge_cases i (length bs)); auto. rewrite nth_overflow in E by lia. destruct l1; discriminate. }
    destruct (in_bucket_split (fun l => l) i bs L) as (b1 & l & b2 & Eb & Lb & _ & Nl). rewrite Nl in E. subst l. rename Nl into Nb.
    exists k0, v, (concat b1 ++ l1 ++ l2 ++ concat b2). split; [now rewrite G|]. split; auto.
    assert (Pm : forall m, Permutation (concat b1 ++ (l1 ++ m ++ l2) ++ concat b2) (m ++ concat b1 ++ l1 ++ l2 ++ concat b2)).
    { intros m. rewrite <- !app_assoc. rewrite (Permutation_app_swap_app l1 m). rewrite (Permutation_app_swap_app (concat b1) m). reflexivity. }
    assert (Fr : forall f, exists c1 l c2, in_bucket K V i f bs = c1 ++ f l :: c2 /\ c1 = b1 /\ c2 = b2 /\ l = nth i bs []).
    { intros f. destruct (in_bucket_split f i bs L) as (c1 & l & c2 & Ec & Lc & Eq & Nc). exists c1, l, c2. split; auto.
      rewrite Eb in Ec. assert (c1 = b1 /\ l :: c2 = (l1 ++ (k0, v) :: l2) :: b2) as [-> X].
      { rewrite <- Lb in Lc. clear - Ec Lc. revert c1 Lc Ec. induction b1 as [|x b1 IH]; intros [|y c1] Lc Ec; try discriminate Lc; cbn in Ec; [now split|].
        injection Ec as -> Ec. injection Lc as Lc. destruct (IH c1 Lc Ec) as [-> X]. split; [reflexivity|exact X]. }
      injection X as _ ->. auto. }
    split; [rewrite Eb, concat_app; cbn [concat]; exact (Pm [(k0, v)])|]. split.
    + intros w. cbv zeta. split.
      * destruct (Fr (chain_set K V eqb k w)) as (c1 & l & c2 & -> & -> & -> & ->). rewrite Se, concat_app. cbn [concat]. exact (Pm [(k0, w)]).
      * intros j e I. rewrite in_bucket_length. rewrite in_bucket_nth in I by auto. destruct (Nat.eqb_spec j i) as [->|]; [|now apply W].
        rewrite Se in I. apply in_app_iff in I as [I|[<-|I]].
        -- apply (W i e). rewrite Nb. apply in_app_iff. now left.
        -- apply (W i (k0, v)). rewrite Nb. apply in_app_iff. right. now left.
        -- apply (W i e). rewrite Nb. apply in_app_iff. right. now right.
    + cbv zeta. split.
      * destruct (Fr (chain_remove K V eqb k)) as (c1 & l & c2 & -> & -> & -> & ->). rewrite Re, concat_app. cbn [concat]. exact (Pm []).
      * intros j e I. rewrite in_bucket_length. rewrite in_bucket_nth in I by auto. destruct (Nat.eqb_spec j i) as [->|]; [|now apply W].
        rewrite Re in I. apply (W i e). rewrite Nb. apply in_app_iff. apply in_app_iff in I as [I|I]; [now left|right; now right].
Qed.

Definition hm_inv {K V} (valid : K -> Prop) hash H (past : list (map_call K V)) (bs : buckets K V) : Prop :=
  well_placed hash H bs /\ right_entries valid eq past (concat bs).
Lemma equivalence_eq {K} (valid : K -> Prop) eqb : is_equality valid eqb -> equivalence valid eq.
Proof.
  intros Q. repeat split; intros; subst; auto. destruct (eqb a b) eqn:E; [left; now apply Q|right; intros X; apply Q in X; auto; congruence].
Qed.
Lemma sorted_any {A} (l : list A) : StronglySorted (fun _ _ => True) l.
Proof. induction l; constructor; auto. apply Forall_forall. auto. Qed.
Lemma hm_step {K V} (valid : K -> Prop) eqb hash H grow (past : list (map_call K V)) bs c : is_equality valid eqb -> hm_inv valid hash H past bs -> valid_key valid c ->
  right_answer valid eq (fun _ _ => True) past c (snd (hm_call eqb hash H grow bs c)) /\ hm_inv valid hash H (past ++ [c]) (fst (hm_call eqb hash H grow bs c)).
Proof.
  intros Q (W & R) Vc. pose proof (equivalence_eq valid eqb Q) as Eqv.
  assert (Ha : forall a b, valid a -> valid b -> eqb a b = true -> hash a = hash b) by (intros a b Va Vb E; apply Q in E; auto; now subst).
  pose proof (proj1 R) as Va. rewrite Forall_forall in Va.
  assert (Vp : forall es k0 v rest, Permutation es ((k0, v) :: rest) -> es = concat bs -> valid k0).
  { intros es k0 v rest Pm ->. apply (Va (k0, v)). rewrite Pm. now left. }
  destruct c as [k w|k|k|]; cbn [hm_call valid_key] in *.
  - unfold hm_insert. destruct (find_cases valid eqb hash H k bs Ha W (proj1 R) Vc) as [[G N]|(k0 & v & rest & G & E0 & Pm & Se & _)]; rewrite G; cbn [fst snd right_answer].
    + assert (N' : forall k' v, In (k', v) (concat bs) -> k' <> k).
      { intros k' v I ->. pose proof (N _ _ I) as F. assert (eqb k k = true) by (apply Q; auto). congruence. }
      split; [now apply (right_missing valid eq past (concat bs))|].
      destruct (reserve_entries hash H grow bs W) as (Pm & W' & L'). destruct (push_entries hash H _ (k, w) L' W') as (Pm2 & W2 & _). split; auto.
      apply (right_perm valid eq _ ((k, w) :: concat bs)); auto; [rewrite Pm2, Pm; reflexivity|]. now apply right_added.
    + pose proof (Vp _ _ _ _ Pm eq_refl) as V0. apply Q in E0; auto. subst k0. pose proof (right_perm valid eq _ _ _ Eqv Pm R) as R'.
      split; [now apply (right_found valid eq past rest k k)|]. destruct (Se w) as [Pm2 W2]. split; auto.
      apply (right_perm valid eq _ ((k, w) :: rest)); auto; [now symmetry|]. now apply (right_replaced valid eq past rest k k v w).
  - unfold hm_remove. destruct (find_cases valid eqb hash H k bs Ha W (proj1 R) Vc) as [[G N]|(k0 & v & rest & G & E0 & Pm & _ & Re)]; rewrite G; cbn [fst snd right_answer].
    + assert (N' : forall k' v, In (k', v) (concat bs) -> k' <> k).
      { intros k' v I ->. pose proof (N _ _ I) as F. assert (eqb k k = true) by (apply Q; auto). congruence. }
      split; [now apply (right_missing valid eq past (concat bs))|]. split; auto. now apply right_not_there.
    + pose proof (Vp _ _ _ _ Pm eq_refl) as V0. apply Q in E0; auto. subst k0. pose proof (right_perm valid eq _ _ _ Eqv Pm R) as R'.
      split; [now apply (right_found valid eq past rest k k)|]. destruct Re as [Pm2 W2]. split; auto.
      apply (right_perm valid eq _ rest); auto; [now symmetry|]. now apply (right_removed valid eq past rest k k v).
  - cbn [fst snd right_answer]. split; [|split; auto; apply right_unchanged; auto; intros; exact (fun x => x)].
    destruct (find_cases valid eqb hash H k bs Ha W (proj1 R) Vc) as [[G N]|(k0 & v & rest & G & E0 & Pm & _ & _)]; rewrite G.
    + apply (right_missing valid eq past (concat bs)); auto. intros k' v I ->. pose proof (N _ _ I) as F. assert (eqb k k = true) by (apply Q; auto). congruence.
    + pose proof (Vp _ _ _ _ Pm eq_refl) as V0. apply Q in E0; auto. subst k0. pose proof (right_perm valid eq _ _ _ Eqv Pm R) as R'.
      now apply (right_found valid eq past rest k k).
  - cbn [fst snd right_answer]. split; [split; [now apply right_keys|apply sorted_any]|]. split; auto. apply right_unchanged; auto; intros; exact (fun x => x).
Qed.
Lemma hash_keys {K} (valid : K -> Prop) eqb hash : is_equality valid eqb -> good_hash_key valid eqb hash.
Proof.
  intros Q V H grow cs F. unfold hash_session.
  apply (session_right valid eq _ (hm_call eqb hash H grow) (hm_inv valid hash H) (fun past t c I Vc => hm_step valid eqb hash H grow past t c Q I Vc) cs hm_new []); auto.
  split; [intros [|i] e []|]. split; [constructor|]. split; [constructor|]. intros k v Vk. split; [intros (k' & [] & _)|intros Hd; destruct (held_nil _ _ _ Hd)].
Qed.

(** ** Trees *)
Lemma cmp_gt {K} (cmp : K -> K -> comparison) a b : total_order cmp -> cmp a b = Gt <-> cmp b a = Lt.
Proof. intros (_ & D & _). rewrite (D a b). destruct (cmp a b); cbn; split; congruence. Qed.
Lemma cmp_trans {K} (cmp : K -> K -> comparison) a b c : total_order cmp -> cmp a b = Lt -> cmp b c = Lt -> cmp a c = Lt.
Proof.
  intros T A B. pose proof T as (_ & D & _ & Tr & Al & _). destruct (cmp a c) eqn:E; auto.
  - rewrite (Al a c b E) in A. rewrite (D b c), B in A. discriminate.
  - exfalso. apply (Tr a b c); congruence.
Qed.
Lemma ss_app {A} (R : A -> A -> Prop) l1 l2 : StronglySorted R (l1 ++ l2) <-> StronglySorted R l1 /\ StronglySorted R l2 /\ forall a b, In a l1 -> In b l2 -> R a b.
Proof.
  induction l1 as [|x l1 IH]; cbn.
  - split; [intros S; repeat split; auto; [constructor|intros ? ? []]|tauto].
  - split.
    + intros S. apply StronglySorted_inv in S as [S F]. apply IH in S as (S1 & S2 & S3). rewrite Forall_app in F. destruct F as [F1 F2].
      split; [now constructor|]. split; auto. intros a b [<-|I] Ib; auto. rewrite Forall_forall in F2. auto.
    + intros (S1 & S2 & S3). apply StronglySorted_inv in S1 as [S1 F1]. constructor; [apply IH; repeat split; auto|]. apply Forall_app. split; auto. apply Forall_forall. auto.
Qed.
Lemma bt_join_iter {K V} (l r : tree K V) : bt_iter (bt_join K V l r) = bt_iter l ++ bt_iter r.
Proof. induction l as [|a IHa k v b IHb]; cbn; auto. rewrite IHb, <- app_assoc. reflexivity. Qed.
Definition ascends {K V} (cmp : K -> K -> comparison) (es : list (K * V)) : Prop := StronglySorted (fun a b => cmp a b = Lt) (map fst es).
Lemma tree_cases {K V} (cmp : K -> K -> comparison) k (t : tree K V) : total_order cmp -> ascends cmp (bt_iter t) ->
  exists l1 m l2, bt_iter t = l1 ++ m ++ l2 /\ Forall (fun e => cmp k (fst e) = Gt) l1 /\ Forall (fun e => cmp k (fst e) = Lt) l2 /\
    bt_iter (bt_drop K V cmp k t) = l1 ++ l2 /\
    ((m = [] /\ bt_get K V cmp k t = None /\ forall w, bt_iter (bt_put K V cmp k w t) = l1 ++ (k, w) :: l2) \/
     exists k0 v, m = [(k0, v)] /\ cmp k k0 = Eq /\ bt_get K V cmp k t = Some v /\ forall w, bt_iter (bt_put K V cmp k w t) = l1 ++ (k0, w) :: l2).
Proof.
  intros T. induction t as [|l IHl k' v r IHr]; intros S; cbn [bt_iter bt_get bt_put bt_drop].
  - exists [], [], []. repeat split; auto.
  - unfold ascends in S. cbn [bt_iter] in S. rewrite map_app in S. cbn [map fst] in S. apply ss_app in S as (S1 & S2 & S3). apply StronglySorted_inv in S2 as [S2 F2].
    assert (Lo : forall e, In e (bt_iter l) -> cmp (fst e) k' = Lt) by (intros e I; apply S3; [now apply in_map|now left]).
    assert (Hi : forall e, In e (bt_iter r) -> cmp k' (fst e) = Lt) by (intros e I; rewrite Forall_forall in F2; apply F2; now apply in_map).
    destruct (cmp k k') eqn:E.
    + exists (bt_iter l), [(k', v)], (bt_iter r). pose proof T as (_ & D & _ & _ & Al & _). split; auto.
      split; [apply Forall_forall; intros e I; rewrite (Al _ _ _ E); apply cmp_gt; auto|]. split; [apply Forall_forall; intros e I; rewrite (Al _ _ _ E); auto|].
      split; [apply bt_join_iter|]. right. exists k', v. auto.
    + destruct (IHl S1) as (l1 & m & l2 & I & G & L & Dr & Ca). exists l1, m, (l2 ++ (k', v) :: bt_iter r).
      split; [cbn [bt_iter]; rewrite I, <- !app_assoc; reflexivity|]. split; auto. split.
      { apply Forall_app. split; auto. constructor; auto. apply Forall_forall. intros e Ie. apply (cmp_trans cmp k k'); auto. }
      split; [cbn [bt_iter]; rewrite Dr, <- app_assoc; reflexivity|].
      destruct Ca as [(-> & Ge & Pu)|(k0 & v0 & -> & E0 & Ge & Pu)]; [left|right; exists k0, v0]; repeat split; auto; intros w; cbn [bt_iter]; rewrite Pu, <- app_assoc; reflexivity.
    + destruct (IHr S2) as (l1 & m & l2 & I & G & L & Dr & Ca). exists (bt_iter l ++ (k', v) :: l1), m, l2.
      split; [cbn [bt_iter]; rewrite I, <- !app_assoc; reflexivity|]. split.
      { apply Forall_app. split; [|constructor; auto]. apply Forall_forall. intros e Ie. apply cmp_gt; auto. apply (cmp_trans cmp _ k'); auto. now apply cmp_gt. }
      split; auto. split; [cbn [bt_iter]; rewrite Dr, <- app_assoc; reflexivity|].
      destruct Ca as [(-> & Ge & Pu)|(k0 & v0 & -> & E0 & Ge & Pu)]; [left|right; exists k0, v0]; repeat split; auto; intros w; cbn [bt_iter]; rewrite Pu, <- app_assoc; reflexivity.
Qed.
Definition bt_inv {K V} (valid : K -> Prop) same cmp (past : list (map_call K V)) (t : tree K V) : Prop :=
  ascends cmp (bt_iter t) /\ right_entries valid same past (bt_iter t).
Lemma equivalence_cmp {K} (valid : K -> Prop) same cmp : total_order cmp -> (forall a b, valid a -> valid b -> (cmp a b = Eq <-> same a b)) -> equivalence valid same.
Proof.
  intros (Re & D & _ & _ & Al & _) Q. repeat split.
  - intros a Va. now apply Q.
  - intros a b Va Vb S. apply Q in S; auto. apply Q; auto. now rewrite D, S.
  - intros a b c Va Vb Vc S S'. apply Q in S, S'; auto. apply Q; auto. now rewrite (Al _ _ _ S).
  - intros a b Va Vb. destruct (cmp a b) eqn:E; [left; now apply Q|right..]; intros S; apply Q in S; auto; congruence.
Qed.
Lemma bt_step {K V} (valid : K -> Prop) same cmp shape (past : list (map_call K V)) t c : total_order cmp -> (forall a b, valid a -> valid b -> (cmp a b = Eq <-> same a b)) ->
  shapes shape -> bt_inv valid same cmp past t -> valid_key valid c ->
  right_answer valid same (fun a b => cmp a b = Lt) past c (snd (bt_call cmp shape t c)) /\ bt_inv valid same cmp (past ++ [c]) (fst (bt_call cmp shape t c)).
Proof.
  intros T Q Sh (S & R) Vc. pose proof (equivalence_cmp valid same cmp T Q) as Eqv. pose proof Eqv as (Re & Sy & Tr & De).
  pose proof (proj1 R) as Va. rewrite Forall_forall in Va.
  assert (Ca : forall k, valid k ->
    exists l1 m l2, bt_iter t = l1 ++ m ++ l2 /\ bt_iter (bt_drop K V cmp k t) = l1 ++ l2 /\ ascends cmp (l1 ++ l2) /\
    ((m = [] /\ bt_get K V cmp k t = None /\ (forall k' v, In (k', v) (l1 ++ l2) -> ~ same k' k) /\
      forall w, bt_iter (bt_put K V cmp k w t) = l1 ++ (k, w) :: l2 /\ ascends cmp (l1 ++ (k, w) :: l2)) \/
     exists k0 v, m = [(k0, v)] /\ valid k0 /\ same k0 k /\ bt_get K V cmp k t = Some v /\
      forall w, bt_iter (bt_put K V cmp k w t) = l1 ++ (k0, w) :: l2 /\ ascends cmp (l1 ++ (k0, w) :: l2))).
  { intros k Vk. destruct (tree_cases cmp k t T S) as (l1 & m & l2 & I & G & L & Dr & C). exists l1, m, l2. split; auto. split; auto.
    pose proof S as S'. unfold ascends in S'. rewrite I, !map_app in S'. apply ss_app in S' as (S1 & S2 & S3). apply ss_app in S2 as (Sm & S2 & S4).
    rewrite Forall_forall in G, L. split.
    { unfold ascends. rewrite map_app. apply ss_app. split; auto. split; auto. intros a b Ia Ib. apply S3; auto. apply in_app_iff. now right. }
    destruct C as [(-> & Ge & Pu)|(k0 & v & -> & E0 & Ge & Pu)]; [left|right; exists k0, v].
    - split; auto. split; auto. split.
      + intros k' v Ie Se. assert (Vk' : valid k') by (apply (Va (k', v)); rewrite I; apply in_app_iff in Ie; rewrite !in_app_iff; cbn; tauto).
        apply Sy in Se; auto. apply Q in Se; auto. apply in_app_iff in Ie as [Ie|Ie]; [apply G in Ie|apply L in Ie]; cbn in Ie; congruence.
      + intros w. split; auto. unfold ascends. rewrite map_app. cbn [map fst]. apply ss_app. split; auto. split.
        * constructor; auto. apply Forall_forall. intros a Ia. apply in_map_iff in Ia as (e & <- & Ie). auto.
        * intros a b Ia [<-|Ib]; [|apply S3; auto]. apply in_map_iff in Ia as (e & <- & Ie). apply cmp_gt; auto.
    - assert (V0 : valid k0) by (apply (Va (k0, v)); rewrite I; rewrite !in_app_iff; cbn; auto).
      split; auto. split; auto. split; [apply Sy; auto; now apply Q|]. split; auto. intros w. split; auto. unfold ascends in *. rewrite I in S. rewrite !map_app in *. exact S. }
  destruct c as [k w|k|k|]; cbn [bt_call bt_insert bt_remove fst snd right_answer valid_key] in *.
  - destruct (Ca k Vc) as (l1 & m & l2 & I & _ & _ & [(-> & -> & N & Pu)|(k0 & v & -> & V0 & S0 & -> & Pu)]); destruct (Pu w) as [P1 P2]; unfold bt_inv; rewrite Sh, P1.
    + rewrite I in R. cbn [app] in R. split; [now apply (right_missing valid same past (l1 ++ l2))|]. split; auto.
      apply (right_perm valid same _ ((k, w) :: l1 ++ l2)); auto; [apply Permutation_middle|]. now apply right_added.
    + rewrite I in R. cbn [app] in R. apply (right_perm valid same _ _ ((k0, v) :: l1 ++ l2)) in R; auto; [|symmetry; apply Permutation_middle].
      split; [now apply (right_found valid same past (l1 ++ l2) k k0)|]. split; auto.
      apply (right_perm valid same _ ((k0, w) :: l1 ++ l2)); auto; [apply Permutation_middle|]. now apply (right_replaced valid same past (l1 ++ l2) k k0 v w).
  - destruct (Ca k Vc) as (l1 & m & l2 & I & Dr & A & [(-> & -> & N & _)|(k0 & v & -> & V0 & S0 & -> & _)]); unfold bt_inv; rewrite Sh, Dr.
    + rewrite I in R. cbn [app] in R. split; [now apply (right_missing valid same past (l1 ++ l2))|]. split; auto. now apply right_not_there.
    + rewrite I in R. cbn [app] in R. apply (right_perm valid same _ _ ((k0, v) :: l1 ++ l2)) in R; auto; [|symmetry; apply Permutation_middle].
      split; [now apply (right_found valid same past (l1 ++ l2) k k0)|]. split; auto. now apply (right_removed valid same past (l1 ++ l2) k k0 v).
  - split; [|split; auto; apply right_unchanged; auto; intros; exact (fun x => x)].
    destruct (Ca k Vc) as (l1 & m & l2 & I & Dr & A & [(-> & -> & N & _)|(k0 & v & -> & V0 & S0 & -> & _)]); rewrite I in R; cbn [app] in R.
    + now apply (right_missing valid same past (l1 ++ l2)).
    + apply (right_perm valid same _ _ ((k0, v) :: l1 ++ l2)) in R; auto; [|symmetry; apply Permutation_middle]. now apply (right_found valid same past (l1 ++ l2) k k0).
  - split; [split; [now apply right_keys|exact S]|]. split; auto. apply right_unchanged; auto; intros; exact (fun x => x).
Qed.
Lemma tree_keys {K} (valid : K -> Prop) same cmp : total_order cmp -> (forall a b, valid a -> valid b -> (cmp a b = Eq <-> same a b)) -> tree_key valid same cmp.
Proof.
  intros T Q V shape cs Sh F. unfold tree_session.
  apply (session_right valid same _ (bt_call cmp shape) (bt_inv valid same cmp) (fun past t c I Vc => bt_step valid same cmp shape past t c T Q Sh I Vc) cs Tip []); auto.
  split; [constructor|]. split; [constructor|]. split; [constructor|]. intros k v Vk. split; [intros (k' & [] & _)|intros Hd; destruct (held_nil _ _ _ Hd)].
Qed.

(** ** The types of the crate *)
(** C87: values of every type but positions and games are good keys of a [HashMap], whatever its hasher and the number of its buckets: after any calls [get], [insert] and [remove] answer with what was inserted last under this very value, and [keys] lists each key that has a value once. *)
Lemma c87_hash_values_pf :
  good_hash_key any color_eqb color_hash /\ good_hash_key any pk_eqb pk_hash /\ good_hash_key any gr_eqb gr_hash /\
  good_hash_key any imk_eqb imk_hash /\ good_hash_key any ps_eqb ps_hash /\ good_hash_key any sq_eqb sq_hash /\ good_hash_key any os_eqb os_hash /\
  good_hash_key any piece_eqb piece_hash /\ good_hash_key any op_eqb op_hash /\ good_hash_key any cm_eqb cm_hash /\ good_hash_key any ocm_eqb ocm_hash /\
  good_hash_key any ogr_eqb ogr_hash /\ good_hash_key any rui_eqb rui_hash /\ good_hash_key valid_hand hand_eqb hand_hash /\
  good_hash_key any bb_eqb bb_hash /\ good_hash_key any bs_eqb bs_hash /\ good_hash_key any move_eqb move_hash.
Proof.
  pose proof c42_values_pf as H. do 16 destruct H as [[_ ?] H]. destruct H as [_ ?].
  repeat (split; [apply hash_keys; assumption|]). apply hash_keys; assumption.
Qed.
Lemma positions_identity P :
  is_equality (reachable P) pp_eqb /\
  is_equality (fun p => reachable P (initial_position p) /\ reachable P (inner p)) pos_eqb /\
  is_equality (fun g => reachable P (game_position g)) (game_eqb pp_eqb) /\
  is_equality (fun g => reachable P (initial_position (game_position g)) /\ reachable P (inner (game_position g))) (game_eqb pos_eqb).
Proof.
  assert (G : is_equality (reachable P) pp_eqb) by (intros s t R R'; apply (c42_positions_partial_pf P s t R R')).
  assert (G2 : is_equality (fun p => reachable P (initial_position p) /\ reachable P (inner p)) pos_eqb).
  { intros [i n m] [i' n' m'] [H1 H2] [H3 H4]. unfold pos_eqb. cbn [pos_initial pos_inner pos_moves initial_position inner] in *.
    rewrite !andb_true_iff, (G _ _ H1 H3), (G _ _ H2 H4), (list_eqb_eq move_eqb (fun _ => True)); try (apply Forall_forall; tauto); [|intros; apply move_eqb_eq].
    split; [intros [[-> ->] ->]; reflexivity|intros [= -> -> ->]; auto]. }
  split; [exact G|]. split; [exact G2|].
  split; intros [g [r]] [h [r']] R R'; unfold game_eqb, ogr_eqb; cbn [g_inner g_resolution game_position ogr_repr] in *; rewrite andb_true_iff, N.eqb_eq;
    [rewrite (G _ _ R R')|rewrite (G2 _ _ R R')]; (split; [intros [-> ->]; reflexivity|intros [= -> ->]; auto]).
Qed.
(** C87: so are positions and games with any history. *)
Lemma c87_hash_positions_pf : forall P,
  good_hash_key (reachable P) pp_eqb pp_hash /\
  good_hash_key (fun p => reachable P (initial_position p) /\ reachable P (inner p)) pos_eqb pos_hash /\
  good_hash_key (fun g => reachable P (game_position g)) (game_eqb pp_eqb) (game_hash pp_hash) /\
  good_hash_key (fun g => reachable P (initial_position (game_position g)) /\ reachable P (inner (game_position g))) (game_eqb pos_eqb) (game_hash pos_hash).
Proof. intros P. destruct (positions_identity P) as (A & B & C & D). split; [|split; [|split]]; now apply hash_keys. Qed.
Lemma tree_identity {K} (valid : K -> Prop) cmp pcmp eqb : lawful_ord cmp pcmp -> ord_agrees valid cmp eqb -> is_equality valid eqb -> good_tree_key valid cmp.
Proof. intros [T _] O Q. apply tree_keys; auto. intros a b Va Vb. rewrite (O a b Va Vb). now apply Q. Qed.
(** C87: the same for a [BTreeMap] of any shape, and [keys] lists the keys in the order of [cmp]. *)
Lemma c87_tree_values_pf :
  good_tree_key any color_cmp /\ good_tree_key any pk_cmp /\ good_tree_key any gr_cmp /\ good_tree_key any imk_cmp /\ good_tree_key any ps_cmp /\
  good_tree_key any sq_cmp /\ good_tree_key any os_cmp /\ good_tree_key any piece_cmp /\ good_tree_key any op_cmp /\ good_tree_key any cm_cmp /\
  good_tree_key any ocm_cmp /\ good_tree_key any ogr_cmp /\ good_tree_key any rui_cmp /\ good_tree_key valid_hand hand_cmp /\
  good_tree_key any bb_cmp /\ good_tree_key any bs_cmp /\ good_tree_key any move_cmp.
Proof.
  pose proof c42_values_pf as H. do 16 destruct H as [[? ?] H]. destruct H as [? ?].
  pose proof c41_values_pf as L. do 16 destruct L as [? L].
  repeat (split; [eapply tree_identity; eassumption|]). eapply tree_identity; eassumption.
Qed.
(** C87: positions and games reached by play from the starting position are good keys of a [BTreeMap]. *)
Lemma c87_tree_played_pf : forall P,
  good_tree_key (played P) pp_cmp /\
  good_tree_key (fun p => played P (initial_position p) /\ played P (inner p)) pos_cmp /\
  good_tree_key (fun g => played P (game_position g)) (game_cmp pp_cmp) /\
  good_tree_key (fun g => played P (initial_position (game_position g)) /\ played P (inner (game_position g))) (game_cmp pos_cmp).
Proof.
  intros P. destruct (positions_identity P) as (A & B & C & D). destruct (c42_in_play_partial_pf P) as (A' & B' & C' & D'). destruct c41_positions_pf as (A2 & B2 & C2 & D2).
  assert (R : forall s, played P s -> reachable P s) by (intros; now apply played_reachable).
  split; [eapply tree_identity; try eassumption; intros a b Va Vb; apply A; auto|].
  split; [eapply tree_identity; try eassumption; intros a b [] []; apply B; auto|].
  split; [eapply tree_identity; try eassumption; intros a b Va Vb; apply C; auto|].
  eapply tree_identity; try eassumption; intros a b [] []; apply D; auto.
Qed.
Lemma alike_cmp P s t : reachable P s -> reachable P t -> (pp_cmp s t = Eq <-> alike P s t).
Proof.
  intros R R'. pose proof (c54_positions_pf P) as (O & _). pose proof (c55_positions_pf P) as (Ht & _).
  assert (G : forall a b, sees P s a -> sees P t b -> (pp_cmp s t = Eq <-> pp_hash s = pp_hash t)).
  { intros a b Sa Sb. destruct (O (s, a) (t, b)) as (_ & _ & E); [split; auto..|]. destruct (Ht (s, a) (t, b)) as [H1 H2]; [split; auto..|].
    unfold on_fst in E. cbn [fst] in *. rewrite E. split; [exact H2|]. intros Q. apply (H1 [] []). now rewrite Q. }
  assert (Sa : sees P s (abs s)) by (apply sees_abs; now apply (reachable_wf P)). assert (Sb : sees P t (abs t)) by (apply sees_abs; now apply (reachable_wf P)).
  split.
  - intros E. exists (abs s), (abs t). split; auto. split; auto. apply (c55_same_pf P s t _ _ R R' Sa Sb). now apply (G _ _ Sa Sb).
  - intros (a & b & Sa' & Sb' & X). apply (G a b Sa' Sb'). now apply (c55_same_pf P s t a b R R' Sa' Sb').
Qed.
(** C87: with any history, a [BTreeMap] takes positions for one another exactly if they show the same but for the king positions. *)
Lemma c87_tree_positions_pf : forall P, tree_key (reachable P) (alike P) pp_cmp.
Proof. intros P. apply tree_keys; [apply c41_positions_pf|]. intros. now apply alike_cmp. Qed.

Lemma not_tree_key {K} (valid : K -> Prop) cmp s t : valid s -> valid t -> s <> t -> cmp t s = Eq -> ~ good_tree_key valid cmp.
Proof.
  intros Vs Vt N E G. destruct (G unit (fun t => t) [MInsert s tt; MGet t]) as [_ R]; [intros x; reflexivity|repeat constructor; auto|].
  specialize (R [MInsert s tt] (MGet t) [] (AValue (Some tt)) eq_refl). cbn in R. rewrite E in R.
  destruct (proj1 (R eq_refl tt) eq_refl) as (b & k & a & Eq & Sk & _). subst k. destruct b as [|x [|? ?]]; cbn in Eq; [injection Eq as -> _; now apply N|injection Eq as _ Eq; destruct a; discriminate|discriminate].
Qed.
(** C87 (full statement refuted): positions and games with any history are not good keys of a [BTreeMap]. *)
Lemma c87_tree_positions_refuted_pf : forall P,
  ~ good_tree_key (reachable P) pp_cmp /\
  ~ good_tree_key (fun p => reachable P (initial_position p) /\ reachable P (inner p)) pos_cmp /\
  ~ good_tree_key (fun g => reachable P (game_position g)) (game_cmp pp_cmp) /\
  ~ good_tree_key (fun g => reachable P (initial_position (game_position g)) /\ reachable P (inner (game_position g))) (game_cmp pos_cmp).
Proof.
  intros P. destruct (c42_positions_refuted_pf P) as (s & t & R & R' & (A & A') & (B & B') & C & D).
  destruct c41_positions_pf as ([(_ & D1 & _) _] & [(_ & D2 & _) _] & [(_ & D3 & _) _] & [(_ & D4 & _) _]).
  assert (N : s <> t). { intros ->. destruct (c42_positions_partial_pf P t t R R') as [_ X]. rewrite (proj2 X eq_refl) in A'. discriminate. }
  split; [apply (not_tree_key _ _ s t); auto; now rewrite D1, A|].
  split; [apply (not_tree_key _ _ (arbitrary_position s) (arbitrary_position t)); cbn; auto; [intros [= X]; auto|now rewrite D2, B]|].
  split; [apply (not_tree_key _ _ (GameOf s (ogr_from None)) (GameOf t (ogr_from None))); cbn; auto; [intros [= X]; auto|now rewrite D3, (proj1 (C _))]|].
  apply (not_tree_key _ _ (GameOf (arbitrary_position s) (ogr_from None)) (GameOf (arbitrary_position t) (ogr_from None))); cbn; auto; [intros [= X]; auto|now rewrite D4, (proj1 (D _))].
Qed.

(** ** Counting *)
Lemma times_fun {A} (x : A) l n m : times x l n -> times x l m -> n = m.
Proof.
  intros T. revert m. induction T as [|l n T IH|y l n N T IH]; intros m T'.
  - now inversion T'.
  - inversion T' as [|? m' T2|? ? ? N T2]; subst; [f_equal; auto|now exfalso].
  - inversion T' as [|? m' T2|? ? ? N' T2]; subst; [now exfalso|auto].
Qed.
Lemma tally_get {K} (valid : K -> Prop) eqb hash H grow (ks : list K) : is_equality valid eqb -> Forall valid ks ->
  forall past bs k n, hm_inv valid hash H past bs -> valid k -> times k ks n ->
  let before := match hm_get K N eqb hash H k bs with Some m => m | None => 0 end in
  match hm_get K N eqb hash H k (hm_tally eqb hash H grow bs ks) with Some m => m = before + n /\ (hm_get K N eqb hash H k bs = None -> n <> 0) | None => hm_get K N eqb hash H k bs = None /\ n = 0 end.
Proof.
  intros Q F. induction F as [|x ks Vx F IH]; intros past bs k n I Vk T; cbn [hm_tally].
  - inversion T; subst. cbv zeta. destruct (hm_get K N eqb hash H k bs); [split; [lia|discriminate]|auto].
  - set (w := one_more (hm_get K N eqb hash H x bs)).
    destruct (hm_step valid eqb hash H grow past bs (MInsert x w) Q I Vx) as [_ I']. cbn [hm_call] in I'.
    destruct (hm_insert K N eqb hash H grow x w bs) as [bs' o] eqn:E. cbn [fst] in *.
    destruct (hm_step valid eqb hash H grow _ bs' (MGet k) Q I' Vk) as [Gk _]. cbn [hm_call snd right_answer] in Gk.
    destruct (hm_step valid eqb hash H grow _ bs (MGet k) Q I Vk) as [Gk0 _]. cbn [hm_call snd right_answer] in Gk0.
    assert (Nx : x = k -> hm_get K N eqb hash H k bs' = Some w) by (intros ->; apply Gk; now apply held_insert).
    assert (No : x <> k -> hm_get K N eqb hash H k bs' = hm_get K N eqb hash H k bs).
    { intros Ne. destruct (hm_get K N eqb hash H k bs) as [m|].
      - apply Gk. apply held_untouched; [exact Ne|]. now apply Gk0.
      - destruct (hm_get K N eqb hash H k bs') as [m|]; auto. exfalso. assert (None = Some m); [|discriminate]. apply Gk0. apply (held_untouched eq past (MInsert x w)); [exact Ne|]. now apply Gk. }
    inversion T as [|l n' T'|y l n' Ny T']; subst.
    + specialize (IH _ bs' x n' I' Vk T'). cbv zeta in *. rewrite (Nx eq_refl) in IH. destruct (hm_get K N eqb hash H x (hm_tally eqb hash H grow bs' ks)) as [m|]; [|destruct IH; discriminate].
      destruct IH as [-> _]. unfold w, one_more. destruct (hm_get K N eqb hash H x bs); split; [lia|discriminate|lia|lia].
    + specialize (IH _ bs' k n I' Vk T'). cbv zeta in *. now rewrite (No Ny) in IH.
Qed.
Lemma hm_inv_new {K V} (valid : K -> Prop) hash H : hm_inv (V := V) valid hash H [] hm_new.
Proof. split; [intros [|i] e []|]. split; [constructor|]. split; [constructor|]. intros k v Vk. split; [intros (k' & [] & _)|intros Hd; destruct (held_nil _ _ _ Hd)]. Qed.
Lemma hm_get_new {K V} eqb hash H k : hm_get K V eqb hash H k hm_new = None.
Proof. unfold hm_get, hm_new. now destruct (bucket_of K hash H (length []) k). Qed.
(** C87: counting with a [HashMap], as in [*map.entry(k).or_insert(0) += 1], counts how often each key came, for every type whose [==] is identity. *)
Lemma c87_tally_pf : forall K (valid : K -> Prop) eqb hash H grow ks k n, is_equality valid eqb -> Forall valid ks -> valid k -> times k ks n ->
  hm_get K N eqb hash H k (hm_tally eqb hash H grow hm_new ks) = if n =? 0 then None else Some n.
Proof.
  intros K valid eqb hash H grow ks k n Q F Vk T. pose proof (tally_get valid eqb hash H grow ks Q F [] hm_new k n (hm_inv_new valid hash H) Vk T) as G. cbv zeta in G. rewrite hm_get_new in G.
  destruct (N.eqb_spec n 0) as [->|Nz]; destruct (hm_get K N eqb hash H k (hm_tally eqb hash H grow hm_new ks)) as [m|]; auto.
  - destruct G as [_ G]. now destruct (G eq_refl).
  - destruct G as [-> _]. reflexivity.
  - destruct G as [_ ->]. now destruct Nz.
Qed.

(** ** Repetitions *)
Lemma times_absent {A} (x : A) l : ~ In x l -> times x l 0.
Proof. induction l as [|y l IH]; intros N; [constructor|]. constructor; [intros ->; apply N; now left|apply IH; intros I; apply N; now right]. Qed.
Lemma times_once {A} (x : A) l : NoDup l -> In x l -> times x l 1.
Proof.
  intros D I. induction D as [|y l N D IH]; [destruct I|]. destruct I as [->|I]; [apply (times_same x l 0); now apply times_absent|].
  constructor; auto. intros ->. auto.
Qed.
Lemma line_later P s ms ss : line P s ms ss -> exists rest, ss = s :: rest /\
  forall x, In x rest -> exists ms', ms' <> [] /\ (length ms' <= length ms)%nat /\ Forall valid_move ms' /\ run_ops P s (map OpMove ms') = Ret (x, repeat true (length ms')).
Proof.
  induction 1 as [s|s m s' ms ss Vm E L (rest & -> & IH)]; [exists []; split; [reflexivity|intros x []]|].
  exists (s' :: rest). split; auto. intros x [<-|I].
  - exists [m]. split; [discriminate|]. split; [cbn; lia|]. split; [auto|]. cbn [map run_ops run_op length repeat]. now rewrite E.
  - destruct (IH x I) as (ms' & _ & L' & V' & R'). exists (m :: ms'). split; [discriminate|]. split; [cbn; lia|]. split; [auto|]. cbn [map run_ops run_op length repeat]. rewrite E. cbn [bind is_some]. now rewrite R'.
Qed.
Lemma line_reachable P s ms ss : line P s ms ss -> reachable P s -> Forall (reachable P) ss.
Proof.
  induction 1 as [s|s m s' ms ss Vm E L IH]; intros R; constructor; auto. apply IH. apply (reachable_step P s (OpMove m) s' true); auto. cbn [map run_ops run_op length repeat]. now rewrite E.
Qed.
Lemma line_nodup P s ms ss : line P s ms ss -> reachable P s -> N.of_nat (length ms) < 65536 -> NoDup ss.
Proof.
  intros L. induction L as [s|s m s' ms ss Vm E L IH]; intros R Le; [repeat constructor; intros []|].
  destruct (line_later P s (m :: ms) (s :: ss) (line_move P s m s' ms ss Vm E L)) as (rest & Eq & Q). injection Eq as <-.
  constructor; [|apply IH; [|cbn in Le; lia]; apply (reachable_step P s (OpMove m) s' true); auto; cbn [run_op]; now rewrite E].
  intros I. destruct (Q s I) as (ms' & N & L' & V' & R'). destruct (c74_equality_pf P s ms' s R V' R' N) as [F _]; [lia|].
  destruct (c42_positions_partial_pf P s s R R) as [_ X]. rewrite (proj2 X eq_refl) in F. discriminate.
Qed.
(** C87: a [HashMap] of positions does not find repetitions: in a game of fewer than 65536 moves every position is counted once. *)
Lemma c87_positions_once_pf : forall P H grow s ms ss x, reachable P s -> line P s ms ss -> N.of_nat (length ms) < 65536 -> In x ss ->
  hm_get partial_position N pp_eqb pp_hash H x (hm_tally pp_eqb pp_hash H grow hm_new ss) = Some 1.
Proof.
  intros P H grow s ms ss x R L Le I. pose proof (line_reachable P s ms ss L R) as F. rewrite Forall_forall in F.
  apply (c87_tally_pf partial_position (reachable P) pp_eqb pp_hash H grow ss x 1); auto; [apply (positions_identity P)|now apply Forall_forall|].
  apply times_once; auto. now apply (line_nodup P s ms).
Qed.
(** C87: a [HashMap] of the SFEN texts with the number of the move set to one counts for any list of positions, those of a game for example, how often the same board, hands and side to move came. *)
Lemma c87_texts_pf : forall P hash H grow ss bs ts s a t,
  Forall2 (fun s a => reachable P s /\ sees P s a) ss bs -> Forall2 (fun s t => setting_text P s = Ret t) ss ts ->
  reachable P s -> sees P s a -> setting_text P s = Ret t ->
  let n := N.of_nat (length (filter (same_setting a) bs)) in
  hm_get (list N) N (list_eqb N.eqb) hash H t (hm_tally (list_eqb N.eqb) hash H grow hm_new ts) = if n =? 0 then None else Some n.
Proof.
  intros P hash H grow ss bs ts s a t F1 F2 R S T n. apply (c87_tally_pf (list N) any); try exact I; [|apply Forall_forall; intros; exact I|].
  - intros x y _ _. apply (list_eqb_eq N.eqb (fun _ => True)); try (apply Forall_forall; tauto). intros; apply N.eqb_eq.
  - unfold n. clear n. revert ts F2. induction F1 as [|s1 b1 ss bs [R1 S1] F1 IH]; intros ts F2; inversion F2 as [|? t1 ? ts' T1 F2']; subst; [constructor|].
    destruct (c74_text_pf P s s1 a b1 R R1 S S1) as (x & y & X & Y & Q). rewrite T in X. rewrite T1 in Y. injection X as <-. injection Y as <-.
    cbn [filter]. destruct (same_setting a b1).
    + destruct (proj2 Q eq_refl). cbn [length]. rewrite Nat2N.inj_succ, <- N.add_1_r. constructor. now apply IH.
    + constructor; [intros <-; now destruct Q as [Q _]; discriminate (Q eq_refl)|now apply IH].
Qed.
