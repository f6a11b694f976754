(*PROPHEAD
Property theorems C86: the crates as packages
Open Scope string_scope.
*)
(** Proofs of the property theorems on the crates as packages (restated in Prop_Package.v). *)
From Verif Require Export SpecPackage.
Open Scope string_scope.

Lemma ty_dec (a b : ty) : {a = b} + {a <> b}. Proof. decide equality. Defined.
Lemma item_dec (a b : item) : {a = b} + {a <> b}.
Proof. decide equality; try apply string_dec; try apply ty_dec; decide equality. Defined.
Definition availableb (F : selection) (i : item) : bool := existsb (fun e => if item_dec (e_item e) i then true else false) (compiled F).
Lemma availableb_ok F i : availableb F i = true <-> available F i.
Proof.
  unfold availableb, available. rewrite existsb_exists. split; intros (e & I & H); exists e; split; auto.
  - destruct item_dec; [assumption|discriminate].
  - destruct item_dec; [reflexivity|contradiction].
Qed.
Lemma found i l : existsb (fun j => if item_dec j i then true else false) l = true -> In i l.
Proof. intros H. apply existsb_exists in H. destruct H as (j & I & H). destruct item_dec as [<-|]; [exact I|discriminate]. Qed.
Definition all_selections : list selection :=
  flat_map (fun a => flat_map (fun b => flat_map (fun c => flat_map (fun d => map (Selection a b c d) [true; false])
    [true; false]) [true; false]) [true; false]) [true; false].
Lemma all_selections_ok F : In F all_selections.
Proof. destruct F as [[|] [|] [|] [|] [|]]; vm_compute; tauto. Qed.
Lemma sweep (p : selection -> bool) : forallb p all_selections = true -> forall F, p F = true.
Proof. intros H F. rewrite forallb_forall in H. exact (H F (all_selections_ok F)). Qed.

Definition closedb (F : selection) : bool := forallb (fun e => forallb (availableb F) (e_uses e)) (compiled F).
Definition onceb (F : selection) : bool :=
  if list_eq_dec item_dec (nodup item_dec (map e_item (compiled F))) (map e_item (compiled F)) then true else false.
Lemma forallb2 {A B : Type} (g : A -> list B) (p : B -> bool) (l : list A) :
  forallb (fun e => forallb p (g e)) l = true -> forall e u, In e l -> In u (g e) -> p u = true.
Proof. intros H e u I J. rewrite forallb_forall in H. pose proof (H e I) as K. rewrite forallb_forall in K. exact (K u J). Qed.
Lemma closed_ok F : closedb F = true -> forall e u, In e (compiled F) -> In u (e_uses e) -> available F u.
Proof. intros H e u I J. apply availableb_ok. exact (forallb2 e_uses (availableb F) (compiled F) H e u I J). Qed.
Lemma nodup_same {A : Type} (d : forall a b : A, {a = b} + {a <> b}) (l : list A) :
  (if list_eq_dec d (nodup d l) l then true else false) = true -> NoDup l.
Proof. destruct list_eq_dec as [E|]; [|discriminate]. intros _. rewrite <- E. apply NoDup_nodup. Qed.
Lemma once_ok F : onceb F = true -> NoDup (map e_item (compiled F)).
Proof. exact (nodup_same item_dec (map e_item (compiled F))). Qed.
Lemma closed_all F : closedb F = true.
Proof. revert F. apply (sweep closedb). vm_compute. reflexivity. Qed.
Lemma once_all F : onceb F = true.
Proof. revert F. apply (sweep onceb). vm_compute. reflexivity. Qed.

(** C86: with every choice of features, what is there refers only to what is there, and nothing is there twice. *)
Lemma c86_whole_pf : forall F,
  (forall e u, In e (compiled F) -> In u (e_uses e) -> available F u) /\ NoDup (map e_item (compiled F)).
Proof. intros F. split; [exact (closed_ok F (closed_all F))|exact (once_ok F (once_all F))]. Qed.

Lemma resolve_more F F' f : more F F' -> is_on (resolve F) f = true -> is_on (resolve F') f = true.
Proof.
  intros M H. destruct f; cbn in *; try (apply (M FExperimental) || apply (M FHash) || apply (M FOrd) || apply (M FStd); assumption).
  apply orb_true_iff in H. apply orb_true_iff. destruct H; [left; apply (M FAlloc)|right; apply (M FStd)]; assumption.
Qed.
Lemma holds_more F F' c : more F F' -> cfg_holds (resolve F) c = true -> cfg_holds (resolve F') c = true.
Proof.
  intros M. induction c as [|f|c IHc d IHd]; cbn [cfg_holds]; auto.
  - apply resolve_more, M.
  - intros H. apply andb_true_iff in H. destruct H. rewrite IHc, IHd by assumption. reflexivity.
Qed.
Lemma filter_more {A : Type} (p q : A -> bool) (l : list A) x : (p x = true -> q x = true) -> In x (filter p l) -> In x (filter q l).
Proof. intros H I. apply filter_In in I. destruct I as [I K]. apply filter_In. split; [exact I|exact (H K)]. Qed.
Lemma available_more F F' i : more F F' -> available F i -> available F' i.
Proof.
  unfold available, compiled. generalize entries. intros l M (e & I & E). exists e. split; [|exact E].
  exact (filter_more _ _ l e (holds_more F F' (e_cfg e) M) I).
Qed.
Lemma method_more F F' tr m : more F F' -> In m (trait_methods F tr) -> In m (trait_methods F' tr).
Proof.
  unfold trait_methods. generalize methods. intros l M I. refine (filter_more _ _ l m _ I). intros H. apply andb_true_iff in H. destruct H as [H1 H2].
  apply andb_true_iff. split; [exact H1|exact (holds_more F F' (m_cfg m) M H2)].
Qed.
Lemma always_required : forallb (fun m => String.eqb (m_trait m) "LegalityChecker" || negb (m_required m) || match m_cfg m with Always => true | _ => false end)
  methods = true.
Proof. vm_compute. reflexivity. Qed.
Lemma required_less F F' tr m : tr <> "LegalityChecker" -> m_required m = true -> In m (trait_methods F' tr) -> In m (trait_methods F tr).
Proof.
  pose proof always_required as W. revert W. unfold trait_methods. generalize methods. intros l W N Q I.
  pose proof (proj1 (proj1 (filter_In _ _ _) I)) as Im. pose proof (proj1 (forallb_forall _ _) W m Im) as A.
  cbv beta in A. refine (filter_more _ _ l m _ I). intros H. apply andb_true_iff in H. destruct H as [H1 _]. apply andb_true_iff. split; [exact H1|].
  apply String.eqb_eq in H1. destruct (String.eqb (m_trait m) "LegalityChecker") eqn:E.
  - apply String.eqb_eq in E. exfalso. apply N. congruence.
  - rewrite Q in A. cbn [negb orb] in A. destruct (m_cfg m); [reflexivity|discriminate|discriminate].
Qed.

(** C86: asking for more features takes nothing away, and breaks no program that does not implement [LegalityChecker]. *)
Lemma c86_more_features_pf : forall F F', more F F' ->
  (forall i, available F i -> available F' i) /\
  (forall c, (forall tr given, In (tr, given) (c_impls c) -> tr <> "LegalityChecker") -> compiles F c -> compiles F' c).
Proof.
  intros F F' M. split; [intros i; apply available_more, M|].
  intros c N [U I]. split; [intros i J; exact (available_more _ _ _ M (U i J))|].
  intros tr given J. destruct (I tr given J) as [G R]. split.
  - intros n K. destruct (G n K) as (m & Im & E). exists m. split; [exact (method_more _ _ _ _ M Im)|exact E].
  - intros m Im Q. exact (R m (required_less F F' tr m (N tr given J) Q Im) Q).
Qed.

Definition checker_methods (a : bool) : list method :=
  filter (fun m => String.eqb (m_trait m) "LegalityChecker" && (a || match m_cfg m with Always => true | _ => false end)) methods.
Lemma checker_methods_ok F : trait_methods F "LegalityChecker" = checker_methods (s_alloc F || s_std F).
Proof. destruct F as [[|] [|] [|] [|] [|]]; vm_compute; reflexivity. Qed.
Lemma impl_ok (ms : list method) (given l r : list string) :
  (forall n, In n (map m_name ms) <-> In n l) -> (forall n, In n (map m_name (filter m_required ms)) <-> In n r) ->
  ((forall n, In n given -> exists m, In m ms /\ m_name m = n) /\ (forall m, In m ms -> m_required m = true -> In (m_name m) given) <->
   incl r given /\ incl given l).
Proof.
  intros L R. split.
  - intros [G H]. split.
    + intros n I. apply R in I. apply in_map_iff in I. destruct I as (m & <- & I). apply filter_In in I. destruct I as [I Q]. exact (H m I Q).
    + intros n I. apply L. destruct (G n I) as (m & Im & <-). apply in_map. exact Im.
  - intros [H G]. split.
    + intros n I. apply G, L, in_map_iff in I. destruct I as (m & E & I). exists m. split; assumption.
    + intros m I Q. apply H, R, in_map, filter_In. split; assumption.
Qed.
Lemma names_with n : In n (map m_name (checker_methods true)) <-> In n (on_partial_positions ++ needed_with_alloc ++ provided_with_alloc).
Proof. vm_compute. tauto. Qed.
Lemma required_with n : In n (map m_name (filter m_required (checker_methods true))) <-> In n (on_partial_positions ++ needed_with_alloc).
Proof. vm_compute. tauto. Qed.
Lemma names_without n : In n (map m_name (checker_methods false)) <-> In n on_partial_positions.
Proof. vm_compute. tauto. Qed.
Lemma required_without n : In n (map m_name (filter m_required (checker_methods false))) <-> In n on_partial_positions.
Proof. vm_compute. tauto. Qed.

(** C86: what an [impl] of [LegalityChecker] has to consist of, with [alloc] and without it. *)
Lemma c86_checker_pf : forall F given,
  (with_alloc F -> (implements F "LegalityChecker" given <->
     incl (on_partial_positions ++ needed_with_alloc) given /\
     incl given (on_partial_positions ++ needed_with_alloc ++ provided_with_alloc))) /\
  (~ with_alloc F -> (implements F "LegalityChecker" given <->
     incl on_partial_positions given /\ incl given on_partial_positions)).
Proof.
  intros F given. unfold implements. rewrite checker_methods_ok. split; intros W.
  - rewrite (proj2 (orb_true_iff (s_alloc F) (s_std F)) W). exact (impl_ok _ given _ _ names_with required_with).
  - destruct (s_alloc F || s_std F)%bool eqn:E; [exfalso; apply W; exact (proj1 (orb_true_iff _ _) E)|].
    exact (impl_ok _ given _ _ names_without required_without).
Qed.

(** C86: so no program with an [impl] of [LegalityChecker] compiles both with [alloc] and without it. *)
Lemma c86_checker_breaks_pf : forall F F' c given, with_alloc F -> ~ with_alloc F' -> In ("LegalityChecker", given) (c_impls c) ->
  ~ (compiles F c /\ compiles F' c).
Proof.
  intros F F' c given W W' I [[_ A] [_ B]].
  apply (proj1 (c86_checker_pf F given) W) in A; [|exact I]. apply (proj2 (c86_checker_pf F' given) W') in B; [|exact I].
  destruct A as [A _], B as [_ B].
  assert (J : In "status" on_partial_positions) by (apply B, A; cbn; tauto).
  cbn in J. repeat (destruct J as [J|J]; [discriminate J|]). exact J.
Qed.

(** C86: features are not additive: a program that compiles, and does not when one more feature is asked for. *)
Lemma c86_more_features_refuted_pf : exists F F' c, more F F' /\ compiles F c /\ ~ compiles F' c.
Proof.
  set (F := Selection false false false false false). set (F' := Selection true false false false false).
  set (c := Client [] [("LegalityChecker", on_partial_positions)]).
  assert (W : ~ with_alloc F) by (intros [H|H]; discriminate H).
  assert (C : compiles F c).
  { split; [intros i []|]. intros tr given [E|[]]. injection E as <- <-. apply (proj2 (c86_checker_pf F _) W). split; apply incl_refl. }
  exists F, F', c. split; [|split]; [| exact C |].
  - intros f H. destruct f; try discriminate H; reflexivity.
  - intros C'. apply (c86_checker_breaks_pf F' F c on_partial_positions); [left; reflexivity|exact W|left; reflexivity|split; assumption].
Qed.

Definition memb (l : list ty) (t : ty) : bool := if in_dec ty_dec t l then true else false.
Lemma memb_ok l t : memb l t = true <-> In t l.
Proof. unfold memb. destruct in_dec; split; intros; auto; try discriminate; contradiction. Qed.
Definition shouldb (F : selection) (tr : trait) (t : ty) : bool :=
  negb (memb [TOptionPieceKind] t) && (negb (memb [TPosition; TGame] t) || (s_alloc F || s_std F)) &&
  match tr with
  | TrEq | TrPartialEq | TrClone | TrDebug => true | TrCopy => negb (memb positions t) | TrDefault => memb with_default t
  | TrOrd | TrPartialOrd => s_ord F | TrHash => s_hash F
  end.
Lemma negb_memb l t : negb (memb l t) = true <-> ~ In t l.
Proof. rewrite negb_true_iff, <- memb_ok. destruct (memb l t); split; congruence. Qed.
Lemma shouldb_ok F tr t : shouldb F tr t = true <-> should_have F tr t.
Proof.
  unfold shouldb, should_have. rewrite !andb_true_iff, orb_true_iff, !negb_memb, orb_true_iff.
  assert (A : ~ In t [TOptionPieceKind] <-> t <> TOptionPieceKind) by (cbn; split; intros H K; apply H; [left; congruence|destruct K as [K|[]]; congruence]).
  assert (B : ~ In t [TPosition; TGame] \/ (s_alloc F = true \/ s_std F = true) <-> (on_heap t -> with_alloc F)).
  { unfold on_heap, with_alloc. split.
    - intros [H|H] K; [exfalso; apply H; cbn; destruct K; [left|right; left]; congruence|exact H].
    - intros H. destruct (in_dec ty_dec t [TPosition; TGame]) as [I|I]; [right|left; exact I]. apply H. cbn in I. destruct I as [I|[I|[]]]; [left|right]; congruence. }
  rewrite A, B. destruct tr; rewrite ?negb_memb, ?memb_ok; tauto.
Qed.

Definition all_traits : list trait := [TrEq; TrPartialEq; TrOrd; TrPartialOrd; TrClone; TrCopy; TrHash; TrDefault; TrDebug].
Definition traitsb (F : selection) : bool :=
  forallb (fun tr => forallb (fun t => Bool.eqb (availableb F (Impl tr t)) (shouldb F tr t)) all_types) all_traits.
Lemma traits_all F : traitsb F = true.
Proof. revert F. apply (sweep traitsb). vm_compute. reflexivity. Qed.
Lemma sweep2 {A B C : Type} (f g : A -> B -> C -> bool) (a : A) (l : list B) (m : list C) :
  forallb (fun x => forallb (fun y => Bool.eqb (f a x y) (g a x y)) m) l = true -> forall x y, In x l -> In y m -> f a x y = g a x y.
Proof. intros H x y I J. rewrite forallb_forall in H. pose proof (H x I) as K. rewrite forallb_forall in K. exact (eqb_prop _ _ (K y J)). Qed.
Lemma traits_same F tr t : availableb F (Impl tr t) = shouldb F tr t.
Proof.
  apply (sweep2 (fun F tr t => availableb F (Impl tr t)) shouldb F all_traits all_types (traits_all F)); [destruct tr|destruct t]; cbn; tauto.
Qed.

(** C86: which type implements which of the nine traits with which features. *)
Lemma c86_traits_pf : forall F tr t, available F (Impl tr t) <-> should_have F tr t.
Proof.
  intros F tr t. rewrite <- availableb_ok, <- shouldb_ok.
  rewrite (traits_same F tr t). tauto.
Qed.

Lemma name_dec (a b : string * string) : {a = b} + {a <> b}. Proof. decide equality; apply string_dec. Defined.
Definition named (l : list (string * string)) (x : string * string) : bool := if in_dec name_dec x l then true else false.
Definition should_beb (F : selection) (i : item) : bool :=
  match i with
  | AllocCrate => s_alloc F || s_std F
  | Type_ t => negb (memb [TPosition; TGame] t) || (s_alloc F || s_std F)
  | Impl tr t => shouldb F tr t
  | Fn o n => if named experimental_items (o, n) then s_experimental F else named always_methods (o, n) || (s_alloc F || s_std F)
  end.
Lemma should_beb_ok F i : should_beb F i = true <-> should_be F i.
Proof.
  destruct i as [|t|tr t|o n]; cbn [should_beb should_be].
  - unfold with_alloc. apply orb_true_iff.
  - rewrite orb_true_iff, negb_memb, orb_true_iff. unfold on_heap, with_alloc. split.
    + intros [H|H] K; [exfalso; apply H; cbn; destruct K; [left|right; left]; congruence|exact H].
    + intros H. destruct (in_dec ty_dec t [TPosition; TGame]) as [I|I]; [right|left; exact I]. apply H. cbn in I. destruct I as [I|[I|[]]]; [left|right]; congruence.
  - apply shouldb_ok.
  - unfold named, with_alloc. destruct (in_dec name_dec (o, n) experimental_items) as [I|I]; [tauto|].
    destruct (in_dec name_dec (o, n) always_methods) as [J|J]; cbn [orb]; [tauto|]. rewrite orb_true_iff. tauto.
Qed.
Definition itemsb (F : selection) : bool := forallb (fun i => Bool.eqb (availableb F i) (should_beb F i)) (map e_item entries).
Lemma items_all F : itemsb F = true.
Proof. revert F. apply (sweep itemsb). vm_compute. reflexivity. Qed.
Lemma sweep1 {A : Type} (f g : A -> bool) (l : list A) : forallb (fun i => Bool.eqb (f i) (g i)) l = true -> forall i, In i l -> f i = g i.
Proof. intros H i I. rewrite forallb_forall in H. exact (eqb_prop _ _ (H i I)). Qed.
Lemma items_same F i : In i (map e_item entries) -> availableb F i = should_beb F i.
Proof. exact (sweep1 (availableb F) (should_beb F) _ (items_all F) i). Qed.

(** C86: which item of the crate is compiled with which features. *)
Lemma c86_items_pf : forall F i, In i (map e_item entries) -> (available F i <-> should_be F i).
Proof. intros F i I. rewrite <- availableb_ok, <- should_beb_ok, (items_same F i I). tauto. Qed.

(** C86: README.md promises [Eq], [PartialEq], [Clone] and [Debug] for all types, and [Ord], [PartialOrd] and [Hash] for every exported
    type when their feature is on; with all features one exported type has none of them. *)
Lemma c86_every_type_refuted_pf : exists t, forall F, available F (Type_ t) /\ forall tr, ~ available F (Impl tr t).
Proof.
  exists TOptionPieceKind. intros F. split.
  - apply availableb_ok. revert F. apply sweep. vm_compute. reflexivity.
  - intros tr H. apply c86_traits_pf in H. destruct H as [H _]. apply H. reflexivity.
Qed.

(** C86: README.md says that of the types only bitboards and positions implement [Default]. *)
Lemma c86_default_refuted_pf : exists t, t <> TBitboard /\ t <> TByteSwappedBitboard /\ ~ In t positions /\
  forall F, available F (Impl TrDefault t).
Proof.
  exists THand. repeat split; try discriminate.
  - intros H. cbn in H. repeat (destruct H as [H|H]; [discriminate H|]). exact H.
  - intros F. apply c86_traits_pf. repeat split; try discriminate; [intros [H|H]; discriminate H|cbn; tauto].
Qed.

(** C86: README.md says that unsafe items have [_unchecked] in their names; of the seventeen unsafe items exactly these seven do not. *)
Lemma c86_unsafe_names_pf : NoDup unsafe_items /\ length unsafe_items = 17%nat /\
  forall x, In x unsafe_items /\ occurs "_unchecked" (snd x) = false <->
   In x [("Bitboard", "shift_down"); ("Bitboard", "shift_up"); ("Bitboard", "shift_left"); ("Bitboard", "shift_right");
         ("Position", "Position_destruct"); ("Position", "to_sfen_c"); ("PartialPosition", "to_sfen_c")].
Proof.
  split; [unfold unsafe_items; repeat (constructor; [cbn; intros I; repeat (destruct I as [I|I]; [discriminate I|]); exact I|]); constructor|].
  split; [reflexivity|]. intros x. split.
  - intros [I O]. cbn in I. repeat (destruct I as [<-|I]; [vm_compute in O; first [discriminate O|clear O; cbn; tauto]|]). destruct I.
  - intros I. cbn in I. repeat (destruct I as [<-|I]; [split; [cbn; tauto|vm_compute; reflexivity]|]). destruct I.
Qed.

Lemma tests_same F : forallb (availableb F) test_uses = (s_alloc F || s_std F)%bool.
Proof. apply eqb_prop. revert F. apply (sweep (fun F => Bool.eqb (forallb (availableb F) test_uses) (s_alloc F || s_std F))). vm_compute. reflexivity. Qed.

(** C86: the default features are [alloc] and [std]; without [alloc] the unit tests of the crate do not compile, with it they do. *)
Lemma c86_default_features_pf :
  (forall f, is_on (resolve default_features) f = true <-> f = FAlloc \/ f = FStd) /\
  (forall F, (forall u, In u test_uses -> available F u) <-> with_alloc F).
Proof.
  split.
  - intros f. destruct f; vm_compute; split; intros H; auto; try discriminate H; destruct H as [H|H]; discriminate H.
  - intros F. unfold with_alloc. rewrite <- orb_true_iff, <- (tests_same F), forallb_forall.
    split; intros K u I; [apply availableb_ok|apply availableb_ok]; exact (K u I).
Qed.

(** C86: the C library has [Position] exactly with [alloc] or [std]; it has one panic handler always, and one allocator whenever it has
    [Position]; its own are used exactly without [std], and a nightly compiler is needed exactly with its own allocator. *)
Lemma c86_c_library_pf : forall F,
  (available (c_core F) (Type_ TPosition) <-> c_alloc F = true \/ c_std F = true) /\
  (exists p, c_panic_handlers F = [p] /\ (p = Bundled <-> c_std F = false)) /\
  (available (c_core F) (Type_ TPosition) -> exists p, c_allocators F = [p] /\ (p = Bundled <-> c_std F = false)) /\
  (c_nightly F = true <-> In Bundled (c_allocators F)).
Proof.
  intros F. rewrite <- availableb_ok.
  destruct F as [[|] [|] [|]]; (split; [|split; [|split]]); vm_compute;
    try (split; intros H; repeat destruct H as [H|H]; auto; try discriminate H; fail);
    try (intros H; discriminate H);
    try (intros _; eexists; split; [reflexivity|split; intros H; reflexivity || discriminate H]);
    try (eexists; split; [reflexivity|split; intros H; reflexivity || discriminate H]);
    split; intros H; try discriminate H; try reflexivity; try (destruct H as [H|[]]; discriminate H); try tauto.
Qed.
