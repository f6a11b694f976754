(** Property theorems C86: the crates as packages *)
From Verif Require Import TPackage.
Open Scope string_scope.

(** C86: with every choice of features, what is there refers only to what is there, and nothing is there twice. *)
Theorem c86_whole : forall F,
  (forall e u, In e (compiled F) -> In u (e_uses e) -> available F u) /\ NoDup (map e_item (compiled F)).
Proof. exact c86_whole_pf. Qed.
Print Assumptions c86_whole.
Example c86_whole_ex :
  let F := Selection true false false false false in
  In (Impl TrDefault TPosition) (map e_item (compiled F)) /\ In (Impl TrDefault TPartialPosition) (map e_item (compiled F)) /\
  length (compiled F) = 182%nat /\ length (compiled (Selection false true true true true)) = 249%nat.
Proof. split; [apply found; vm_compute; reflexivity|]. split; [apply found; vm_compute; reflexivity|]. split; vm_compute; reflexivity. Qed.

(** C86: asking for more features takes nothing away, and breaks no program that does not implement [LegalityChecker]. *)
Theorem c86_more_features : forall F F', more F F' ->
  (forall i, available F i -> available F' i) /\
  (forall c, (forall tr given, In (tr, given) (c_impls c) -> tr <> "LegalityChecker") -> compiles F c -> compiles F' c).
Proof. exact c86_more_features_pf. Qed.
Print Assumptions c86_more_features.
Example c86_more_features_ex :
  let c := Client [Fn "PartialPosition" "to_sfen_owned"] [("ToUsi", ["to_usi"])] in
  more (Selection true false false false false) (Selection true false true false true) /\
  (forall tr given, In (tr, given) (c_impls c) -> tr <> "LegalityChecker").
Proof. split; [intros [| | | |] H; exact H || discriminate H || reflexivity|]. intros tr given [E|[]]. injection E as <- <-. discriminate. Qed.

(** C86: what an [impl] of [LegalityChecker] has to consist of, with [alloc] and without it. *)
Theorem c86_checker : forall F given,
  (with_alloc F -> (implements F "LegalityChecker" given <->
     incl (on_partial_positions ++ needed_with_alloc) given /\
     incl given (on_partial_positions ++ needed_with_alloc ++ provided_with_alloc))) /\
  (~ with_alloc F -> (implements F "LegalityChecker" given <->
     incl on_partial_positions given /\ incl given on_partial_positions)).
Proof. exact c86_checker_pf. Qed.
Print Assumptions c86_checker.
Example c86_checker_ex :
  let F := Selection false false false false true in let F' := Selection false true true true false in
  with_alloc F /\ ~ with_alloc F' /\
  incl ("make_move" :: on_partial_positions ++ needed_with_alloc) (on_partial_positions ++ needed_with_alloc ++ provided_with_alloc) /\
  ~ incl ["make_move"] on_partial_positions.
Proof.
  split; [right; reflexivity|split; [intros [H|H]; discriminate H|split]].
  - intros n H. cbn in H |- *. tauto.
  - intros H. specialize (H "make_move" (or_introl eq_refl)). cbn in H. repeat (destruct H as [H|H]; [discriminate H|]). exact H.
Qed.

(** C86: so no program with an [impl] of [LegalityChecker] compiles both with [alloc] and without it. *)
Theorem c86_checker_breaks : forall F F' c given, with_alloc F -> ~ with_alloc F' -> In ("LegalityChecker", given) (c_impls c) ->
  ~ (compiles F c /\ compiles F' c).
Proof. exact c86_checker_breaks_pf. Qed.
Print Assumptions c86_checker_breaks.
Example c86_checker_breaks_ex :
  let c := Client [Type_ TBitboard] [("LegalityChecker", on_partial_positions)] in
  with_alloc default_features /\ ~ with_alloc (Selection false false true true false) /\ In ("LegalityChecker", on_partial_positions) (c_impls c).
Proof. split; [right; reflexivity|split; [intros [H|H]; discriminate H|left; reflexivity]]. Qed.

(** C86: features are not additive: a program that compiles, and does not when one more feature is asked for. *)
Theorem c86_more_features_refuted : exists F F' c, more F F' /\ compiles F c /\ ~ compiles F' c.
Proof. exact c86_more_features_refuted_pf. Qed.
Print Assumptions c86_more_features_refuted.
Example c86_more_features_refuted_ex :
  map m_name (filter m_required (trait_methods (Selection false false false false false) "LegalityChecker")) = on_partial_positions /\
  In "status" (map m_name (filter m_required (trait_methods (Selection true false false false false) "LegalityChecker"))).
Proof. vm_compute. tauto. Qed.

(** C86: which type implements which of the nine traits with which features. *)
Theorem c86_traits : forall F tr t, available F (Impl tr t) <-> should_have F tr t.
Proof. exact c86_traits_pf. Qed.
Print Assumptions c86_traits.
Example c86_traits_ex :
  should_have default_features TrDefault TGame /\ ~ should_have (Selection false true true true false) TrClone TGame /\
  should_have (Selection false false true false false) TrHash TMove /\ ~ should_have default_features TrHash TMove /\
  ~ should_have default_features TrCopy TPartialPosition.
Proof.
  unfold should_have, on_heap, with_alloc. split; [|split; [|split; [|split]]].
  - split; [discriminate|split; [intros _; right; reflexivity|cbn; tauto]].
  - intros (_ & H & _). destruct (H (or_intror eq_refl)) as [K|K]; discriminate K.
  - split; [discriminate|split; [intros [H|H]; discriminate H|reflexivity]].
  - intros (_ & _ & H). discriminate H.
  - intros (_ & _ & H). apply H. left. reflexivity.
Qed.

(** C86: which item of the crate is compiled with which features. *)
Theorem c86_items : forall F i, In i (map e_item entries) -> (available F i <-> should_be F i).
Proof. exact c86_items_pf. Qed.
Print Assumptions c86_items.
Example c86_items_ex :
  In (Fn "Piece" "array_index") (map e_item entries) /\ should_be (Selection false true false false false) (Fn "Piece" "array_index") /\
  ~ should_be (Selection true false true true true) (Fn "Piece" "array_index") /\
  In (Fn "Position" "make_move") (map e_item entries) /\ should_be default_features (Fn "Position" "make_move").
Proof.
  split; [apply found; vm_compute; reflexivity|]. split; [|split; [|split; [apply found; vm_compute; reflexivity|]]].
  - split; [reflexivity|]. intros H. exfalso. apply H. cbn. tauto.
  - intros [H _]. assert (K : s_experimental (Selection true false true true true) = true) by (apply H; cbn; tauto). discriminate K.
  - split; [|intros _ _; right; reflexivity]. intros H. cbn in H. repeat (destruct H as [H|H]; [discriminate H|]). destruct H.
Qed.

(** C86: README.md promises [Eq], [PartialEq], [Clone] and [Debug] for all types, and [Ord], [PartialOrd] and [Hash] for every exported
    type when their feature is on; with all features one exported type has none of them. *)
Theorem c86_every_type_refuted : exists t, forall F, available F (Type_ t) /\ forall tr, ~ available F (Impl tr t).
Proof. exact c86_every_type_refuted_pf. Qed.
Print Assumptions c86_every_type_refuted.
Example c86_every_type_refuted_ex :
  let F := Selection true true true true true in
  In (Type_ TOptionPieceKind) (map e_item (compiled F)) /\ In (Impl TrEq TOptionPiece) (map e_item (compiled F)) /\
  In (Impl TrHash TOptionSquare) (map e_item (compiled F)).
Proof. repeat split; apply found; vm_compute; reflexivity. Qed.

(** C86: README.md says that of the types only bitboards and positions implement [Default]. *)
Theorem c86_default_refuted : exists t, t <> TBitboard /\ t <> TByteSwappedBitboard /\ ~ In t positions /\
  forall F, available F (Impl TrDefault t).
Proof. exact c86_default_refuted_pf. Qed.
Print Assumptions c86_default_refuted.
Example c86_default_refuted_ex :
  In (Impl TrDefault THand) (map e_item (compiled default_features)) /\
  In (Impl TrDefault TOptionCompactMove) (map e_item (compiled (Selection false false false false false))).
Proof. split; apply found; vm_compute; reflexivity. Qed.

(** C86: README.md says that unsafe items have [_unchecked] in their names; of the seventeen unsafe items exactly these seven do not. *)
Theorem c86_unsafe_names : NoDup unsafe_items /\ length unsafe_items = 17%nat /\
  forall x, In x unsafe_items /\ occurs "_unchecked" (snd x) = false <->
   In x [("Bitboard", "shift_down"); ("Bitboard", "shift_up"); ("Bitboard", "shift_left"); ("Bitboard", "shift_right");
         ("Position", "Position_destruct"); ("Position", "to_sfen_c"); ("PartialPosition", "to_sfen_c")].
Proof. exact c86_unsafe_names_pf. Qed.
Print Assumptions c86_unsafe_names.
Example c86_unsafe_names_ex :
  In ("Bitboard", "shift_right") unsafe_items /\ occurs "_unchecked" "shift_right" = false /\
  In ("Square", "Square_from_u8_unchecked") unsafe_items /\ occurs "_unchecked" "Square_from_u8_unchecked" = true.
Proof. vm_compute. tauto. Qed.

(** C86: the default features are [alloc] and [std]; without [alloc] the unit tests of the crate do not compile, with it they do. *)
Theorem c86_default_features :
  (forall f, is_on (resolve default_features) f = true <-> f = FAlloc \/ f = FStd) /\
  (forall F, (forall u, In u test_uses -> available F u) <-> with_alloc F).
Proof. exact c86_default_features_pf. Qed.
Print Assumptions c86_default_features.
Example c86_default_features_ex :
  resolve default_features = Selection true false false false true /\ ~ with_alloc (Selection false true true true false) /\
  with_alloc (Selection false false false false true).
Proof. split; [reflexivity|split; [intros [H|H]; discriminate H|right; reflexivity]]. Qed.

(** C86: the C library has [Position] exactly with [alloc] or [std]; it has one panic handler always, and one allocator whenever it has
    [Position]; its own are used exactly without [std], and a nightly compiler is needed exactly with its own allocator. *)
Theorem c86_c_library : forall F,
  (available (c_core F) (Type_ TPosition) <-> c_alloc F = true \/ c_std F = true) /\
  (exists p, c_panic_handlers F = [p] /\ (p = Bundled <-> c_std F = false)) /\
  (available (c_core F) (Type_ TPosition) -> exists p, c_allocators F = [p] /\ (p = Bundled <-> c_std F = false)) /\
  (c_nightly F = true <-> In Bundled (c_allocators F)).
Proof. exact c86_c_library_pf. Qed.
Print Assumptions c86_c_library.
Example c86_c_library_ex :
  c_allocators (CSelection true false false) = [Bundled] /\ c_nightly (CSelection true false false) = true /\
  c_allocators (CSelection true false true) = [FromStd] /\ c_panic_handlers (CSelection false true false) = [Bundled] /\
  c_allocators (CSelection false false false) = [].
Proof. vm_compute. tauto. Qed.
