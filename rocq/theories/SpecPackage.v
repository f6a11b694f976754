(** What it means for the crate, and for a program that uses it, to compile with some features. *)
From Verif Require Export MPackage.
Open Scope string_scope.

(** something is there *)
Definition available (F : selection) (i : item) : Prop := exists e, In e (compiled F) /\ e_item e = i.
(** [F'] asks for all that [F] asks for *)
Definition more (F F' : selection) : Prop := forall f, is_on F f = true -> is_on F' f = true.
(** [alloc] is asked for, or [std], which needs it *)
Definition with_alloc (F : selection) : Prop := s_alloc F = true \/ s_std F = true.

(** A program: what it refers to, and its [impl]s of traits of the crate with the methods written in them. *)
Record client := Client { c_uses : list item; c_impls : list (string * list string) }.
(** an [impl] has no method that the trait does not have, and all that the trait does not provide *)
Definition implements (F : selection) (tr : string) (given : list string) : Prop :=
  (forall n, In n given -> exists m, In m (trait_methods F tr) /\ m_name m = n) /\
  (forall m, In m (trait_methods F tr) -> m_required m = true -> In (m_name m) given).
Definition compiles (F : selection) (c : client) : Prop :=
  (forall i, In i (c_uses c) -> available F i) /\ (forall tr given, In (tr, given) (c_impls c) -> implements F tr given).

(** the methods of [LegalityChecker] by what they need *)
Definition on_partial_positions : list string :=
  ["status_partial"; "is_legal_partial"; "is_legal_partial_lite"; "normal_from_candidates"; "normal_to_candidates"; "drop_candidates"].
Definition needed_with_alloc : list string := ["status"; "all_legal_moves_partial"].
Definition provided_with_alloc : list string := ["is_legal"; "is_legal_lite"; "all_legal_moves"; "make_move"].

(** the types of which there is a copy on the heap, those that are positions or contain one, those with a default value *)
Definition on_heap (t : ty) : Prop := t = TPosition \/ t = TGame.
Definition positions : list ty := [TPartialPosition; TPosition; TPartialGame; TGame].
Definition with_default : list ty :=
  [TBitboard; TByteSwappedBitboard; THand; TOptionCompactMove; TOptionGameResolution; TResultUnitIllegalMoveKind] ++ positions.
(** which type has which trait *)
Definition should_have (F : selection) (tr : trait) (t : ty) : Prop :=
  t <> TOptionPieceKind /\ (on_heap t -> with_alloc F) /\
  match tr with
  | TrEq | TrPartialEq | TrClone | TrDebug => True
  | TrCopy => ~ In t positions
  | TrDefault => In t with_default
  | TrOrd | TrPartialOrd => s_ord F = true
  | TrHash => s_hash F = true
  end.

(** which item is compiled *)
Definition experimental_items : list (string * string) :=
  [("Piece", "array_index"); ("Piece", "NUM"); ("PieceKind", "option_array_index"); ("PieceKind", "OPTION_NUM")].
Definition always_methods : list (string * string) := ("ToUsi", "to_usi") :: map (pair "LegalityChecker") on_partial_positions.
Definition should_be (F : selection) (i : item) : Prop :=
  match i with
  | AllocCrate => with_alloc F
  | Type_ t => on_heap t -> with_alloc F
  | Impl tr t => should_have F tr t
  | Fn owner name =>
      (In (owner, name) experimental_items -> s_experimental F = true) /\
      (~ In (owner, name) experimental_items -> ~ In (owner, name) always_methods -> with_alloc F)
  end.

(** [s] occurs in [t] *)
Fixpoint occurs (s t : string) : bool :=
  String.prefix s t || match t with EmptyString => false | String _ t' => occurs s t' end.
