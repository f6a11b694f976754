(** Specification of [Ord], [Eq] and [Hash]. *)
From Verif Require Import Machine.

(** ** A total order given by a comparison; [le a b] is [cmp a b <> Gt] *)
Definition total_order {A} (cmp : A -> A -> comparison) : Prop :=
  (* reflexive *) (forall a, cmp a a = Eq) /\
  (* dual *) (forall a b, cmp b a = CompOpp (cmp a b)) /\
  (* antisymmetric *) (forall a b, cmp a b <> Gt -> cmp b a <> Gt -> cmp a b = Eq) /\
  (* transitive *) (forall a b c, cmp a b <> Gt -> cmp b c <> Gt -> cmp a c <> Gt) /\
  (* equivalent values compare alike *) (forall a b c, cmp a b = Eq -> cmp a c = cmp b c) /\
  (* total *) (forall a b, cmp a b <> Gt \/ cmp b a <> Gt).
Definition lawful_ord {A} (cmp : A -> A -> comparison) (partial_cmp : A -> A -> option comparison) : Prop :=
  total_order cmp /\ forall a b, partial_cmp a b = Some (cmp a b).

(** ** Consistency on the values satisfying [V] *)
Definition is_equality {A} (V : A -> Prop) (eqb : A -> A -> bool) : Prop := forall a b, V a -> V b -> (eqb a b = true <-> a = b).
Definition ord_agrees {A} (V : A -> Prop) (cmp : A -> A -> comparison) (eqb : A -> A -> bool) : Prop :=
  forall a b, V a -> V b -> (cmp a b = Eq <-> eqb a b = true).
(** [hash] is the sequence of calls made on the hasher *)
Definition hash_agrees {A T} (V : A -> Prop) (eqb : A -> A -> bool) (hash : A -> list T) : Prop :=
  forall a b, V a -> V b -> eqb a b = true -> hash a = hash b.
Definition any {A} (_ : A) : Prop := True.
