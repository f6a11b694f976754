(** Model of the standard collections as clients of [Eq], [Ord] and [Hash]: [std::collections::HashMap] and
    [std::collections::BTreeMap] with values of the crate as keys. They reach the crate only through
    - [==] (derived, or hand.rs:191-195 for [Hand]),
    - [Hash::hash] (annotated_derive.rs:8-42, mv.rs:116-132) and
    - [Ord::cmp] (annotated_derive.rs:45-105, mv.rs:83-112).
    No proofs here. *)
From Verif Require Export MOrdHash.

(** ** [HashMap<K, V, S>]: a table of buckets

    [H] is what the [BuildHasher] of the map makes of the calls on its hasher; [grow] (entries, buckets) is the number of buckets
    after room for one more entry has been reserved. Both are arbitrary. *)
Section HashMap.
Variables (K V : Type) (eqb : K -> K -> bool) (hash : K -> list htok) (H : list htok -> N) (grow : nat -> nat -> nat).

Definition buckets : Type := list (list (K * V)).
(* the bucket of a key *)
Definition bucket_of (n : nat) (k : K) : nat := N.to_nat (H (hash k) mod N.of_nat n).
(* the keys of a bucket are compared with [==], one after the other *)
Fixpoint chain_get (k : K) (l : list (K * V)) : option V :=
  match l with [] => None | (k', v) :: rest => if eqb k k' then Some v else chain_get k rest end.
(* the value is replaced, the key is not *)
Fixpoint chain_set (k : K) (v : V) (l : list (K * V)) : list (K * V) :=
  match l with [] => [] | (k', w) :: rest => if eqb k k' then (k', v) :: rest else (k', w) :: chain_set k v rest end.
Fixpoint chain_remove (k : K) (l : list (K * V)) : list (K * V) :=
  match l with [] => [] | (k', w) :: rest => if eqb k k' then rest else (k', w) :: chain_remove k rest end.
Fixpoint in_bucket (i : nat) (f : list (K * V) -> list (K * V)) (bs : buckets) : buckets :=
  match bs, i with
  | [], _ => []
  | b :: rest, O => f b :: rest
  | b :: rest, S j => b :: in_bucket j f rest
  end.
Definition hm_new : buckets := [].
Definition hm_get (k : K) (bs : buckets) : option V := chain_get k (nth (bucket_of (length bs) k) bs []).
Definition hm_push (bs : buckets) (e : K * V) : buckets := in_bucket (bucket_of (length bs) (fst e)) (cons e) bs.
Definition hm_reserve (bs : buckets) : buckets :=
  let n := Nat.max 1 (grow (length (concat bs)) (length bs)) in
  if Nat.eqb n (length bs) then bs else fold_left hm_push (concat bs) (repeat [] n).
Definition hm_insert (k : K) (v : V) (bs : buckets) : buckets * option V :=
  match hm_get k bs with
  | Some old => (in_bucket (bucket_of (length bs) k) (chain_set k v) bs, Some old)
  | None => (hm_push (hm_reserve bs) (k, v), None)
  end.
Definition hm_remove (k : K) (bs : buckets) : buckets * option V :=
  match hm_get k bs with
  | Some old => (in_bucket (bucket_of (length bs) k) (chain_remove k) bs, Some old)
  | None => (bs, None)
  end.
(* [keys]: bucket after bucket *)
Definition hm_keys (bs : buckets) : list K := map fst (concat bs).
End HashMap.
Arguments hm_new {K V}.
Arguments hm_keys {K V}.

(** ** [BTreeMap<K, V>]: a search tree

    The shape of the tree is of no concern: [shape] puts it into any other one after every change. A node with several keys is
    a chain of nodes. *)
Inductive tree (K V : Type) := Tip | Node (l : tree K V) (k : K) (v : V) (r : tree K V).
Arguments Tip {K V}.
Arguments Node {K V}.
Section BTreeMap.
Variables (K V : Type) (cmp : K -> K -> comparison) (shape : tree K V -> tree K V).

(* [iter] *)
Fixpoint bt_iter (t : tree K V) : list (K * V) := match t with Tip => [] | Node l k v r => bt_iter l ++ (k, v) :: bt_iter r end.
(* the key looked for is compared with those of the nodes *)
Fixpoint bt_get (k : K) (t : tree K V) : option V :=
  match t with
  | Tip => None
  | Node l k' v r => match cmp k k' with Lt => bt_get k l | Eq => Some v | Gt => bt_get k r end
  end.
(* the value is replaced, the key is not *)
Fixpoint bt_put (k : K) (v : V) (t : tree K V) : tree K V :=
  match t with
  | Tip => Node Tip k v Tip
  | Node l k' w r => match cmp k k' with Lt => Node (bt_put k v l) k' w r | Eq => Node l k' v r | Gt => Node l k' w (bt_put k v r) end
  end.
Fixpoint bt_join (l r : tree K V) : tree K V := match l with Tip => r | Node a k v b => Node a k v (bt_join b r) end.
Fixpoint bt_drop (k : K) (t : tree K V) : tree K V :=
  match t with
  | Tip => Tip
  | Node l k' w r => match cmp k k' with Lt => Node (bt_drop k l) k' w r | Eq => bt_join l r | Gt => Node l k' w (bt_drop k r) end
  end.
Definition bt_insert (k : K) (v : V) (t : tree K V) : tree K V * option V := (shape (bt_put k v t), bt_get k t).
Definition bt_remove (k : K) (t : tree K V) : tree K V * option V := (shape (bt_drop k t), bt_get k t).
Definition bt_keys (t : tree K V) : list K := map fst (bt_iter t).
End BTreeMap.
Arguments bt_iter {K V}.
Arguments bt_keys {K V}.

(** ** Sessions: any calls on one map *)
Inductive map_call (K V : Type) := MInsert (k : K) (v : V) | MRemove (k : K) | MGet (k : K) | MKeys.
Arguments MInsert {K V}.
Arguments MRemove {K V}.
Arguments MGet {K V}.
Arguments MKeys {K V}.
Inductive map_answer (K V : Type) := AValue (o : option V) | AKeys (ks : list K).
Arguments AValue {K V}.
Arguments AKeys {K V}.
Section Sessions.
Variables (K V : Type).

Definition hm_call eqb hash H grow (bs : buckets K V) (c : map_call K V) : buckets K V * map_answer K V :=
  match c with
  | MInsert k v => let '(bs', o) := hm_insert K V eqb hash H grow k v bs in (bs', AValue o)
  | MRemove k => let '(bs', o) := hm_remove K V eqb hash H k bs in (bs', AValue o)
  | MGet k => (bs, AValue (hm_get K V eqb hash H k bs))
  | MKeys => (bs, AKeys (hm_keys bs))
  end.
Definition bt_call cmp shape (t : tree K V) (c : map_call K V) : tree K V * map_answer K V :=
  match c with
  | MInsert k v => let '(t', o) := bt_insert K V cmp shape k v t in (t', AValue o)
  | MRemove k => let '(t', o) := bt_remove K V cmp shape k t in (t', AValue o)
  | MGet k => (t, AValue (bt_get K V cmp k t))
  | MKeys => (t, AKeys (bt_keys t))
  end.
Fixpoint map_session {T : Type} (step : T -> map_call K V -> T * map_answer K V) (t : T) (cs : list (map_call K V)) : list (map_answer K V) :=
  match cs with [] => [] | c :: rest => let '(t', a) := step t c in a :: map_session step t' rest end.
End Sessions.
Arguments hm_call {K V}.
Arguments bt_call {K V}.
Arguments map_session {K V T}.
Definition hash_session {K V} eqb hash H grow : list (map_call K V) -> list (map_answer K V) := map_session (hm_call eqb hash H grow) hm_new.
Definition tree_session {K V} cmp shape : list (map_call K V) -> list (map_answer K V) := map_session (bt_call cmp shape) Tip.

(** ** A client: counting how often each key comes, [*map.entry(k).or_insert(0) += 1] *)
Definition one_more (o : option N) : N := match o with Some n => n + 1 | None => 1 end.
Fixpoint hm_tally {K} eqb hash H grow (bs : buckets K N) (ks : list K) : buckets K N :=
  match ks with
  | [] => bs
  | k :: rest => hm_tally eqb hash H grow (fst (hm_insert K N eqb hash H grow k (one_more (hm_get K N eqb hash H k bs)) bs)) rest
  end.
