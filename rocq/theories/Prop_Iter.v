(** Property theorems C85: a bitboard as an iterator *)
From Verif Require Import TIter.

(** C85: every loop over a bitboard goes through its squares from the least up, whatever the body does: it may break off, and then exactly the
    squares it has not come to are left in the bitboard; it may panic. All the methods below are such loops. *)
Theorem c85_loops : forall (B C : Type) P b l fuel (f : B -> square -> res (B + C)) acc, valid_bb b -> listing P b l -> (82 <= fuel)%nat ->
  match loop f acc l with
  | Ret (rest, r) => exists b', it_try_fold (bb_next P) fuel f acc b = Ret (Some (b', r)) /\ valid_bb b' /\ listing P b' rest
  | Panic => it_try_fold (bb_next P) fuel f acc b = Panic
  | UB => it_try_fold (bb_next P) fuel f acc b = UB
  end.
Proof. exact c85_loops_pf. Qed.
Print Assumptions c85_loops.
Example c85_loops_ex :
  let b := Bitboard 5 131072 in let l := [Square 1; Square 3; Square 81] in
  let f := fun limit acc s => if acc =? limit then Panic else Ret (if sq_repr s =? 3 then inr s else inl (acc + sq_repr s)) in
  valid_bb b /\ listing Debug b l /\
  loop (f 7) 0 l = Ret ([Square 81], inr (Square 3)) /\ it_try_fold (bb_next Debug) 82 (f 7) 0 b = Ret (Some (Bitboard 0 131072, inr (Square 3))) /\
  loop (f 1) 0 l = Panic /\ it_try_fold (bb_next Debug) 82 (f 1) 0 b = Panic.
Proof. split; [split; reflexivity|]. split; [exact (members_listing Debug (Bitboard 5 131072))|]. vm_compute. auto. Qed.

(** C85: the methods that go through all of it: [fold] (and [for_each]; behind [&mut] the empty bitboard is left), [collect], [count], which is
    the number that [Bitboard::count] gives, [last] and [max], which are the greatest square, and [min], the least. *)
Theorem c85_whole : forall (B : Type) P U b l fuel (f : B -> square -> B) init, valid_bb b -> listing P b l -> (82 <= fuel)%nat -> 8 <= U ->
  it_fold (bb_next P) fuel f init b = Ret (Some (bb_empty, fold_left f l init)) /\
  it_collect (bb_next P) fuel b = Ret (Some l) /\
  (exists n, it_count P U (bb_next P) fuel b = Ret (Some n) /\ bb_count P b = Ret n /\ n = N.of_nat (length l)) /\
  it_last (bb_next P) fuel b = Ret (Some (final l)) /\
  it_max sq_cmp (bb_next P) fuel b = Ret (Some (final l)) /\
  it_min sq_cmp (bb_next P) fuel b = Ret (Some (hd_error l)).
Proof. exact c85_whole_pf. Qed.
Print Assumptions c85_whole.
Example c85_whole_ex :
  let b := Bitboard 5 131072 in let l := [Square 1; Square 3; Square 81] in
  valid_bb b /\ listing Release b l /\ it_fold (bb_next Release) 82 (fun x s => 100 * x + sq_repr s) 7 b = Ret (Some (bb_empty, 7010381)) /\
  it_collect (bb_next Release) 82 b = Ret (Some l) /\ it_count Release 16 (bb_next Release) 82 b = Ret (Some 3) /\ bb_count Release b = Ret 3 /\
  it_last (bb_next Release) 82 b = Ret (Some (Some (Square 81))) /\ it_max sq_cmp (bb_next Release) 82 b = Ret (Some (Some (Square 81))) /\
  it_min sq_cmp (bb_next Release) 82 b = Ret (Some (Some (Square 1))) /\ it_min sq_cmp (bb_next Release) 82 bb_empty = Ret (Some None).
Proof. split; [split; reflexivity|]. split; [exact (members_listing Release (Bitboard 5 131072))|]. vm_compute. repeat split. Qed.

(** C85: the methods that stop as soon as they know: [any], [all], [find] and [position] answer for the list of the squares, and take out of
    the bitboard, which they have by [&mut], all squares up to the one that decided; the later ones are left. *)
Theorem c85_searches : forall P U b l fuel p, valid_bb b -> listing P b l -> (82 <= fuel)%nat -> 8 <= U ->
  (exists b', it_any (bb_next P) fuel p b = Ret (Some (b', existsb p l)) /\ valid_bb b' /\ listing P b' (after p l)) /\
  (exists b', it_all (bb_next P) fuel p b = Ret (Some (b', forallb p l)) /\ valid_bb b' /\ listing P b' (after (fun s => negb (p s)) l)) /\
  (exists b', it_find (bb_next P) fuel p b = Ret (Some (b', find p l)) /\ valid_bb b' /\ listing P b' (after p l)) /\
  (exists b', it_position P U (bb_next P) fuel p b = Ret (Some (b', place p l)) /\ valid_bb b' /\ listing P b' (after p l)).
Proof. exact c85_searches_pf. Qed.
Print Assumptions c85_searches.
Example c85_searches_ex :
  let b := Bitboard 5 131072 in let l := [Square 1; Square 3; Square 81] in let p := fun s => 2 <? sq_repr s in
  valid_bb b /\ listing Debug b l /\ after p l = [Square 81] /\ after (fun s => negb (p s)) l = [Square 3; Square 81] /\
  it_any (bb_next Debug) 82 p b = Ret (Some (Bitboard 0 131072, true)) /\ it_all (bb_next Debug) 82 p b = Ret (Some (Bitboard 4 131072, false)) /\
  it_find (bb_next Debug) 82 p b = Ret (Some (Bitboard 0 131072, Some (Square 3))) /\ it_position Debug 64 (bb_next Debug) 82 p b = Ret (Some (Bitboard 0 131072, Some 1)) /\
  it_any (bb_next Debug) 82 (fun _ => false) b = Ret (Some (bb_empty, false)).
Proof. split; [split; reflexivity|]. split; [exact (members_listing Debug (Bitboard 5 131072))|]. vm_compute. repeat split. Qed.

(** C85: [nth] gives the square at that place, counted from 0, and takes out all squares up to it. *)
Theorem c85_nth : forall P b l k, valid_bb b -> listing P b l ->
  exists b', it_nth (bb_next P) k b = Ret (b', nth_error l k) /\ valid_bb b' /\ listing P b' (skipn (S k) l).
Proof. exact c85_nth_pf. Qed.
Print Assumptions c85_nth.
Example c85_nth_ex :
  let b := Bitboard 5 131072 in
  valid_bb b /\ listing Debug b [Square 1; Square 3; Square 81] /\ it_nth (bb_next Debug) 1 b = Ret (Bitboard 0 131072, Some (Square 3)) /\ it_nth (bb_next Debug) 3 b = Ret (bb_empty, None).
Proof. split; [split; reflexivity|]. split; [exact (members_listing Debug (Bitboard 5 131072))|]. vm_compute. auto. Qed.

(** C85: two bitboards compared as iterators: [Iterator::eq] is [==], and [Iterator::cmp] is the order of a dictionary on the lists of squares. *)
Theorem c85_compare : forall P a b l l' fuel, valid_bb a -> valid_bb b -> listing P a l -> listing P b l' -> (82 <= fuel)%nat ->
  it_eq sq_eqb (bb_next P) (bb_next P) fuel a b = Ret (Some (bb_eqb a b)) /\
  exists c, it_cmp sq_cmp (bb_next P) (bb_next P) fuel a b = Ret (Some c) /\ in_dictionary l l' c.
Proof. exact c85_compare_pf. Qed.
Print Assumptions c85_compare.
Example c85_compare_ex :
  valid_bb (Bitboard 5 131072) /\ valid_bb (Bitboard 5 65536) /\
  listing Debug (Bitboard 5 131072) [Square 1; Square 3; Square 81] /\ listing Debug (Bitboard 5 65536) [Square 1; Square 3; Square 80] /\
  it_eq sq_eqb (bb_next Debug) (bb_next Debug) 82 (Bitboard 5 131072) (Bitboard 5 65536) = Ret (Some false) /\
  it_cmp sq_cmp (bb_next Debug) (bb_next Debug) 82 (Bitboard 5 131072) (Bitboard 5 65536) = Ret (Some Gt) /\
  it_cmp sq_cmp (bb_next Debug) (bb_next Debug) 82 (Bitboard 5 131072) (Bitboard 5 0) = Ret (Some Gt) /\
  it_eq sq_eqb (bb_next Debug) (bb_next Debug) 82 (Bitboard 5 131072) (Bitboard 5 131072) = Ret (Some true).
Proof.
  split; [split; reflexivity|]. split; [split; reflexivity|]. split; [exact (members_listing Debug (Bitboard 5 131072))|]. split; [exact (members_listing Debug (Bitboard 5 65536))|]. vm_compute. auto.
Qed.

(** C85 (full statement refuted): [Iterator::cmp] is not [Ord::cmp] of bitboards. In Rust [a.cmp(b)] on two bitboards means the former,
    and [Ord::cmp(&a, &b)], which sorting and ordered maps use, the latter. *)
Theorem c85_order_refuted : ~ (forall P a b fuel, valid_bb a -> valid_bb b -> (82 <= fuel)%nat -> it_cmp sq_cmp (bb_next P) (bb_next P) fuel a b = Ret (Some (bb_cmp a b))).
Proof. exact c85_order_refuted_pf. Qed.
Print Assumptions c85_order_refuted.
Example c85_order_refuted_ex :
  it_collect (bb_next Debug) 82 (Bitboard 3 0) = Ret (Some [Square 1; Square 2]) /\ it_collect (bb_next Debug) 82 (Bitboard 2 0) = Ret (Some [Square 2]) /\
  it_cmp sq_cmp (bb_next Debug) (bb_next Debug) 82 (Bitboard 3 0) (Bitboard 2 0) = Ret (Some Lt) /\ bb_cmp (Bitboard 3 0) (Bitboard 2 0) = Gt.
Proof. vm_compute. auto. Qed.

(** C85: a bitboard is what its squares make: adding them one after the other to the empty bitboard with [|=] gives it back, and leaves the one
    that was gone through empty. *)
Theorem c85_rebuild : forall P b fuel, valid_bb b -> (82 <= fuel)%nat ->
  it_try_fold (C := Empty_set) (bb_next P) fuel (fun acc s => x <- bb_or_square P acc s;; Ret (inl x)) bb_empty b = Ret (Some (bb_empty, inl b)).
Proof. exact c85_rebuild_pf. Qed.
Print Assumptions c85_rebuild.
Example c85_rebuild_ex :
  let b := Bitboard 5 131072 in
  valid_bb b /\ it_try_fold (C := Empty_set) (bb_next Debug) 82 (fun acc s => x <- bb_or_square Debug acc s;; Ret (inl x)) bb_empty b = Ret (Some (bb_empty, inl b)) /\
  it_try_fold (C := Empty_set) (bb_next Debug) 2 (fun acc s => x <- bb_or_square Debug acc s;; Ret (inl x)) bb_empty b = Ret None.
Proof. split; [split; reflexivity|]. vm_compute. auto. Qed.

(** C85: adaptors on bitboards, one on top of the other in any number: what a bitboard delivers is the list of its squares, and whenever an
    iterator (or two) delivers a list, the adaptor delivers the list that its name says. *)
Theorem c85_adaptors : forall P U,
  (forall b l, valid_bb b -> listing P b l -> delivers (bb_next P) b l) /\
  (forall T A (next : iter T A) t l fuel, delivers next t l -> (length l < fuel)%nat -> it_collect next fuel t = Ret (Some l)) /\
  (forall T A B (next : iter T A) t l (f : A -> B), delivers next t l -> delivers (map_next f next) t (map f l)) /\
  (forall T A (next : iter T A) t l p fuel, delivers next t l -> (length l < fuel)%nat -> delivers (filter_next fuel p next) t (filter p l)) /\
  (forall T A (next : iter T A) t l, delivers next t l -> N.of_nat (length l) < 2 ^ U -> delivers (enumerate_next P U next) (t, 0) (numbered 0 l)) /\
  (forall T A (next : iter T A) t l k, delivers next t l -> delivers (take_next next) (t, k) (firstn k l)) /\
  (forall T A (next : iter T A) t l k, delivers next t l -> delivers (skip_next next) (t, k) (skipn k l)) /\
  (forall T T' A B (next : iter T A) (next' : iter T' B) t t' l l', delivers next t l -> delivers next' t' l' -> delivers (zip_next next next') (t, t') (combine l l')) /\
  (forall T T' A (next : iter T A) (next' : iter T' A) t t' l l', delivers next t l -> delivers next' t' l' -> delivers (chain_next next next') (Some t, t') (l ++ l')).
Proof. exact c85_adaptors_pf. Qed.
Print Assumptions c85_adaptors.
Example c85_adaptors_ex :
  let b := Bitboard 5 131072 in let l := [Square 1; Square 3; Square 81] in
  valid_bb b /\ listing Debug b l /\
  it_collect (map_next sq_repr (bb_next Debug)) 82 b = Ret (Some [1; 3; 81]) /\
  it_collect (filter_next 82 (fun s => negb (sq_repr s =? 3)) (bb_next Debug)) 82 b = Ret (Some [Square 1; Square 81]) /\
  it_collect (enumerate_next Debug 64 (bb_next Debug)) 82 (b, 0) = Ret (Some [(0, Square 1); (1, Square 3); (2, Square 81)]) /\
  it_collect (take_next (bb_next Debug)) 82 (b, 2%nat) = Ret (Some [Square 1; Square 3]) /\
  it_collect (skip_next (bb_next Debug)) 82 (b, 2%nat) = Ret (Some [Square 81]) /\
  it_collect (zip_next (bb_next Debug) (bb_next Debug)) 82 (b, Bitboard 3 0) = Ret (Some [(Square 1, Square 1); (Square 3, Square 2)]) /\
  it_collect (chain_next (bb_next Debug) (bb_next Debug)) 163 (Some b, Bitboard 3 0) = Ret (Some [Square 1; Square 3; Square 81; Square 1; Square 2]) /\
  it_collect (map_next sq_repr (skip_next (chain_next (bb_next Debug) (bb_next Debug)))) 163 ((Some b, Bitboard 3 0), 2%nat) = Ret (Some [81; 1; 2]).
Proof. split; [split; reflexivity|]. split; [exact (members_listing Debug (Bitboard 5 131072))|]. vm_compute. repeat split. Qed.
