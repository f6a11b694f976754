(** Model of a [Bitboard] as an iterator: /repo/shogi_core/src/bitboard.rs:358-368 defines [next] and [size_hint]; all other methods of
    [core::iter::Iterator] are the provided ones, written here as core writes them, on top of [next]. *)
From Verif Require Export MBitboard MOrdHash.

(** an iterator: a state and what [next] does to it *)
Definition iter (T A : Type) : Type := T -> res (T * option A).

(** [Iterator::try_fold]: [while let Some(x) = self.next() { accum = f(accum, x)?; }]. The closure goes on with [inl] and breaks with [inr].
    [fuel] bounds the calls of [next]; [None]: it ran out. *)
Fixpoint it_try_fold {T A B C : Type} (next : iter T A) (fuel : nat) (f : B -> A -> res (B + C)) (accum : B) (t : T) : res (option (T * (B + C))) :=
  match fuel with
  | O => Ret None
  | S fuel' =>
      '(t', o) <- next t;;
      match o with
      | None => Ret (Some (t', inl accum))
      | Some x => r <- f accum x;; match r with inl accum' => it_try_fold next fuel' f accum' t' | inr c => Ret (Some (t', inr c)) end
      end
  end.
(** [Iterator::fold]; [for_each] is the same. The state is what is left behind [&mut] (for [by_ref()] and [for x in &mut b]). *)
Definition it_fold {T A B : Type} (next : iter T A) (fuel : nat) (f : B -> A -> B) (init : B) (t : T) : res (option (T * B)) :=
  r <- it_try_fold (C := Empty_set) next fuel (fun b x => Ret (inl (f b x))) init t;;
  Ret (match r with Some (t', inl b) => Some (t', b) | _ => None end).
(** [Iterator::count]: [self.fold(0, |count, _| count + 1)] *)
Definition it_count {T A : Type} (P : profile) (U : N) (next : iter T A) (fuel : nat) (t : T) : res (option N) :=
  r <- it_try_fold (C := Empty_set) next fuel (fun count _ => n <- add_w P U count 1;; Ret (inl n)) 0 t;;
  Ret (match r with Some (_, inl n) => Some n | _ => None end).
(** [Iterator::last]: [self.fold(None, |_, x| Some(x))] *)
Definition it_last {T A : Type} (next : iter T A) (fuel : nat) (t : T) : res (option (option A)) :=
  r <- it_fold next fuel (fun _ x => Some x) None t;; Ret (match r with Some (_, o) => Some o | None => None end).
(** [Iterator::reduce]: [let first = self.next()?; Some(self.fold(first, f))] *)
Definition it_reduce {T A : Type} (next : iter T A) (fuel : nat) (f : A -> A -> A) (t : T) : res (option (option A)) :=
  '(t', o) <- next t;;
  match o with
  | None => Ret (Some None)
  | Some first => r <- it_fold next fuel f first t';; Ret (match r with Some (_, x) => Some (Some x) | None => None end)
  end.
(** [Iterator::max], [Iterator::min]: of equal elements the last, the first *)
Definition it_max {T A : Type} (cmp : A -> A -> comparison) (next : iter T A) (fuel : nat) (t : T) : res (option (option A)) :=
  it_reduce next fuel (fun x y => match cmp x y with Gt => x | _ => y end) t.
Definition it_min {T A : Type} (cmp : A -> A -> comparison) (next : iter T A) (fuel : nat) (t : T) : res (option (option A)) :=
  it_reduce next fuel (fun x y => match cmp x y with Gt => y | _ => x end) t.
(** [Iterator::any], [all], [find], [position]: these take [&mut self], so that the state that is left matters *)
Definition it_any {T A : Type} (next : iter T A) (fuel : nat) (p : A -> bool) (t : T) : res (option (T * bool)) :=
  r <- it_try_fold next fuel (fun (_ : unit) x => Ret (if p x then inr tt else inl tt)) tt t;;
  Ret (match r with Some (t', inr _) => Some (t', true) | Some (t', inl _) => Some (t', false) | None => None end).
Definition it_all {T A : Type} (next : iter T A) (fuel : nat) (p : A -> bool) (t : T) : res (option (T * bool)) :=
  r <- it_try_fold next fuel (fun (_ : unit) x => Ret (if p x then inl tt else inr tt)) tt t;;
  Ret (match r with Some (t', inl _) => Some (t', true) | Some (t', inr _) => Some (t', false) | None => None end).
Definition it_find {T A : Type} (next : iter T A) (fuel : nat) (p : A -> bool) (t : T) : res (option (T * option A)) :=
  r <- it_try_fold next fuel (fun (_ : unit) x => Ret (if p x then inr x else inl tt)) tt t;;
  Ret (match r with Some (t', inr x) => Some (t', Some x) | Some (t', inl _) => Some (t', None) | None => None end).
Definition it_position {T A : Type} (P : profile) (U : N) (next : iter T A) (fuel : nat) (p : A -> bool) (t : T) : res (option (T * option N)) :=
  r <- it_try_fold next fuel (fun i x => if p x then Ret (inr i) else (j <- add_w P U i 1;; Ret (inl j))) 0 t;;
  Ret (match r with Some (t', inr i) => Some (t', Some i) | Some (t', inl _) => Some (t', None) | None => None end).
(** [Iterator::nth]: [n] times [self.next()?] and once more *)
Fixpoint it_nth {T A : Type} (next : iter T A) (n : nat) (t : T) : res (T * option A) :=
  '(t', o) <- next t;;
  match n, o with
  | _, None => Ret (t', None)
  | O, Some x => Ret (t', Some x)
  | S n', Some _ => it_nth next n' t'
  end.
(** [Iterator::collect] into a [Vec] *)
Definition it_collect {T A : Type} (next : iter T A) (fuel : nat) (t : T) : res (option (list A)) :=
  r <- it_fold next fuel (fun l x => l ++ [x]) [] t;; Ret (match r with Some (_, l) => Some l | None => None end).
(** [Iterator::eq] and [Iterator::cmp] with another iterator *)
Fixpoint it_eq {T T' A : Type} (eqb : A -> A -> bool) (next : iter T A) (next' : iter T' A) (fuel : nat) (t : T) (t' : T') : res (option bool) :=
  match fuel with
  | O => Ret None
  | S fuel' =>
      '(t1, o) <- next t;;
      match o with
      | None => '(_, o') <- next' t';; Ret (Some (match o' with None => true | Some _ => false end))
      | Some x =>
          '(t1', o') <- next' t';;
          match o' with
          | None => Ret (Some false)
          | Some y => if eqb x y then it_eq eqb next next' fuel' t1 t1' else Ret (Some false)
          end
      end
  end.
Fixpoint it_cmp {T T' A : Type} (cmp : A -> A -> comparison) (next : iter T A) (next' : iter T' A) (fuel : nat) (t : T) (t' : T') : res (option comparison) :=
  match fuel with
  | O => Ret None
  | S fuel' =>
      '(t1, o) <- next t;;
      match o with
      | None => '(_, o') <- next' t';; Ret (Some (match o' with None => Eq | Some _ => Lt end))
      | Some x =>
          '(t1', o') <- next' t';;
          match o' with
          | None => Ret (Some Gt)
          | Some y => match cmp x y with Eq => it_cmp cmp next next' fuel' t1 t1' | c => Ret (Some c) end
          end
      end
  end.

(** ** Adaptors: iterators made of iterators *)
(** [Map::next] *)
Definition map_next {T A B : Type} (f : A -> B) (next : iter T A) : iter T B := fun t => '(t', o) <- next t;; Ret (t', option_map f o).
(** [Filter::next]: [self.iter.find(&mut self.predicate)]; running out of fuel counts as a panic *)
Definition filter_next {T A : Type} (fuel : nat) (p : A -> bool) (next : iter T A) : iter T A :=
  fun t => r <- it_find next fuel p t;; match r with Some x => Ret x | None => Panic end.
(** [Enumerate::next] *)
Definition enumerate_next {T A : Type} (P : profile) (U : N) (next : iter T A) : iter (T * N) (N * A) :=
  fun t => '(t', o) <- next (fst t);;
           match o with None => Ret ((t', snd t), None) | Some x => i <- add_w P U (snd t) 1;; Ret ((t', i), Some (snd t, x)) end.
(** [Take::next] *)
Definition take_next {T A : Type} (next : iter T A) : iter (T * nat) A :=
  fun t => match snd t with O => Ret (t, None) | S n => '(t', o) <- next (fst t);; Ret ((t', n), o) end.
(** [Skip::next]: the first time [nth] *)
Definition skip_next {T A : Type} (next : iter T A) : iter (T * nat) A :=
  fun t => '(t', o) <- it_nth next (snd t) (fst t);; Ret ((t', O), o).
(** [Zip::next] (the one for any two iterators) *)
Definition zip_next {T T' A B : Type} (next : iter T A) (next' : iter T' B) : iter (T * T') (A * B) :=
  fun t => '(t1, o) <- next (fst t);;
           match o with
           | None => Ret ((t1, snd t), None)
           | Some x => '(t2, o') <- next' (snd t);; Ret ((t1, t2), match o' with Some y => Some (x, y) | None => None end)
           end.
(** [Chain::next]: the first iterator is dropped when it has come to its end *)
Definition chain_next {T T' A : Type} (next : iter T A) (next' : iter T' A) : iter (option T * T') A :=
  fun t => match fst t with
           | None => '(t2, o) <- next' (snd t);; Ret ((None, t2), o)
           | Some t1 =>
               '(t1', o) <- next t1;;
               match o with Some x => Ret ((Some t1', snd t), Some x) | None => '(t2, o) <- next' (snd t);; Ret ((None, t2), o) end
           end.
