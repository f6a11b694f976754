(** Machine layer of the model: outcomes (value / panic / undefined behaviour), build profiles,
    fixed-width integer arithmetic, arrays and byte strings, as the Rust code in /repo uses them.

    Nothing in this file models a particular line of /repo; it models the part of the Rust language
    (Rust reference, "Behavior considered undefined", "Overflow") the code relies on. *)
From Coq Require Export String Ascii NArith ZArith Bool List.
Export ListNotations.
Open Scope N_scope.

(** Build profile. Two settings matter: overflow checks (a wrap of an integer panics) and debug assertions
    ([debug_assert!] is evaluated). [Debug] has both, [Release] has neither: cargo's defaults, which
    /repo/Cargo.toml:7-18 keeps. The program that uses the crate decides, and may set them apart: [Checked] is a build
    with [overflow-checks] only, [Asserting] one with [debug-assertions] only. *)
Inductive profile := Debug | Release | Checked | Asserting.
Definition overflow_checks (P : profile) : bool := match P with Debug | Checked => true | Release | Asserting => false end.
Definition debug_assertions (P : profile) : bool := match P with Debug | Asserting => true | Release | Checked => false end.

(** Outcome of running a piece of Rust code. *)
Inductive res (A : Type) : Type :=
| Ret (a : A)          (* returned normally *)
| Panic                (* panicked *)
| UB.                  (* executed undefined behaviour *)
Arguments Ret {A} a.
Arguments Panic {A}.
Arguments UB {A}.

Definition bind {A B : Type} (m : res A) (f : A -> res B) : res B :=
  match m with
  | Ret a => f a
  | Panic => Panic
  | UB => UB
  end.

Notation "x <- e ;; k" := (bind e (fun x => k))
  (at level 100, e at next level, right associativity).
Notation "' pat <- e ;; k" := (bind e (fun x => match x with pat => k end))
  (at level 100, pat pattern, e at next level, right associativity).
Notation "e ;;; k" := (bind e (fun _ => k))
  (at level 100, right associativity).

(** [debug_assert!(b)] *)
Definition debug_assert (P : profile) (b : bool) : res unit :=
  if debug_assertions P then (if b then Ret tt else Panic) else Ret tt.

(** [if b { core::hint::unreachable_unchecked() }] *)
Definition unreachable_if (b : bool) : res unit := if b then UB else Ret tt.

(** ** Unsigned integers of [w] bits, represented in [N] *)
Definition modulus (w : N) : N := 2 ^ w.

Definition add_w (P : profile) (w a b : N) : res N :=
  if a + b <? modulus w then Ret (a + b)
  else if overflow_checks P then Panic else Ret ((a + b) mod modulus w).

Definition sub_w (P : profile) (w a b : N) : res N :=
  if b <=? a then Ret (a - b)
  else if overflow_checks P then Panic else Ret ((a + modulus w - b) mod modulus w).

Definition mul_w (P : profile) (w a b : N) : res N :=
  if a * b <? modulus w then Ret (a * b)
  else if overflow_checks P then Panic else Ret ((a * b) mod modulus w).

(** [a << n] and [a >> n] on a [w]-bit type: a shift amount of [w] or more is an overflow. Bits
    shifted out are lost silently. *)
Definition shl_w (P : profile) (w a n : N) : res N :=
  if n <? w then Ret (N.shiftl a n mod modulus w)
  else if overflow_checks P then Panic else Ret (N.shiftl a (n mod w) mod modulus w).

Definition shr_w (P : profile) (w a n : N) : res N :=
  if n <? w then Ret (N.shiftr a n)
  else if overflow_checks P then Panic else Ret (N.shiftr a (n mod w)).

Definition wrapping_add_w (w a b : N) : N := (a + b) mod modulus w.
Definition wrapping_sub_w (w a b : N) : N := (a + modulus w - b) mod modulus w.

(** [!a] on a [w]-bit type *)
Definition not_w (w a : N) : N := N.lxor a (modulus w - 1).

(** [a as u<w>] from a wider unsigned type *)
Definition cast_w (w a : N) : N := a mod modulus w.

(** [checked_sub] *)
Definition checked_sub (a b : N) : option N := if b <=? a then Some (a - b) else None.

(** [a in lo..=hi], the pattern of [matches!(a, lo..=hi)] *)
Definition in_range (lo hi a : N) : bool := (lo <=? a) && (a <=? hi).

(** ** [i8], represented in [Z] *)
Definition i8_wrap (z : Z) : Z := ((z + 128) mod 256 - 128)%Z.
Definition u8_as_i8 (n : N) : Z := i8_wrap (Z.of_N n).
Definition i8_as_u8 (z : Z) : N := Z.to_N (z mod 256).
Definition i8_in (z : Z) : bool := ((-128 <=? z) && (z <=? 127))%Z.
Definition i8_mul (P : profile) (a b : Z) : res Z :=
  if i8_in (a * b) then Ret (a * b)%Z
  else if overflow_checks P then Panic else Ret (i8_wrap (a * b)).
Definition i8_add (P : profile) (a b : Z) : res Z :=
  if i8_in (a + b) then Ret (a + b)%Z
  else if overflow_checks P then Panic else Ret (i8_wrap (a + b)).

(** [NonZero::new_unchecked] and [NonZero::new] *)
Definition nonzero_new_unchecked (n : N) : res N := if n =? 0 then UB else Ret n.
Definition nonzero_new (n : N) : option N := if n =? 0 then None else Some n.

(** ** Arrays as lists *)
(** [a[i]] *)
Definition arr_index {A : Type} (l : list A) (i : N) : res A :=
  match nth_error l (N.to_nat i) with Some x => Ret x | None => Panic end.
(** [a.get_unchecked(i)] *)
Definition arr_get_unchecked {A : Type} (l : list A) (i : N) : res A :=
  match nth_error l (N.to_nat i) with Some x => Ret x | None => UB end.

Fixpoint list_set {A : Type} (l : list A) (i : nat) (x : A) : list A :=
  match l, i with
  | [], _ => []
  | _ :: t, O => x :: t
  | y :: t, S j => y :: list_set t j x
  end.

(** [a[i] = x] *)
Definition arr_store {A : Type} (l : list A) (i : N) (x : A) : res (list A) :=
  if (N.to_nat i <? length l)%nat then Ret (list_set l (N.to_nat i) x) else Panic.
(** [*a.get_unchecked_mut(i) = x] *)
Definition arr_store_unchecked {A : Type} (l : list A) (i : N) (x : A) : res (list A) :=
  if (N.to_nat i <? length l)%nat then Ret (list_set l (N.to_nat i) x) else UB.
(** [a.get_unchecked(lo..hi)] *)
Definition slice_unchecked {A : Type} (l : list A) (lo hi : N) : res (list A) :=
  if (lo <=? hi) && (hi <=? N.of_nat (length l))
  then Ret (firstn (N.to_nat (hi - lo)) (skipn (N.to_nat lo) l))
  else UB.

(** The integers [lo, lo+1, ..., hi-1], i.e. the range [lo..hi]. *)
Definition range (lo hi : N) : list N :=
  map (fun k => lo + N.of_nat k) (seq 0 (N.to_nat (hi - lo))).

(** [for x in l { body }] with the mutable variables collected in [S]. *)
Fixpoint for_each {A S : Type} (l : list A) (body : A -> S -> res S) (s : S) : res S :=
  match l with
  | [] => Ret s
  | x :: t => s' <- body x s;; for_each t body s'
  end.

(** [iter.map(f).collect()] with a function that may panic *)
Fixpoint map_res {A B : Type} (f : A -> res B) (l : list A) : res (list B) :=
  match l with
  | [] => Ret []
  | x :: t => y <- f x;; ys <- map_res f t;; Ret (y :: ys)
  end.

(** ** Byte strings: Rust [&str]/[&[u8]] literals are lists of byte values *)
Fixpoint bytes (s : string) : list N :=
  match s with
  | EmptyString => []
  | String c t => N_of_ascii c :: bytes t
  end.
(** The byte literal [b'c']. *)
Definition byte (c : ascii) : N := N_of_ascii c.

(** ** [core::fmt::Write] sinks: an arbitrary state machine; [write_str] returns the new state and
    whether the write succeeded ([Ok(())]). *)
Record sink (W : Type) := Sink { write_str : W -> list N -> W * bool }.
Arguments Sink {W} write_str.
Arguments write_str {W} s.

(** A function writing to a [&mut W] and returning [core::fmt::Result]. The flag is [true] for
    [Ok(())] and [false] for [Err(_)]. *)
Definition writer (W : Type) : Type := W -> res (W * bool).

(** [e?; k] for two writers *)
Definition wseq {W : Type} (e k : writer W) : writer W :=
  fun w => match e w with
           | Ret (w', true) => k w'
           | Ret (w', false) => Ret (w', false)
           | Panic => Panic
           | UB => UB
           end.
Notation "e ?; k" := (wseq e k) (at level 100, right associativity).
(** [Ok(())] *)
Definition wok {W : Type} : writer W := fun w => Ret (w, true).
(** Use a pure computation inside a writer. *)
Definition wbind {A W : Type} (m : res A) (f : A -> writer W) : writer W :=
  fun w => bind m (fun a => f a w).
(** [sink.write_str(s)] *)
Definition wstr {W : Type} (K : sink W) (s : list N) : writer W :=
  fun w => Ret (write_str K w s).
