(** Specification of hand histories: one 8-bit counter per hand kind. *)
From Verif Require Import Machine MPieceKind MHand SpecBase.

Inductive hand_op := HAdd (k : piece_kind) | HRemove (k : piece_kind).
Definition hand_op_kind (o : hand_op) : piece_kind := match o with HAdd k => k | HRemove k => k end.

(** The calls on the model, with the returned flags *)
Fixpoint hand_run (P : profile) (h : hand) (ops : list hand_op) : res (hand * list bool) :=
  match ops with
  | [] => Ret (h, [])
  | o :: rest =>
      '(h1, b) <- match o with HAdd k => Hand_add P h k | HRemove k => Hand_remove P h k end;;
      '(h2, bs) <- hand_run P h1 rest;;
      Ret (h2, b :: bs)
  end.

(** The counter of [k] after a history: only the calls about [k] matter. An addition increments modulo 256, a removal
    decrements unless the counter is 0. *)
Definition about (k : piece_kind) (o : hand_op) : bool := kind_number (hand_op_kind o) =? kind_number k.
Definition count_step (n : N) (o : hand_op) : N :=
  match o with HAdd _ => (n + 1) mod 256 | HRemove _ => n - 1 end.
Definition counter (n : N) (ops : list hand_op) (k : piece_kind) : N :=
  fold_left count_step (filter (about k) ops) n.

(** What a call returns, given the counter of its kind before the call *)
Definition accepted (n : N) (o : hand_op) : bool :=
  match o with HAdd k => existsb (fun j => kind_number j =? kind_number k) hand_kinds
             | HRemove k => existsb (fun j => kind_number j =? kind_number k) hand_kinds && (0 <? n) end.
