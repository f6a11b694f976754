(** The four builds compared with each other: [Debug], [Release], [Checked], [Asserting] (see [Machine.profile]). *)
From Verif Require Import Machine.

(** [P] has every check that [Q] has *)
Definition checks_more (P Q : profile) : Prop :=
  (overflow_checks Q = true -> overflow_checks P = true) /\ (debug_assertions Q = true -> debug_assertions P = true).

(** The first outcome is a panic or the same as the second, a value or undefined behaviour *)
Definition same_or_panic {A : Type} (r s : res A) : Prop := r = Panic \/ r = s.
