(** Property theorems C65: the tests of the crate itself *)
From Verif Require Import TTests.

(** C65: every unit test of the crate but one passes in every profile. *)
Theorem c65_unit_tests : forall P t, In t unit_tests -> t P = Ret tt.
Proof. exact c65_unit_tests_pf. Qed.
Print Assumptions c65_unit_tests.
Example c65_unit_tests_ex : List.length unit_tests = 35%nat /\ In shift_right_works unit_tests /\ from_strs Debug [bytes "x........"] = Panic /\
  (r <- from_strs Debug init_str;; x <- bb_shift_right Debug r 3;; y <- bb_shift_right Debug r 4;; assert (bb_eqb x y)) = Panic.
Proof. split; [reflexivity|]. split; [do 34 right; left; reflexivity|]. split; vm_compute; reflexivity. Qed.

(** C65: every example in the documentation of the crate runs through. *)
Theorem c65_doc_tests : forall P t, In t doc_tests -> t P = Ret tt.
Proof. exact c65_doc_tests_pf. Qed.
Print Assumptions c65_doc_tests.
Example c65_doc_tests_ex : List.length doc_tests = 50%nat /\ In doc_hand_wraps doc_tests /\
  (o <- hand_added Debug hand_new King;; unwrap o) = Panic.
Proof. split; [reflexivity|]. split; [do 13 right; left; reflexivity|]. vm_compute; reflexivity. Qed.
