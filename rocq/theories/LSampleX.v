(** The positions of the examples on the rules are reached by safe calls. *)
From Verif Require Export LSample LSampleR LSampleS LRefine.

Lemma set_up_reachable os : Forall valid_op os -> reachable Debug (set_up_by os).
Proof.
  intros V. exists pp_empty, os, (snd (do_ops pp_empty os)). split; [now left|]. split; [exact V|]. unfold set_up_by.
  rewrite run_ops_ok by (first [exact V|apply pp_empty_wf]). destruct (do_ops pp_empty os); reflexivity.
Qed.
Lemma set_up_sees os : Forall valid_op os -> sees Debug (set_up_by os) (abs (set_up_by os)).
Proof. intros V. apply reachable_sees, set_up_reachable, V. Qed.
Ltac ops_valid := repeat constructor; vm_compute; intuition discriminate.
Lemma corner_valid : Forall valid_op corner.
Proof. ops_valid. Qed.
Lemma attacked_valid : Forall valid_op attacked.
Proof. ops_valid. Qed.
Lemma pawns_valid : Forall valid_op pawns.
Proof. ops_valid. Qed.
Lemma hunt_valid : Forall valid_op hunt.
Proof. ops_valid. Qed.
Lemma the_start_reachable : reachable Debug the_start.
Proof. exact (start_reachable Debug). Qed.
