(** The sample games really are played. *)
From Verif Require Export Sample LExt.
Definition pos1 : partial_position :=
  Eval vm_compute in match s <- pp_startpos Debug;; run_ops Debug s (map OpMove game1) with Ret (s, _) => s | _ => pp_empty end.
Definition pos2 : partial_position :=
  Eval vm_compute in match run_ops Debug pp_empty edits1 with Ret (s, _) => s | _ => pp_empty end.
Lemma game1_valid : Forall valid_move game1.
Proof. repeat constructor; try (vm_compute; discriminate); apply piece_of_valid. Qed.
Lemma edits1_valid : Forall valid_op edits1.
Proof.
  unfold edits1. repeat apply Forall_cons; try apply Forall_nil; cbn [valid_op].
  - split; [split; discriminate|apply piece_of_valid].
  - split; [split; discriminate|apply piece_of_valid].
  - split; [reflexivity|]. split; [repeat constructor|reflexivity].
  - reflexivity.
  - reflexivity.
  - split; [split; discriminate|exact I].
  - split; [split; discriminate|apply piece_of_valid].
  - eexists. split; [|reflexivity]. repeat split; discriminate.
  - exact I.
  - split; [apply piece_of_valid|split; discriminate].
Qed.
Lemma game1_run P : run_ops P the_startpos (map OpMove game1) = Ret (pos1, flags1).
Proof. destruct P; vm_compute; reflexivity. Qed.
Lemma edits1_run P : run_ops P pp_empty edits1 = Ret (pos2, flags2).
Proof. destruct P; vm_compute; reflexivity. Qed.
Lemma pos1_played P : played P pos1.
Proof. exists the_startpos, game1, flags1. split; [apply startpos_ok|]. split; [apply game1_valid|apply game1_run]. Qed.
Lemma pos1_reachable P : reachable P pos1.
Proof. apply played_reachable, pos1_played. Qed.
Lemma pos2_reachable P : reachable P pos2.
Proof. exists pp_empty, edits1, flags2. split; [now left|]. split; [apply edits1_valid|apply edits1_run]. Qed.
Lemma start_played P : played P the_startpos.
Proof. exists the_startpos, [], []. split; [apply startpos_ok|]. split; [constructor|reflexivity]. Qed.
Lemma start_reachable P : reachable P the_startpos.
Proof. apply played_reachable, start_played. Qed.
Lemma reachable_sees P s : reachable P s -> sees P s (abs s).
Proof. intros R. apply sees_abs, (reachable_wf P), R. Qed.
Definition pos1_turned : partial_position :=
  Eval vm_compute in match run_ops Debug the_startpos (OpSide White :: map mirror_op (map OpMove game1)) with Ret (s, _) => s | _ => pp_empty end.
Lemma pos1_turned_reachable P : reachable P pos1_turned.
Proof.
  exists the_startpos, (OpSide White :: map mirror_op (map OpMove game1)), (true :: flags1). split; [right; apply startpos_ok|]. split.
  - constructor; [exact I|]. repeat constructor; try (vm_compute; discriminate); apply piece_of_valid.
  - destruct P; vm_compute; reflexivity.
Qed.
