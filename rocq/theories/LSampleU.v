(** Concrete threads linked with the no-std library, used in the examples beside the theorems. *)
From Verif Require Export LSampleN SpecNoThreads.

(** three bytes to a move, and five [Position]s that leave 72 bytes of the arena *)
Definition code3 (mv : move) : list N :=
  match mv with
  | Normal f t p => [sq_repr f; sq_repr t; if p then 1 else 0]
  | Drop p t => [piece_repr p; sq_repr t; 2]
  end.
Definition build3 : n_build := NBuild 65536 (BoxLayout 26200 24 392) 8 3 code3 vec_grow.
Lemma box3_ok : box_ok 8 (nb_box build3).
Proof. split; [exists 3; reflexivity|]. split; [exists 49; reflexivity|]. vm_compute. repeat split; try discriminate. left. discriminate. Qed.
Lemma build3_ok : build_ok 64 8 build3.
Proof.
  split; [apply box3_ok|]. split; [exists 3; split; reflexivity|]. split; [exists 1; reflexivity|]. split; [reflexivity|].
  split; [intros []; reflexivity|]. split; [reflexivity|apply vec_grow_more].
Qed.
(** threads without variables of type PartialPosition or text: they keep pointers only *)
Lemma no_variables A envs m : variables_apart A envs (fun _ => 0%nat) (fun _ => 0%nat) m.
Proof.
  assert (N : forall v, variable 0 0 v -> False) by (intros []; cbn; lia). split.
  - intros i. split; [intros v V; lia|]. split; [intros v V; elim (N v V)|]. intros v w y V. elim (N v V).
  - intros i j v w y D V. elim (N v V).
Qed.
(** five threads: each creates a position and makes a move *)
Definition five (i : nat) : list h_op := if Nat.ltb i 5 then [HNew 0; HMove 0 (cmove (nm 7 7 7 6 false))] else [].
Lemma five_fine n k i : Forall (hop_fine n k) (five i).
Proof. unfold five. destruct (Nat.ltb i 5); repeat constructor. eexists; (split; [|reflexivity]); repeat split; discriminate. Qed.
Lemma five_runs i : exists x, hclient_run hclient_start (five i) = Fine x.
Proof. unfold five. destruct (Nat.ltb i 5); vm_compute; eauto. Qed.
(** first all positions, then all moves; or one thread after the other *)
Definition by_kind : list nat := [0;1;2;3;4;0;1;2;3;4]%nat.
Definition by_thread : list nat := [0;0;1;1;2;2;3;3;4;4]%nat.

(** thread 0 has variables, the others have none *)
Definition some (i : nat) : nat := if Nat.eqb i 0 then 2%nat else 0%nat.
Lemma some_variables : variables_apart 8 (fun _ => env1) some some ram1.
Proof.
  assert (N : forall v, variable 0 0 v -> False) by (intros []; cbn; lia). split.
  - intros [|i]; [exact ram1_placed|]. exact (proj1 (no_variables 8 (fun _ => env1) ram1) i).
  - intros [|i] [|j] v w y D V J W K; [congruence|elim (N w W)|elim (N v V)|elim (N v V)].
Qed.
(** thread 0 runs [program2], thread 1 creates, moves and destructs three times *)
Definition again : list h_op := [HNew 0; HMove 0 (cmove (nm 2 7 2 6 false)); HFree 0].
Definition pair (i : nat) : list h_op := match i with O => program2 | 1%nat => again ++ again ++ again | _ => [] end.
Lemma pair_fine i : Forall (hop_fine (some i) (some i)) (pair i).
Proof.
  destruct i as [|[|i]]; [| |constructor]; unfold pair, program2, again; cbn [app]; repeat apply Forall_cons; try apply Forall_nil; cbn [hop_fine op_fine some Nat.eqb];
    try exact Logic.I; try (vm_compute; lia); eexists; (split; [|reflexivity]); repeat split; discriminate.
Qed.
Lemma pair_runs i : exists x, hclient_run hclient_start (pair i) = Fine x.
Proof. destruct i as [|[|i]]; vm_compute; eauto. Qed.
(** in turn *)
Fixpoint in_turn (n : nat) : list nat := match n with O => [] | S n => [0;1]%nat ++ in_turn n end.
(** what is left of the arena, and the results, the number of calls to come and the state of the first [n] threads *)
Definition seen (n : nat) (x : res n_system) : option (N * list (list c_result * nat * bool)) :=
  match x with
  | Ret sys => Some (ns_rem sys, map (fun i => let t := ns_thread sys i in (nt_results t, length (nt_todo t), nt_hung t)) (seq 0 n))
  | _ => None
  end.
Definition expected (n : nat) (x : outcome a_system) : option (N * list (list c_result * nat * bool)) :=
  match x with
  | Fine s => Some (as_rem s, map (fun i => let t := as_thread s i in (at_results t, length (at_todo t), at_hung t)) (seq 0 n))
  | _ => None
  end.
(** thread 1 hangs in its second [Position_startpos] while thread 0 has most of its game to come *)
Definition duo (i : nat) : list h_op :=
  match i with
  | O => [HNew 0; HMove 0 (cmove (nm 7 7 7 6 false)); HMove 0 (cmove (nm 3 3 3 4 false)); HText 0 0; HAsk 0 HPly; HFree 0; HNew 0]
  | 1%nat => again ++ again
  | _ => []
  end.
Definition first_part : list nat := [0;1;1;1;1]%nat.
Definition second_part : list nat := [0;0;0;1;0;0;0;1]%nat.
Lemma duo_fine i : Forall (hop_fine (some i) (some i)) (duo i).
Proof.
  destruct i as [|[|i]]; [| |constructor]; unfold duo, again; cbn [app]; repeat apply Forall_cons; try apply Forall_nil; cbn [hop_fine op_fine some Nat.eqb];
    try exact Logic.I; try (vm_compute; lia); eexists; (split; [|reflexivity]); repeat split; discriminate.
Qed.
Lemma duo_runs i : exists x, hclient_run hclient_start (duo i) = Fine x.
Proof. destruct i as [|[|i]]; vm_compute; eauto. Qed.
(** thread 1 uses its pointer after [Position_destruct] *)
Definition bad_duo (i : nat) : list h_op := match i with O => duo 0 | 1%nat => again ++ [HAsk 0 HPly] | _ => [] end.
Lemma bad_duo_fine i : Forall (hop_fine (some i) (some i)) (bad_duo i).
Proof.
  destruct i as [|[|i]]; [exact (duo_fine 0)| |constructor]. unfold bad_duo, again. cbn [app]. repeat apply Forall_cons; try apply Forall_nil; cbn [hop_fine op_fine];
    try exact Logic.I; eexists; (split; [|reflexivity]); repeat split; discriminate.
Qed.
(** a [Position] that leaves 8 bytes of the arena: there is no room for the first move *)
Definition build4 : n_build := NBuild 65536 (BoxLayout 131064 24 392) 8 4 code1 vec_grow.
Lemma box4_ok : box_ok 8 (nb_box build4).
Proof. split; [exists 3; reflexivity|]. split; [exists 49; reflexivity|]. vm_compute. repeat split; try discriminate. left. discriminate. Qed.
Lemma build4_ok : build_ok 64 8 build4.
Proof.
  split; [apply box4_ok|]. split; [exists 3; split; reflexivity|]. split; [exists 1; reflexivity|]. split; [reflexivity|].
  split; [intros []; reflexivity|]. split; [reflexivity|apply vec_grow_more].
Qed.
(** the pointer and the list of moves of the first position of thread [i], and the numbers of the next move in its two positions *)
Definition left_behind (i : nat) (x : res n_system) : option (N * list move * res N * res N) :=
  match x with
  | Ret sys =>
      match w_live (nw_world (nt_world (ns_thread sys i))) 0 with
      | Some (a, ms) =>
          let ply o := p <- load_pp 8 Little (ns_mem sys) (a + o);; Ret (pp_ply p) in
          Some (a, ms, ply 24, ply 392)
      | None => None
      end
  | _ => None
  end.
