(** Property theorems C82: threads linked with the no-std library *)
From Verif Require Import TNoThreads.
From Verif Require Import LSampleU.

(** C82: threads linked with the no-std library, each using its own variables and pointers rightly, have no undefined behaviour, whatever the
    order of their calls. Each call is answered as over abstract positions if the bundled allocator has what it asks for at that moment;
    otherwise its thread hangs for good and the others run on. What is left in the arena is as computed from the requests in the order made,
    the memory shows the variables, positions and lists of moves of every thread, no two threads own a byte in common, and no other memory changes. *)
Theorem c82_threads : forall P U A E b envs n k pads programs m schedule, In A word_alignments -> 18 < U -> build_ok U A b -> nb_base b mod nb_align b = 0 ->
  arena_free b m -> variables_apart A envs n k m -> (forall i, Forall (hop_fine (n i) (k i)) (programs i)) ->
  match a_turns b schedule (a_start programs) with
  | Fine s =>
      exists sys, nsys_run P U A E b envs pads schedule (nsys_start m programs) = Ret sys /\ ns_rem sys = as_rem s /\
        (forall i, let t := ns_thread sys i in let a := as_thread s i in
           nt_todo t = at_todo a /\ nt_results t = at_results a /\ nt_hung t = at_hung a /\
           thread_shows A E b (envs i) (n i) (k i) (ns_mem sys) (nt_world t) (memory_of a)) /\
        (forall i j y, i <> j -> owns A b (envs i) (n i) (k i) (nt_world (ns_thread sys i)) y ->
           ~ owns A b (envs j) (n j) (k j) (nt_world (ns_thread sys j)) y) /\
        (forall y, (forall i, ~ owns A b (envs i) (n i) (k i) (nt_world (ns_thread sys i)) y) -> ns_mem sys y = m y)
  | Misused => nsys_run P U A E b envs pads schedule (nsys_start m programs) = UB
  | Unset => True
  end.
Proof. exact c82_threads_pf. Qed.
Print Assumptions c82_threads.
Example c82_threads_ex :
  let run programs := nsys_run Release 64 8 Little build2 (fun _ => env1) (fun _ _ _ => 0) (first_part ++ second_part) (nsys_start ram1 programs) in
  In 8 word_alignments /\ build_ok 64 8 build2 /\ nb_base build2 mod nb_align build2 = 0 /\ arena_free build2 ram1 /\ variables_apart 8 (fun _ => env1) some some ram1 /\
  (forall i, Forall (hop_fine (some i) (some i)) (duo i)) /\ (forall i, Forall (hop_fine (some i) (some i)) (bad_duo i)) /\
  expected 2 (a_turns build2 (first_part ++ second_part) (a_start duo)) =
    Some (11040, [([CNothing; CBool true; CBool true; CNothing; CNumber 3; CNothing], 1%nat, true); ([CNothing; CBool true; CNothing], 3%nat, true)]) /\
  seen 2 (run duo) = expected 2 (a_turns build2 (first_part ++ second_part) (a_start duo)) /\
  a_turns build2 (first_part ++ second_part) (a_start bad_duo) = Misused.
Proof.
  split; [cbn; auto|]. split; [apply build2_ok|]. split; [reflexivity|]. split; [apply arena2_free|]. split; [apply some_variables|]. split; [apply duo_fine|]. split; [apply bad_duo_fine|].
  vm_compute. auto.
Qed.

(** C82: a thread has at any moment the results that the first calls of its program have when it runs alone. If it does not hang it has made as
    many calls as it was on turn; if it hangs, then on a call whose request the allocator could not serve even now. A
    thread that hangs in [Position_make_compact_move] leaves a position behind in which the move is made, with a list of moves in which it is missing. *)
Theorem c82_alone : forall P U A E b envs n k pads programs m schedule, In A word_alignments -> 18 < U -> build_ok U A b -> nb_base b mod nb_align b = 0 ->
  arena_free b m -> variables_apart A envs n k m -> (forall i, Forall (hop_fine (n i) (k i)) (programs i)) ->
  (forall i, exists x, hclient_run hclient_start (programs i) = Fine x) ->
  exists sys, nsys_run P U A E b envs pads schedule (nsys_start m programs) = Ret sys /\
    forall i, let t := ns_thread sys i in
      exists done st, hclient_run hclient_start (firstn done (programs i)) = Fine (st, nt_results t) /\ nt_todo t = skipn done (programs i) /\
        if nt_hung t
        then (done < on_turn i schedule)%nat /\
             exists o rest, nt_todo t = o :: rest /\ granted (snd (serial_run (ns_rem sys) (op_requests b st o))) = false /\
               thread_shows A E b (envs i) (n i) (k i) (ns_mem sys) (nt_world t) (left_state st o)
        else done = Nat.min (on_turn i schedule) (length (programs i)) /\
             thread_shows A E b (envs i) (n i) (k i) (ns_mem sys) (nt_world t) st.
Proof. exact c82_alone_pf. Qed.
Print Assumptions c82_alone.
Example c82_alone_ex :
  build_ok 64 8 build2 /\ nb_base build2 mod nb_align build2 = 0 /\ arena_free build2 ram1 /\ variables_apart 8 (fun _ => env1) some some ram1 /\
  (forall i, Forall (hop_fine (some i) (some i)) (duo i)) /\ (forall i, exists x, hclient_run hclient_start (duo i) = Fine x) /\
  expected 2 (a_turns build2 first_part (a_start duo)) = Some (11056, [([CNothing], 6%nat, false); ([CNothing; CBool true; CNothing], 3%nat, true)]) /\
  (on_turn 0 first_part, on_turn 1 first_part) = (1, 4)%nat /\
  op_requests build2 hclient_start (HNew 0) = [Layout 60000 8] /\ snd (serial_run 11056 [Layout 60000 8]) = [None] /\
  build_ok 64 8 build4 /\
  let run := nsys_run Release 64 8 Little build4 (fun _ => env1) (fun _ _ _ => 0) [0; 0]%nat (nsys_start ram1 five) in
  seen 1 run = Some (8, [([CNothing], 1%nat, true)]) /\ left_behind 0 run = Some (65544, [], Ret 1, Ret 2).
Proof.
  split; [apply build2_ok|]. split; [reflexivity|]. split; [apply arena2_free|]. split; [apply some_variables|]. split; [apply duo_fine|]. split; [apply duo_runs|].
  split; [vm_compute; reflexivity|]. split; [reflexivity|]. split; [reflexivity|]. split; [reflexivity|]. split; [apply build4_ok|]. vm_compute. auto.
Qed.

(** C82: once a thread hangs in [Position_startpos] no thread ever creates a position again, though positions may be destructed. *)
Theorem c82_last_position : forall P U A E b envs n k pads programs m schedule later sys sys' i h rest, In A word_alignments -> 18 < U -> build_ok U A b ->
  nb_base b mod nb_align b = 0 -> arena_free b m -> variables_apart A envs n k m -> (forall i, Forall (hop_fine (n i) (k i)) (programs i)) ->
  (forall i, exists x, hclient_run hclient_start (programs i) = Fine x) ->
  nsys_run P U A E b envs pads schedule (nsys_start m programs) = Ret sys -> nt_hung (ns_thread sys i) = true -> nt_todo (ns_thread sys i) = HNew h :: rest ->
  nsys_run P U A E b envs pads later sys = Ret sys' ->
  forall j, news (nt_todo (ns_thread sys' j)) = news (nt_todo (ns_thread sys j)).
Proof. exact c82_last_position_pf. Qed.
Print Assumptions c82_last_position.
Example c82_last_position_ex :
  build_ok 64 8 build2 /\ nb_base build2 mod nb_align build2 = 0 /\ arena_free build2 ram1 /\ variables_apart 8 (fun _ => env1) some some ram1 /\
  (forall i, Forall (hop_fine (some i) (some i)) (duo i)) /\ (forall i, exists x, hclient_run hclient_start (duo i) = Fine x) /\
  match nsys_run Release 64 8 Big build2 (fun _ => env1) (fun _ _ _ => 0) first_part (nsys_start ram1 duo) with
  | Ret sys =>
      (nt_hung (ns_thread sys 1), nt_todo (ns_thread sys 1), map (fun i => news (nt_todo (ns_thread sys i))) [0; 1]%nat) = (true, again, [1; 1]%nat) /\
      match nsys_run Release 64 8 Big build2 (fun _ => env1) (fun _ _ _ => 0) second_part sys with
      | Ret sys' => map (fun i => (length (nt_todo (ns_thread sys' i)), news (nt_todo (ns_thread sys' i)))) [0; 1]%nat = [(1, 1); (3, 1)]%nat
      | _ => False
      end
  | _ => False
  end.
Proof.
  split; [apply build2_ok|]. split; [reflexivity|]. split; [apply arena2_free|]. split; [apply some_variables|]. split; [apply duo_fine|]. split; [apply duo_runs|].
  vm_compute. auto.
Qed.

(** C82: where all that the threads will ever ask for, with the most that alignment can cost, fits into the arena, no order of the calls makes a
    thread hang: every thread gets all its results. *)
Theorem c82_enough : forall P U A E b envs n k pads programs m schedule threads, In A word_alignments -> 18 < U -> build_ok U A b -> nb_base b mod nb_align b = 0 ->
  arena_free b m -> variables_apart A envs n k m -> (forall i, Forall (hop_fine (n i) (k i)) (programs i)) ->
  (forall i, exists x, hclient_run hclient_start (programs i) = Fine x) ->
  nb_align b <= 4096 -> NoDup threads -> incl schedule threads -> spend_all b programs threads <= 128 * 1024 ->
  exists sys, nsys_run P U A E b envs pads schedule (nsys_start m programs) = Ret sys /\
    forall i, nt_hung (ns_thread sys i) = false /\ nt_todo (ns_thread sys i) = skipn (on_turn i schedule) (programs i) /\
      exists st, hclient_run hclient_start (firstn (on_turn i schedule) (programs i)) = Fine (st, nt_results (ns_thread sys i)).
Proof. exact c82_enough_pf. Qed.
Print Assumptions c82_enough.
Example c82_enough_ex :
  build_ok 64 8 build1 /\ nb_base build1 mod nb_align build1 = 0 /\ arena_free build1 ram1 /\ variables_apart 8 (fun _ => env1) some some ram1 /\
  (forall i, Forall (hop_fine (some i) (some i)) (pair i)) /\ (forall i, exists x, hclient_run hclient_start (pair i) = Fine x) /\
  NoDup [0; 1]%nat /\ incl (in_turn 13) [0; 1]%nat /\ nb_align build1 = 8 /\ spend_all build1 pair [0; 1]%nat = 3947 /\
  match expected 2 (a_turns build1 (in_turn 13) (a_start pair)) with
  | Some (rem, [(rs, 0%nat, false); (rs', 0%nat, false)]) => rem = 127160 /\ length rs = 13%nat /\ rs' = [CNothing; CBool true; CNothing; CNothing; CBool true; CNothing; CNothing; CBool true; CNothing]
  | _ => False
  end.
Proof.
  split; [apply build1_ok|]. split; [reflexivity|]. split; [apply arena1_free|]. split; [apply some_variables|]. split; [apply pair_fine|]. split; [apply pair_runs|].
  split; [repeat constructor; cbn; intuition discriminate|]. split; [|vm_compute; auto]. intros x J. cbn [in_turn app] in J. repeat (destruct J as [<-|J]; [cbn; auto|]). destruct J.
Qed.

(** C82 (full statement refuted): it is not so that which threads hang is settled by what each of them does. Five threads that create one
    position each and make one move in it all come to their end when the positions are created first. Thread after thread, the same calls
    make the last one hang: rounding down to the alignment of [Position] after each list of moves costs more. *)
Theorem c82_order_refuted : ~ (forall P U A E b envs n k pads programs m schedule schedule' sys sys', In A word_alignments -> 18 < U -> build_ok U A b ->
  nb_base b mod nb_align b = 0 -> arena_free b m -> variables_apart A envs n k m -> (forall i, Forall (hop_fine (n i) (k i)) (programs i)) ->
  (forall i, exists x, hclient_run hclient_start (programs i) = Fine x) -> (forall i, on_turn i schedule = on_turn i schedule') ->
  nsys_run P U A E b envs pads schedule (nsys_start m programs) = Ret sys -> nsys_run P U A E b envs pads schedule' (nsys_start m programs) = Ret sys' ->
  forall i, nt_hung (ns_thread sys i) = nt_hung (ns_thread sys' i)).
Proof. exact c82_order_refuted_pf. Qed.
Print Assumptions c82_order_refuted.
Example c82_order_refuted_ex :
  build_ok 64 8 build3 /\ (forall i, on_turn i by_kind = on_turn i by_thread) /\
  expected 5 (a_turns build3 by_kind (a_start five)) = Some (12, repeat ([CNothing; CBool true], 0%nat, false) 5) /\
  expected 5 (a_turns build3 by_thread (a_start five)) =
    Some (8, repeat ([CNothing; CBool true], 0%nat, false) 4 ++ [([CNothing], 1%nat, true)]).
Proof.
  split; [apply build3_ok|]. split; [|vm_compute; auto]. intros i. do 5 (destruct i as [|i]; [reflexivity|]). reflexivity.
Qed.
