(** Property theorems C83: threads linked with the no-std library, interrupted inside their calls *)
From Verif Require Import TNoFine.
From Verif Require Import LSampleF.

(** C83: the threads of C82 may be interrupted inside their calls, before every [compare_exchange_weak] of the allocator and after the last
    one, and it may fail for no reason: they still have no undefined behaviour. A thread whose call has come back has what it would have if
    the calls happened at once, one after the other, in the order in which they get their memory, find that there is none or come back
    without asking; and so does what is left in the arena. No two threads hold a byte in common, counting blocks that are handed out and not yet
    used, and memory that belongs to nobody does not change. *)
Theorem c83_atomic : forall P U A E b envs n k pads programs m cs, In A word_alignments -> 18 < U -> build_ok U A b -> nb_base b mod nb_align b = 0 ->
  arena_free b m -> variables_apart A envs n k m -> (forall i, Forall (hop_fine (n i) (k i)) (programs i)) ->
  (forall i, exists x, hclient_run hclient_start (programs i) = Fine x) ->
  exists sys s, f_run P U A E b envs pads cs (f_start m programs) = Ret sys /\
    a_turns b (effects P U A E b envs pads cs (f_start m programs)) (a_start programs) = Fine s /\ fs_rem sys = as_rem s /\
    (forall i, stands A E b (envs i) (n i) (k i) (fs_mem sys) (fs_thread sys i) (as_thread s i)) /\
    (forall i j y, i <> j -> holds A b (envs i) (n i) (k i) (fs_thread sys i) y -> ~ holds A b (envs j) (n j) (k j) (fs_thread sys j) y) /\
    (forall y, (forall i, ~ owns A b (envs i) (n i) (k i) (ft_world (fs_thread sys i)) y) -> fs_mem sys y = m y).
Proof. exact c83_atomic_pf. Qed.
Print Assumptions c83_atomic.
Example c83_atomic_ex :
  let cs := firstn 11 mixed in
  let order := effects Release 64 8 Little build2 (fun _ => env1) (fun _ _ _ => 0) cs (f_start ram1 duo) in
  In 8 word_alignments /\ build_ok 64 8 build2 /\ nb_base build2 mod nb_align build2 = 0 /\ arena_free build2 ram1 /\ variables_apart 8 (fun _ => env1) some some ram1 /\
  (forall i, Forall (hop_fine (some i) (some i)) (duo i)) /\ (forall i, exists x, hclient_run hclient_start (duo i) = Fine x) /\
  f_seen 2 (f_run Release 64 8 Little build2 (fun _ => env1) (fun _ _ _ => 0) cs (f_start ram1 duo)) =
    Some (11056, [([], 7%nat, 2); ([CNothing; CBool true], 4%nat, 0)]) /\
  order = [1; 0; 1]%nat /\
  expected 2 (a_turns build2 order (a_start duo)) = Some (11056, [([CNothing], 6%nat, false); ([CNothing; CBool true], 4%nat, false)]).
Proof.
  split; [cbn; auto|]. split; [apply build2_ok|]. split; [reflexivity|]. split; [apply arena2_free|]. split; [apply some_variables|]. split; [apply duo_fine|]. split; [apply duo_runs|].
  vm_compute. auto.
Qed.

(** C83: the same against the threads of C82 whose calls happen at once: they run in the order in which the calls of the interrupted threads
    take effect, what is left in the arena is the same, and every thread that is not inside a call, or hangs, has made the same calls with the
    same results; one that waits for memory has not made its call there and does not hang, and one that has got it has made it. *)
Theorem c83_calls : forall P U A E b envs n k pads programs m cs, In A word_alignments -> 18 < U -> build_ok U A b -> nb_base b mod nb_align b = 0 ->
  arena_free b m -> variables_apart A envs n k m -> (forall i, Forall (hop_fine (n i) (k i)) (programs i)) ->
  (forall i, exists x, hclient_run hclient_start (programs i) = Fine x) ->
  exists sys whole, f_run P U A E b envs pads cs (f_start m programs) = Ret sys /\
    nsys_run P U A E b envs pads (effects P U A E b envs pads cs (f_start m programs)) (nsys_start m programs) = Ret whole /\ fs_rem sys = ns_rem whole /\
    forall i, let t := fs_thread sys i in let t' := ns_thread whole i in
      nt_hung t' = (match ft_phase t with FHung => true | _ => false end) /\
      if got_block t then exists o r, ft_todo t = o :: nt_todo t' /\ nt_results t' = ft_results t ++ [r]
      else ft_todo t = nt_todo t' /\ ft_results t = nt_results t'.
Proof. exact c83_calls_pf. Qed.
Print Assumptions c83_calls.
Example c83_calls_ex :
  let order := effects Release 64 8 Little build2 (fun _ => env1) (fun _ _ _ => 0) (firstn 9 mixed) (f_start ram1 duo) in
  build_ok 64 8 build2 /\ nb_base build2 mod nb_align build2 = 0 /\ arena_free build2 ram1 /\ variables_apart 8 (fun _ => env1) some some ram1 /\
  (forall i, Forall (hop_fine (some i) (some i)) (duo i)) /\ (forall i, exists x, hclient_run hclient_start (duo i) = Fine x) /\
  order = [1; 0]%nat /\
  f_seen 2 (f_run Release 64 8 Little build2 (fun _ => env1) (fun _ _ _ => 0) (firstn 9 mixed) (f_start ram1 duo)) = Some (11072, [([], 7%nat, 2); ([CNothing], 5%nat, 1)]) /\
  seen 2 (nsys_run Release 64 8 Little build2 (fun _ => env1) (fun _ _ _ => 0) order (nsys_start ram1 duo)) = Some (11072, [([CNothing], 6%nat, false); ([CNothing], 5%nat, false)]).
Proof.
  split; [apply build2_ok|]. split; [reflexivity|]. split; [apply arena2_free|]. split; [apply some_variables|]. split; [apply duo_fine|]. split; [apply duo_runs|].
  vm_compute. auto.
Qed.

(** C83: a thread has at any moment the results of the first calls of its program when it runs alone, and memory shows its state. Inside a call
    it shows the state before the call, but for the move that [Position_make_compact_move] has made in the position and not added to the
    list; a thread that has got its block and not used it has it to itself, at the right alignment, inside the arena and above what is left. *)
Theorem c83_alone : forall P U A E b envs n k pads programs m cs, In A word_alignments -> 18 < U -> build_ok U A b -> nb_base b mod nb_align b = 0 ->
  arena_free b m -> variables_apart A envs n k m -> (forall i, Forall (hop_fine (n i) (k i)) (programs i)) ->
  (forall i, exists x, hclient_run hclient_start (programs i) = Fine x) ->
  exists sys, f_run P U A E b envs pads cs (f_start m programs) = Ret sys /\
    forall i, let t := fs_thread sys i in
      exists done st, hclient_run hclient_start (firstn done (programs i)) = Fine (st, ft_results t) /\ ft_todo t = skipn done (programs i) /\
        match ft_phase t with
        | FReady => thread_shows A E b (envs i) (n i) (k i) (fs_mem sys) (ft_world t) st
        | FHung => exists o rest, ft_todo t = o :: rest /\ granted (snd (serial_run (fs_rem sys) (op_requests b st o))) = false /\
            thread_shows A E b (envs i) (n i) (k i) (fs_mem sys) (ft_world t) (left_state st o)
        | FAsking _ l _ prev _ => exists o rest, ft_todo t = o :: rest /\ op_requests b st o = [l] /\ fs_rem sys <= prev /\
            thread_shows A E b (envs i) (n i) (k i) (fs_mem sys) (ft_world t) (left_state st o)
        | FServed _ l off => exists o rest, ft_todo t = o :: rest /\ op_requests b st o = [l] /\
            fs_rem sys <= off /\ off + l_size l <= 128 * 1024 /\ off mod l_align l = 0 /\
            (forall y, in_region (nb_base b + off) (l_size l) y -> ~ owns A b (envs i) (n i) (k i) (ft_world t) y /\ fs_mem sys y = m y) /\
            thread_shows A E b (envs i) (n i) (k i) (fs_mem sys) (ft_world t) (left_state st o)
        end.
Proof. exact c83_alone_pf. Qed.
Print Assumptions c83_alone.
Example c83_alone_ex :
  let run := f_run Debug 64 8 Big build2 (fun _ => env1) (fun _ _ _ => 0) mixed (f_start ram1 duo) in
  build_ok 64 8 build2 /\ nb_base build2 mod nb_align build2 = 0 /\ arena_free build2 ram1 /\ variables_apart 8 (fun _ => env1) some some ram1 /\
  (forall i, Forall (hop_fine (some i) (some i)) (duo i)) /\ (forall i, exists x, hclient_run hclient_start (duo i) = Fine x) /\
  f_seen 2 run = Some (11056, [([], 7%nat, 2); ([CNothing; CBool true; CNothing], 3%nat, 0)]) /\
  unused build2 0 run = Some (11072, None, None) /\ op_requests build2 hclient_start (HNew 0) = [Layout 60000 8] /\
  match hclient_run hclient_start (firstn 3 (duo 1)) with Fine (_, rs) => rs = [CNothing; CBool true; CNothing] | _ => False end.
Proof.
  split; [apply build2_ok|]. split; [reflexivity|]. split; [apply arena2_free|]. split; [apply some_variables|]. split; [apply duo_fine|]. split; [apply duo_runs|].
  vm_compute. auto.
Qed.

(** C83: where all that the threads will ever ask for, with the most that alignment can cost, fits into the arena, no thread hangs however
    they are interrupted and however often [compare_exchange_weak] fails. *)
Theorem c83_enough : forall P U A E b envs n k pads programs m cs threads, In A word_alignments -> 18 < U -> build_ok U A b -> nb_base b mod nb_align b = 0 ->
  arena_free b m -> variables_apart A envs n k m -> (forall i, Forall (hop_fine (n i) (k i)) (programs i)) ->
  (forall i, exists x, hclient_run hclient_start (programs i) = Fine x) ->
  nb_align b <= 4096 -> NoDup threads -> incl (map fst cs) threads -> spend_all b programs threads <= 128 * 1024 ->
  exists sys, f_run P U A E b envs pads cs (f_start m programs) = Ret sys /\ forall i, ft_phase (fs_thread sys i) <> FHung.
Proof. exact c83_enough_pf. Qed.
Print Assumptions c83_enough.
Example c83_enough_ex :
  build_ok 64 8 build1 /\ nb_base build1 mod nb_align build1 = 0 /\ arena_free build1 ram1 /\ variables_apart 8 (fun _ => env1) some some ram1 /\
  (forall i, Forall (hop_fine (some i) (some i)) (pair i)) /\ (forall i, exists x, hclient_run hclient_start (pair i) = Fine x) /\
  NoDup [0; 1]%nat /\ incl (map fst (alternate 7)) [0; 1]%nat /\ nb_align build1 = 8 /\ spend_all build1 pair [0; 1]%nat = 3947 /\
  f_seen 2 (f_run Release 64 8 Little build1 (fun _ => env1) (fun _ _ _ => 0) (alternate 4) (f_start ram1 pair)) = Some (129552, [([CNothing], 12%nat, 1); ([CNothing], 8%nat, 0)]).
Proof.
  split; [apply build1_ok|]. split; [reflexivity|]. split; [apply arena1_free|]. split; [apply some_variables|]. split; [apply pair_fine|]. split; [apply pair_runs|].
  split; [repeat constructor; cbn; intuition discriminate|]. split; [|vm_compute; auto]. intros x J. cbn [alternate app map fst step0 step1] in J. repeat (destruct J as [<-|J]; [cbn; auto|]). destruct J.
Qed.

(** C83: no thread waits for another. Wherever the threads have been interrupted, three steps of one of them without the others, in which
    [compare_exchange_weak] does not fail for no reason, bring it to the end of a call, or it hangs because there is no memory. *)
Theorem c83_progress : forall P U A E b envs n k pads programs m cs sys i, In A word_alignments -> 18 < U -> build_ok U A b -> nb_base b mod nb_align b = 0 ->
  arena_free b m -> variables_apart A envs n k m -> (forall i, Forall (hop_fine (n i) (k i)) (programs i)) ->
  (forall i, exists x, hclient_run hclient_start (programs i) = Fine x) -> f_run P U A E b envs pads cs (f_start m programs) = Ret sys ->
  exists sys', f_run P U A E b envs pads [(i, false); (i, false); (i, false)] sys = Ret sys' /\
    (ft_todo (fs_thread sys i) = [] \/ ft_phase (fs_thread sys' i) = FHung \/ (length (ft_results (fs_thread sys i)) < length (ft_results (fs_thread sys' i)))%nat).
Proof. exact c83_progress_pf. Qed.
Print Assumptions c83_progress.
Example c83_progress_ex :
  build_ok 64 8 build2 /\ nb_base build2 mod nb_align build2 = 0 /\ arena_free build2 ram1 /\ variables_apart 8 (fun _ => env1) some some ram1 /\
  (forall i, Forall (hop_fine (some i) (some i)) (duo i)) /\ (forall i, exists x, hclient_run hclient_start (duo i) = Fine x) /\
  match f_run Release 64 8 Little build2 (fun _ => env1) (fun _ _ _ => 0) [step0; step1; step1] (f_start ram1 duo) with
  | Ret sys =>
      f_seen 2 (Ret sys) = Some (71072, [([], 7%nat, 1); ([], 6%nat, 2)]) /\
      f_seen 2 (f_run Release 64 8 Little build2 (fun _ => env1) (fun _ _ _ => 0) [step0; step0] sys) = Some (11072, [([], 7%nat, 2); ([], 6%nat, 2)]) /\
      f_seen 2 (f_run Release 64 8 Little build2 (fun _ => env1) (fun _ _ _ => 0) [step0; step0; step0] sys) = Some (11072, [([CNothing], 6%nat, 0); ([], 6%nat, 2)])
  | _ => False
  end.
Proof.
  split; [apply build2_ok|]. split; [reflexivity|]. split; [apply arena2_free|]. split; [apply some_variables|]. split; [apply duo_fine|]. split; [apply duo_runs|].
  vm_compute. auto.
Qed.

(** C83 (full statement refuted): the thread that asked first is not always served first. Of two threads that create a position, with room for
    one, the one that had loaded [remaining] before the other began its call may be overtaken, and hangs. *)
Theorem c83_order_refuted : ~ (forall P U A E b envs n k pads programs m cs later sys sys' i j h h' rest rest', In A word_alignments -> 18 < U -> build_ok U A b ->
  nb_base b mod nb_align b = 0 -> arena_free b m -> variables_apart A envs n k m -> (forall i, Forall (hop_fine (n i) (k i)) (programs i)) ->
  (forall i, exists x, hclient_run hclient_start (programs i) = Fine x) -> f_run P U A E b envs pads cs (f_start m programs) = Ret sys ->
  asking (fs_thread sys i) = true -> ft_phase (fs_thread sys j) = FReady -> ft_todo (fs_thread sys i) = HNew h :: rest -> ft_todo (fs_thread sys j) = HNew h' :: rest' ->
  f_run P U A E b envs pads later sys = Ret sys' -> ft_phase (fs_thread sys' i) = FHung -> ft_results (fs_thread sys' j) = ft_results (fs_thread sys j)).
Proof. exact c83_order_refuted_pf. Qed.
Print Assumptions c83_order_refuted.
Example c83_order_refuted_ex :
  build_ok 64 8 build4 /\ five 0 = HNew 0 :: tl (five 0) /\ five 1 = HNew 0 :: tl (five 1) /\
  let run cs := f_seen 2 (f_run Release 64 8 Little build4 (fun _ => env1) (fun _ _ _ => 0) cs (f_start ram1 five)) in
  run [step0] = Some (131072, [([], 2%nat, 1); ([], 2%nat, 0)]) /\ run (step0 :: overtaken) = Some (8, [([], 2%nat, 3); ([CNothing], 1%nat, 0)]).
Proof. split; [apply build4_ok|]. vm_compute. auto. Qed.
