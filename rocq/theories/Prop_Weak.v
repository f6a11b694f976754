(** Property theorems C84: threads linked with the no-std library on weakly ordered memory *)
From Verif Require Import TWeak.
From Verif Require Import LSampleE.

(** C84: C83 holds for threads that may read any old value of [remaining] they have not seen a newer one of: no undefined behaviour, and all
    is as if the calls happened at once, in the order in which they get their memory, find that there is none or come back without asking. *)
Theorem c84_atomic : forall P U A E b envs n k pads programs m cs, In A word_alignments -> 18 < U -> build_ok U A b -> nb_base b mod nb_align b = 0 ->
  arena_free b m -> variables_apart A envs n k m -> (forall i, Forall (hop_fine (n i) (k i)) (programs i)) ->
  (forall i, exists x, hclient_run hclient_start (programs i) = Fine x) ->
  exists ws s, w_run P U A E b envs pads cs (w_start m programs) = Ret ws /\
    a_turns b (w_effects P U A E b envs pads cs (w_start m programs)) (a_start programs) = Fine s /\
    let sys := ws_sys ws in
    descending (ws_log ws) /\ last (ws_log ws) 0 = fs_rem sys /\ fs_rem sys = as_rem s /\
    (forall i, stands A E b (envs i) (n i) (k i) (fs_mem sys) (fs_thread sys i) (as_thread s i)) /\
    (forall i j y, i <> j -> holds A b (envs i) (n i) (k i) (fs_thread sys i) y -> ~ holds A b (envs j) (n j) (k j) (fs_thread sys j) y) /\
    (forall y, (forall i, ~ owns A b (envs i) (n i) (k i) (ft_world (fs_thread sys i)) y) -> fs_mem sys y = m y).
Proof. exact c84_atomic_pf. Qed.
Print Assumptions c84_atomic.
Example c84_atomic_ex :
  In 8 word_alignments /\ build_ok 64 8 build2 /\ nb_base build2 mod nb_align build2 = 0 /\ arena_free build2 ram1 /\ variables_apart 8 (fun _ => env1) some some ram1 /\
  (forall i, Forall (hop_fine (some i) (some i)) (duo i)) /\ (forall i, exists x, hclient_run hclient_start (duo i) = Fine x) /\
  map (fun n => has_read 0 (w_duo (firstn n old))) [3; 4; 5]%nat = [Some 131072; Some 131072; Some 71072] /\ has_read 1 (w_duo old) = Some 71072 /\
  w_seen 2 (w_duo (old ++ later)) =
    Some ([131072; 71072; 11072; 11056], Some (11056, [([CNothing], 6%nat, 0); ([CNothing; CBool true], 4%nat, 0)])) /\
  w_effects Release 64 8 Little build2 (fun _ => env1) (fun _ _ _ => 0) old (w_start ram1 duo) = [1; 0]%nat /\
  expected 2 (a_turns build2 [1; 0; 1]%nat (a_start duo)) = Some (11056, [([CNothing], 6%nat, false); ([CNothing; CBool true], 4%nat, false)]).
Proof.
  split; [cbn; auto|]. split; [apply build2_ok|]. split; [reflexivity|]. split; [apply arena2_free|]. split; [apply some_variables|]. split; [apply duo_fine|]. split; [apply duo_runs|].
  vm_compute. auto.
Qed.

(** C84: no byte is ever used by two threads, at whatever moments: what one thread holds at some time no other ever holds later. With
    [c84_footprint] there is no data race, whatever the order in which threads see each other's writes. *)
Theorem c84_private : forall P U A E b envs n k pads programs m cs later ws ws' i j y, In A word_alignments -> 18 < U -> build_ok U A b -> nb_base b mod nb_align b = 0 ->
  arena_free b m -> variables_apart A envs n k m -> (forall i, Forall (hop_fine (n i) (k i)) (programs i)) ->
  (forall i, exists x, hclient_run hclient_start (programs i) = Fine x) ->
  w_run P U A E b envs pads cs (w_start m programs) = Ret ws -> w_run P U A E b envs pads later ws = Ret ws' -> i <> j ->
  holds A b (envs i) (n i) (k i) (fs_thread (ws_sys ws) i) y -> ~ holds A b (envs j) (n j) (k j) (fs_thread (ws_sys ws') j) y.
Proof. exact c84_private_pf. Qed.
Print Assumptions c84_private.
Example c84_private_ex :
  build_ok 64 8 build2 /\ nb_base build2 mod nb_align build2 = 0 /\ arena_free build2 ram1 /\ variables_apart 8 (fun _ => env1) some some ram1 /\
  (forall i, Forall (hop_fine (some i) (some i)) (duo i)) /\ (forall i, exists x, hclient_run hclient_start (duo i) = Fine x) /\
  match w_duo (firstn 6 old) with
  | Ret ws =>
      holds 8 build2 env1 2 2 (fs_thread (ws_sys ws) 0%nat) (nb_base build2 + 11072) /\ holds 8 build2 env1 0 0 (fs_thread (ws_sys ws) 1%nat) (nb_base build2 + 71072) /\
      match w_run Release 64 8 Little build2 (fun _ => env1) (fun _ _ _ => 0) (skipn 6 old) ws with Ret ws' => f_seen 2 (Ret (ws_sys ws')) = Some (11072, [([], 7%nat, 2); ([CNothing], 5%nat, 1)]) | _ => False end
  | _ => False
  end.
Proof.
  split; [apply build2_ok|]. split; [reflexivity|]. split; [apply arena2_free|]. split; [apply some_variables|]. split; [apply duo_fine|]. split; [apply duo_runs|].
  assert (K : match w_duo (firstn 6 old) with
    | Ret ws => reserved build2 (fs_thread (ws_sys ws) 0%nat) (nb_base build2 + 11072) /\ reserved build2 (fs_thread (ws_sys ws) 1%nat) (nb_base build2 + 71072) /\
        match w_run Release 64 8 Little build2 (fun _ => env1) (fun _ _ _ => 0) (skipn 6 old) ws with Ret ws' => f_seen 2 (Ret (ws_sys ws')) = Some (11072, [([], 7%nat, 2); ([CNothing], 5%nat, 1)]) | _ => False end
    | _ => False end) by (vm_compute; repeat split; discriminate).
  destruct (w_duo (firstn 6 old)) as [ws| |]; try exact K. destruct K as (K1 & K2 & K3). split; [right; exact K1|]. split; [right; exact K2|exact K3].
Qed.

(** C84: a step of a thread uses only what the thread holds. If the blocks of all other threads are taken out of memory and the memory outside
    the arena that is not its own is changed in any way, the step still has no undefined behaviour and ends the same calls with the same
    results. It changes no byte that the thread does not own before or after the step, and what it holds more afterwards was free. *)
Theorem c84_footprint : forall P U A E b envs n k pads programs m cs ws i spurious m', In A word_alignments -> 18 < U -> build_ok U A b -> nb_base b mod nb_align b = 0 ->
  arena_free b m -> variables_apart A envs n k m -> (forall i, Forall (hop_fine (n i) (k i)) (programs i)) ->
  (forall i, exists x, hclient_run hclient_start (programs i) = Fine x) -> w_run P U A E b envs pads cs (w_start m programs) = Ret ws ->
  let sys := ws_sys ws in only A b (envs i) (n i) (k i) (fs_thread sys i) (fs_mem sys) m' ->
  exists sys1 sys2, f_step P U A E b envs pads i spurious sys = Ret sys1 /\ f_step P U A E b envs pads i spurious (FSystem m' (fs_rem sys) (fs_thread sys)) = Ret sys2 /\
    ft_todo (fs_thread sys1 i) = ft_todo (fs_thread sys2 i) /\ ft_results (fs_thread sys1 i) = ft_results (fs_thread sys2 i) /\
    (forall y, ~ owns A b (envs i) (n i) (k i) (ft_world (fs_thread sys i)) y -> ~ owns A b (envs i) (n i) (k i) (ft_world (fs_thread sys1 i)) y -> fs_mem sys1 y = fs_mem sys y) /\
    (forall y, holds A b (envs i) (n i) (k i) (fs_thread sys1 i) y -> holds A b (envs i) (n i) (k i) (fs_thread sys i) y \/ in_region (nb_base b) (fs_rem sys) y).
Proof. exact c84_footprint_pf. Qed.
Print Assumptions c84_footprint.
Example c84_footprint_ex :
  build_ok 64 8 build2 /\ nb_base build2 mod nb_align build2 = 0 /\ arena_free build2 ram1 /\ variables_apart 8 (fun _ => env1) some some ram1 /\
  (forall i, Forall (hop_fine (some i) (some i)) (duo i)) /\ (forall i, exists x, hclient_run hclient_start (duo i) = Fine x) /\
  match w_duo (firstn 6 old ++ [WChoice 0 false 0]) with
  | Ret ws =>
      let sys := ws_sys ws in
      only 8 build2 env1 0 0 (fs_thread sys 1%nat) (fs_mem sys) (fun _ => None) /\
      f_seen 2 (f_step Release 64 8 Little build2 (fun _ => env1) (fun _ _ _ => 0) 1 false sys) = Some (11072, [([CNothing], 6%nat, 0); ([CNothing], 5%nat, 0)]) /\
      f_seen 2 (f_step Release 64 8 Little build2 (fun _ => env1) (fun _ _ _ => 0) 1 false (FSystem (fun _ => None) (fs_rem sys) (fs_thread sys))) =
        Some (11072, [([CNothing], 6%nat, 0); ([CNothing], 5%nat, 0)])
  | _ => False
  end.
Proof.
  split; [apply build2_ok|]. split; [reflexivity|]. split; [apply arena2_free|]. split; [apply some_variables|]. split; [apply duo_fine|]. split; [apply duo_runs|].
  assert (K : match w_duo (firstn 6 old ++ [WChoice 0 false 0]) with
    | Ret ws => ft_world (fs_thread (ws_sys ws) 1%nat) = n_start ram1 /\
        f_seen 2 (f_step Release 64 8 Little build2 (fun _ => env1) (fun _ _ _ => 0) 1 false (ws_sys ws)) = Some (11072, [([CNothing], 6%nat, 0); ([CNothing], 5%nat, 0)]) /\
        f_seen 2 (f_step Release 64 8 Little build2 (fun _ => env1) (fun _ _ _ => 0) 1 false (FSystem (fun _ => None) (fs_rem (ws_sys ws)) (fs_thread (ws_sys ws)))) =
          Some (11072, [([CNothing], 6%nat, 0); ([CNothing], 5%nat, 0)])
    | _ => False end) by (vm_compute; auto).
  destruct (w_duo (firstn 6 old ++ [WChoice 0 false 0])) as [ws| |]; try exact K. destruct K as (K1 & K2 & K3). split; [|auto]. split; [|auto]. rewrite K1.
  intros y [(id & a & ms & L & _)|[(id & L & _)|([i|t] & K & _)]]; [discriminate L|elim L; reflexivity|cbn in K; lia|cbn in K; lia].
Qed.

(** C84: where every load reads the newest value the machine is that of C83: the weak runs include those of the code with [SeqCst]. *)
Theorem c84_newest : forall P U A E b envs n k pads programs m cs, In A word_alignments -> 18 < U -> build_ok U A b -> nb_base b mod nb_align b = 0 ->
  arena_free b m -> variables_apart A envs n k m -> (forall i, Forall (hop_fine (n i) (k i)) (programs i)) ->
  (forall i, exists x, hclient_run hclient_start (programs i) = Fine x) ->
  exists ws sys, w_run P U A E b envs pads (map (fun c => WChoice (fst c) (snd c) (length cs)) cs) (w_start m programs) = Ret ws /\
    f_run P U A E b envs pads cs (f_start m programs) = Ret sys /\ same_system (ws_sys ws) sys.
Proof. exact c84_newest_pf. Qed.
Print Assumptions c84_newest.
Example c84_newest_ex :
  build_ok 64 8 build2 /\ nb_base build2 mod nb_align build2 = 0 /\ arena_free build2 ram1 /\ variables_apart 8 (fun _ => env1) some some ram1 /\
  (forall i, Forall (hop_fine (some i) (some i)) (duo i)) /\ (forall i, exists x, hclient_run hclient_start (duo i) = Fine x) /\
  let cs := [step0; step1; step1; step0; step0] in
  w_seen 2 (w_duo (map (fun c => WChoice (fst c) (snd c) (length cs)) cs)) = Some ([131072; 71072; 11072], Some (11072, [([], 7%nat, 2); ([], 6%nat, 2)])) /\
  f_seen 2 (f_run Release 64 8 Little build2 (fun _ => env1) (fun _ _ _ => 0) cs (f_start ram1 duo)) = Some (11072, [([], 7%nat, 2); ([], 6%nat, 2)]).
Proof.
  split; [apply build2_ok|]. split; [reflexivity|]. split; [apply arena2_free|]. split; [apply some_variables|]. split; [apply duo_fine|]. split; [apply duo_runs|].
  vm_compute. auto.
Qed.

(** C84: no thread waits for another on weakly ordered memory either. Wherever the threads have been interrupted, as many steps of one of them
    as there are values in the log, and two more, bring it to the end of a call, whatever old values it reads, or it hangs because there is no
    memory; provided that [compare_exchange_weak] does not fail for no reason. *)
Theorem c84_progress : forall P U A E b envs n k pads programs m cs ws i places, In A word_alignments -> 18 < U -> build_ok U A b -> nb_base b mod nb_align b = 0 ->
  arena_free b m -> variables_apart A envs n k m -> (forall i, Forall (hop_fine (n i) (k i)) (programs i)) ->
  (forall i, exists x, hclient_run hclient_start (programs i) = Fine x) -> w_run P U A E b envs pads cs (w_start m programs) = Ret ws ->
  length places = (length (ws_log ws) + 2)%nat ->
  exists ws', w_run P U A E b envs pads (map (WChoice i false) places) ws = Ret ws' /\
    (ft_todo (fs_thread (ws_sys ws) i) = [] \/ ft_phase (fs_thread (ws_sys ws') i) = FHung \/
     (length (ft_results (fs_thread (ws_sys ws) i)) < length (ft_results (fs_thread (ws_sys ws') i)))%nat).
Proof. exact c84_progress_pf. Qed.
Print Assumptions c84_progress.
Example c84_progress_ex :
  let run cs := w_run Release 64 8 Little build1 (fun _ => env1) (fun _ _ _ => 0) cs (w_start ram1 five) in
  build_ok 64 8 build1 /\ nb_base build1 mod nb_align build1 = 0 /\ arena_free build1 ram1 /\ variables_apart 8 (fun _ => env1) (fun _ => 0%nat) (fun _ => 0%nat) ram1 /\
  (forall i, Forall (hop_fine 0 0) (five i)) /\ (forall i, exists x, hclient_run hclient_start (five i) = Fine x) /\
  w_seen 1 (run behind) = Some ([131072; 130312; 129552; 128792], Some (128792, [([], 2%nat, 1)])) /\
  map (fun q => has_read 0 (run (behind ++ firstn q (map (WChoice 0 false) [1; 2; 3; 0; 0; 0]%nat)))) [0; 1; 2; 3; 4]%nat = [Some 131072; Some 130312; Some 129552; Some 128792; None] /\
  w_seen 1 (run (behind ++ map (WChoice 0 false) [1; 2; 3; 0; 0; 0]%nat)) = Some ([131072; 130312; 129552; 128792; 128032], Some (128032, [([CNothing], 1%nat, 1)])).
Proof.
  split; [apply build1_ok|]. split; [reflexivity|]. split; [apply arena1_free|]. split; [apply no_variables|]. split; [apply five_fine|]. split; [apply five_runs|].
  vm_compute. auto.
Qed.

(** C84 (full statement refuted): the three steps that are enough for threads that always read the newest value (C83) are not enough here. A
    thread that has loaded before two others took memory reads one new value after the other. *)
Theorem c84_three_refuted : ~ (forall P U A E b envs n k pads programs m cs ws i places, In A word_alignments -> 18 < U -> build_ok U A b -> nb_base b mod nb_align b = 0 ->
  arena_free b m -> variables_apart A envs n k m -> (forall i, Forall (hop_fine (n i) (k i)) (programs i)) ->
  (forall i, exists x, hclient_run hclient_start (programs i) = Fine x) -> w_run P U A E b envs pads cs (w_start m programs) = Ret ws ->
  length places = 3%nat ->
  exists ws', w_run P U A E b envs pads (map (WChoice i false) places) ws = Ret ws' /\
    (ft_todo (fs_thread (ws_sys ws) i) = [] \/ ft_phase (fs_thread (ws_sys ws') i) = FHung \/
     (length (ft_results (fs_thread (ws_sys ws) i)) < length (ft_results (fs_thread (ws_sys ws') i)))%nat)).
Proof. exact c84_three_refuted_pf. Qed.
Print Assumptions c84_three_refuted.
Example c84_three_refuted_ex :
  let run cs := w_run Release 64 8 Little build1 (fun _ => env1) (fun _ _ _ => 0) cs (w_start ram1 five) in
  build_ok 64 8 build1 /\ w_seen 1 (run (behind ++ map (WChoice 0 false) [1; 2; 3]%nat)) = Some ([131072; 130312; 129552; 128792], Some (128792, [([], 2%nat, 1)])) /\
  w_seen 1 (run (behind ++ map (WChoice 0 false) [3; 0; 0]%nat)) = Some ([131072; 130312; 129552; 128792; 128032], Some (128032, [([CNothing], 1%nat, 0)])).
Proof. split; [apply build1_ok|]. vm_compute. auto. Qed.
