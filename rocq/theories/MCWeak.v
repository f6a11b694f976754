(** Model of the threads of [MCNoFine] on a machine with weakly ordered memory: a load of the atomic [remaining]
    (/repo/shogi_core_c/src/no_std.rs:67, 94-103) need not read its newest value. The values it has had are kept in a log, in the order of the
    successful exchanges. A load, or an exchange that fails, may read any of them that is not older than what the thread has read or written
    before; what an exchange that does not fail for no reason has then read is not the expected value. An exchange that succeeds has read the
    newest. That is all that C11 and Rust promise for [Relaxed]; the code asks for [SeqCst], which allows fewer runs. *)
From Verif Require Export MCNoFine.

(** [ws_seen i]: the place in the log up to which thread [i] has read *)
Record w_system := WSystem { ws_log : list N; ws_seen : nat -> nat; ws_sys : f_system }.
Definition w_start (m : mem) (programs : nat -> list h_op) : w_system := WSystem [ARENA_SIZE] (fun _ => 0%nat) (f_start m programs).
(** One step: the thread, whether its exchange fails for no reason, and the place in the log it reads from, the newest if that place is not
    allowed. [expected]: the value that an exchange which fails for a reason has not read. *)
Record w_choice := WChoice { wc_thread : nat; wc_spurious : bool; wc_place : nat }.
Definition w_expected (ph : f_phase) (spurious : bool) : option N := match ph, spurious with FAsking _ _ _ prev _, false => Some prev | _, _ => None end.
Definition w_place (log : list N) (seen : nat) (expected : option N) (j : nat) : nat :=
  if (Nat.leb seen j && Nat.ltb j (length log) && match expected with Some v => negb (nth j log 0 =? v) | None => true end)%bool then j else (length log - 1)%nat.
Definition w_see (seen : nat -> nat) (i j : nat) : nat -> nat := fun x => if Nat.eqb x i then j else seen x.
Definition with_phase (t : f_thread) (ph : f_phase) : f_thread := FThread (ft_todo t) (ft_world t) (ft_tick t) (ft_results t) ph.
Definition w_step (P : profile) (U A : N) (E : endian) (b : n_build) (envs : nat -> c_env) (pads : nat -> nat -> N -> N) (c : w_choice) (ws : w_system) : res w_system :=
  let i := wc_thread c in
  sys <- f_step P U A E b envs pads i (wc_spurious c) (ws_sys ws);;
  let t := fs_thread sys i in
  match ft_phase t with
  | FAsking p l mask _ allocated =>
      let j := w_place (ws_log ws) (ws_seen ws i) (w_expected (ft_phase (fs_thread (ws_sys ws) i)) (wc_spurious c)) (wc_place c) in
      let prev := nth j (ws_log ws) 0 in
      Ret (WSystem (ws_log ws) (w_see (ws_seen ws) i j)
             (FSystem (fs_mem sys) (fs_rem sys) (f_put (fs_thread sys) i (with_phase t (FAsking p l mask prev allocated)))))
  | FServed _ _ _ => Ret (WSystem (ws_log ws ++ [fs_rem sys]) (w_see (ws_seen ws) i (length (ws_log ws))) sys)
  | _ => Ret (WSystem (ws_log ws) (ws_seen ws) sys)
  end.
Fixpoint w_run (P : profile) (U A : N) (E : endian) (b : n_build) (envs : nat -> c_env) (pads : nat -> nat -> N -> N) (cs : list w_choice) (ws : w_system)
    : res w_system :=
  match cs with
  | [] => Ret ws
  | c :: rest => ws' <- w_step P U A E b envs pads c ws;; w_run P U A E b envs pads rest ws'
  end.
