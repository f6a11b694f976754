(** Model of C programs with threads: each runs a program of [MCProgram] on its own variables and pointers, and all share the memory and
    the allocator. One call or one step of control is taken at a time, by whichever thread the schedule says. *)
From Verif Require Export MCProgram.

(** ** One step of a program: the statements still to be done, and the world *)
Definition t_step (P : profile) (A : N) (E : endian) (B : box_layout) (env : p_env) (allocs : nat -> mem -> option N) (pads : nat -> N -> N)
    (code : list c_stmt) (w : p_world) : res (list c_stmt * p_world) :=
  match code with
  | [] => Ret ([], w)
  | s :: rest =>
      match s with
      | SSkip => Ret (rest, w)
      | SValue o =>
          v <- v_step P A E (p_objects env) o (pw_values w);;
          Ret (rest, PWorld (with_mem (pw_heap w) (v_mem v)) (v_var v) (pw_tick w))
      | SCall x c =>
          '(h, v) <- p_step P A E B env (allocs (pw_tick w)) (pads (pw_tick w)) c w;;
          Ret (rest, set_pw_var (PWorld h (pw_var w) (S (pw_tick w))) x v)
      | SSet x a => v <- arg_value (p_objects env) (pw_values w) a;; Ret (rest, set_pw_var w x v)
      | SAdd x a b =>
          y <- number_value env w a;; z <- number_value env w b;; Ret (rest, set_pw_var w x (VInt (Z.to_N ((y + z) mod 256))))
      | SSeq s t => Ret (s :: t :: rest, w)
      | SIf c s t => b <- cond_value env w c;; Ret ((if b then s else t) :: rest, w)
      | SWhile c b => g <- cond_value env w c;; Ret (if (g : bool) then b :: SWhile c b :: rest else rest, w)
      end
  end.

(** ** Threads. The memory in [th_world] is what it was at the last step of the thread; [sy_mem] is the memory now. *)
Record thread := Thread { th_code : list c_stmt; th_world : p_world }.
Record system := System { sy_mem : mem; sy_thread : nat -> thread }.
Definition with_shared (m : mem) (w : p_world) : p_world := PWorld (with_mem (pw_heap w) m) (pw_var w) (pw_tick w).
Definition sys_start (m : mem) (programs : nat -> c_stmt) : system := System m (fun i => Thread [programs i] (p_start m)).
Definition sys_step (P : profile) (A : N) (E : endian) (B : box_layout) (envs : nat -> p_env) (allocs : nat -> nat -> mem -> option N) (pads : nat -> nat -> N -> N)
    (i : nat) (sys : system) : res system :=
  let t := sy_thread sys i in
  '(code, w) <- t_step P A E B (envs i) (allocs i) (pads i) (th_code t) (with_shared (sy_mem sys) (th_world t));;
  Ret (System (w_mem (pw_heap w)) (fun j => if Nat.eqb j i then Thread code w else sy_thread sys j)).
(** [schedule]: which thread takes the next step *)
Fixpoint sys_run (P : profile) (A : N) (E : endian) (B : box_layout) (envs : nat -> p_env) (allocs : nat -> nat -> mem -> option N) (pads : nat -> nat -> N -> N)
    (schedule : list nat) (sys : system) : res system :=
  match schedule with
  | [] => Ret sys
  | i :: rest => sys' <- sys_step P A E B envs allocs pads i sys;; sys_run P A E B envs allocs pads rest sys'
  end.
