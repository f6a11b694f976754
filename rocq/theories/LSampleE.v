(** Concrete runs on weakly ordered memory, used in the examples beside the theorems. *)
From Verif Require Export LSampleF SpecWeak.

(** both threads load the first value; thread 1 gets its position; thread 0 fails for no reason, reads the first value again, fails, and then reads the
    new one; thread 0 gets its position, and thread 1 reads the value it has written itself when it asks for its list of moves *)
Definition old : list w_choice :=
  [WChoice 0 false 0; WChoice 1 false 0; WChoice 1 false 0; WChoice 0 true 0; WChoice 0 false 0; WChoice 0 false 0; WChoice 1 false 0; WChoice 1 false 1].
Definition later : list w_choice := [WChoice 1 false 2; WChoice 0 false 0; WChoice 1 false 0; WChoice 1 false 0].
(** the log and what [f_seen] shows *)
Definition w_seen (n : nat) (x : res w_system) : option (list N * option (N * list (list c_result * nat * N))) :=
  match x with Ret ws => Some (ws_log ws, f_seen n (Ret (ws_sys ws))) | _ => None end.
(** which value a waiting thread has read *)
Definition has_read (i : nat) (x : res w_system) : option N :=
  match x with Ret ws => match ft_phase (fs_thread (ws_sys ws) i) with FAsking _ _ _ prev _ => Some prev | _ => None end | _ => None end.
Definition w_duo (cs : list w_choice) : res w_system := w_run Release 64 8 Little build2 (fun _ => env1) (fun _ _ _ => 0) cs (w_start ram1 duo).
(** thread 0 loads the first value, and then three others get their positions *)
Definition behind : list w_choice :=
  [WChoice 0 false 0; WChoice 1 false 0; WChoice 1 false 0; WChoice 2 false 1; WChoice 2 false 0; WChoice 3 false 2; WChoice 3 false 0].
