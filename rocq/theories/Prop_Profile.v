(** Property theorems C80: what the overflow checks and the debug assertions of a build change *)
From Verif Require Import TProfile.
From Verif Require Import LSample LSampleR LSampleS.

(** C80: whatever arguments a function of the interface gets, valid or not, a build that checks more panics or does exactly what the
    build that checks less does, undefined behaviour included. *)
Theorem c80_calls : forall P Q, checks_more P Q -> forall a, In a the_api -> forall args, same_or_panic (a_fun a P args) (a_fun a Q args).
Proof. exact c80_calls_pf. Qed.
Print Assumptions c80_calls.
Example c80_calls_ex : (* [shift_down] by 64: each of the two makes it panic, without them it shifts by 0; a stray bit: only the debug assertions make [pop] panic *)
  checks_more Debug Checked /\ checks_more Asserting Release /\ ~ checks_more Checked Asserting /\ ~ checks_more Asserting Checked /\
  map (fun P => match bb_shift_down P (Bitboard 1 1) 64 with Ret b => Some (bb0 b) | Panic => None | UB => Some 0 end) [Debug; Checked; Asserting; Release] =
    [None; None; None; Some 1] /\
  map (fun P => match bb_pop P (Bitboard (2 ^ 63) 5) with Ret (_, Some s) => Some (sq_repr s) | _ => None end) [Debug; Checked; Asserting; Release] =
    [None; Some 63; None; Some 63] /\
  forallb (fun P => match sq_from_u8_unchecked 82 with UB => true | _ => false end) [Debug; Checked; Asserting; Release] = true.
Proof.
  split; [split; reflexivity|]. split; [split; [discriminate|discriminate]|]. split; [intros [_ H]; discriminate (H eq_refl)|]. split; [intros [H _]; discriminate (H eq_refl)|].
  repeat split; vm_compute; reflexivity.
Qed.

(** C80: the same for whole programs. *)
Theorem c80_programs : forall P Q lax ss, checks_more P Q ->
  execute lax P [] ss = Some Panic \/ execute lax P [] ss = execute lax Q [] ss.
Proof. exact c80_programs_pf. Qed.
Print Assumptions c80_programs.
Example c80_programs_ex : (* a program that leaves one of the safety conditions is not run at all; see C79 for those *)
  checks_more Asserting Release /\
  map (fun P => match execute true P [] [Literal (LU8 9); Literal (LU8 1); call "Square::new" [1%nat; 0%nat]; GetSome 0; call "Bitboard::single" [0%nat];
     Literal (LU8 1); call "Bitboard::shift_right" [1%nat; 0%nat]; call "Bitboard::pop" [0%nat]; GetSnd 0] with
     | Some (Ret (Val (TOpt TSquare) (Some s) :: _)) => Some (sq_repr s) | Some Panic => Some 0 | _ => None end)
     [Debug; Asserting; Checked; Release] = [Some 0; Some 0; Some 63; Some 63].
Proof. split; [split; discriminate|]. vm_compute. reflexivity. Qed.

(** C80: the overflow checks change no program that respects the documented safety conditions. *)
Theorem c80_overflow_checks : forall P Q lax ss, debug_assertions P = debug_assertions Q -> execute lax P [] ss = execute lax Q [] ss.
Proof. exact c80_overflow_checks_pf. Qed.
Print Assumptions c80_overflow_checks.
Example c80_overflow_checks_ex : (* the program with the bitboard that has the stray bit, up to [count] *)
  debug_assertions Debug = debug_assertions Asserting /\ overflow_checks Debug <> overflow_checks Asserting /\
  map (fun P => match execute true P [] [Literal (LU8 8); Literal (LU8 1); call "Square::new" [1%nat; 0%nat]; GetSome 0; call "Bitboard::single" [0%nat];
     Literal (LU8 0); call "Bitboard::shift_right" [1%nat; 0%nat]; call "Bitboard::count" [0%nat]] with
     | Some (Ret (Val TU8 n :: _)) => Some n | _ => None end) [Debug; Asserting; Checked; Release] = repeat (Some 2) 4.
Proof. split; [reflexivity|]. split; [discriminate|]. vm_compute. reflexivity. Qed.

(** C80: nor do the debug assertions, if [shift_right] is only used where its result is a valid bitboard: then all four builds give the
    same values. *)
Theorem c80_all_builds : forall P Q ss, execute false P [] ss = execute false Q [] ss.
Proof. exact c80_all_builds_pf. Qed.
Print Assumptions c80_all_builds.
Example c80_all_builds_ex : (* [shift_right] where its result is valid, then [pop] *)
  map (fun P => match execute false P [] [Literal (LU8 8); Literal (LU8 2); call "Square::new" [1%nat; 0%nat]; GetSome 0; call "Bitboard::single" [0%nat];
     Literal (LU8 1); call "Bitboard::shift_right" [1%nat; 0%nat]; call "Bitboard::pop" [0%nat]; GetSnd 0] with
     | Some (Ret (Val (TOpt TSquare) (Some s) :: _)) => Some (sq_repr s) | _ => None end) [Debug; Asserting; Checked; Release] = repeat (Some 56) 4 /\
  execute false Debug [] [Literal (LU8 8); Literal (LU8 1); call "Square::new" [1%nat; 0%nat]; GetSome 0; call "Bitboard::single" [0%nat];
     Literal (LU8 0); call "Bitboard::shift_right" [1%nat; 0%nat]] = None.
Proof. split; vm_compute; reflexivity. Qed.

(** C80: otherwise two builds agree up to the first [pop] on a bitboard whose first word is exactly bit 63. There the build with debug
    assertions panics, and the one without does not. *)
Theorem c80_difference : forall P Q ss, debug_assertions P = true -> debug_assertions Q = false ->
  execute true P [] ss = execute true Q [] ss \/
  (execute true P [] ss = Some Panic /\ execute true Q [] ss <> Some Panic /\ exists before s after env, ss = before ++ s :: after /\
     execute true P [] before = Some (Ret env) /\ execute true Q [] before = Some (Ret env) /\ stray_pop env s).
Proof. exact c80_difference_pf. Qed.
Print Assumptions c80_difference.
Example c80_difference_ex : (* two pops: only the second is on a bitboard whose first word is exactly bit 63 *)
  let before := [Literal (LU8 8); Literal (LU8 1); call "Square::new" [1%nat; 0%nat]; GetSome 0; call "Bitboard::single" [0%nat];
     Literal (LU8 0); call "Bitboard::shift_right" [1%nat; 0%nat]; Literal (LU8 5); call "Square::from_u8_unchecked" [0%nat];
     call "Bitboard: BitOrAssign<Square>" [2%nat; 0%nat]; call "Bitboard::pop" [0%nat]; GetFst 0] in
  map (fun P => match execute true P [] before with Some (Ret (Val TBB b :: _)) => Some (bb0 b, bb1 b) | _ => None end) [Debug; Release] = repeat (Some (2 ^ 63, 1)) 2 /\
  execute true Asserting [] (before ++ [call "Bitboard::pop" [0%nat]]) = Some Panic /\
  match execute true Checked [] (before ++ [call "Bitboard::pop" [0%nat]; GetSnd 0]) with Some (Ret (Val (TOpt TSquare) (Some s) :: _)) => sq_repr s = 63 | _ => False end.
Proof. split; [vm_compute; reflexivity|]. split; vm_compute; reflexivity. Qed.

(** C80: what can be reached does not depend on the build, and the same calls lead to it. *)
Theorem c80_reachable : forall P Q,
  (forall s, reachable P s <-> reachable Q s) /\ (forall s, played P s <-> played Q s) /\
  forall s os, reachable P s -> Forall valid_op os -> run_ops P s os = run_ops Q s os.
Proof. exact c80_reachable_pf. Qed.
Print Assumptions c80_reachable.
Example c80_reachable_ex : forall P, reachable P pos2 /\ played P pos1 /\ Forall valid_op edits1 /\
  run_ops P pp_empty edits1 = Ret (pos2, flags2) /\ map (fun P => returns (run_ops P pos1 edits1) (fun r => ply (fst r) =? 0)) [Debug; Checked; Asserting; Release] = repeat true 4.
Proof.
  intros P. split; [apply pos2_reachable|]. split; [apply pos1_played|]. split; [exact edits1_valid|]. split; [apply edits1_run|vm_compute; reflexivity].
Qed.

(** C80: the functions that write to a caller's sink treat it alike in all builds when given valid values. *)
Theorem c80_writers : forall P Q W (K : sink W) w,
  (forall k, pk_to_usi P K k w = pk_to_usi Q K k w) /\
  (forall p, valid_piece p -> piece_to_usi P K p w = piece_to_usi Q K p w) /\
  (forall s, valid_square s -> sq_to_usi P K s w = sq_to_usi Q K s w) /\
  (forall m, valid_move m -> move_to_usi P K m w = move_to_usi Q K m w) /\
  (forall c, valid_compact c -> cm_to_usi P K c w = cm_to_usi Q K c w) /\
  (forall s, reachable P s -> to_sfen P K s w = to_sfen Q K s w).
Proof. exact c80_writers_pf. Qed.
Print Assumptions c80_writers.
Example c80_writers_ex : (* a sink that is full after 24 bytes: what it has when it refuses is the same too *)
  let full := Sink (fun (w : list N) l => if len w + len l <=? 24 then (w ++ l, true) else (w, false)) in
  valid_piece (piece_of ProRook White) /\ (forall P, reachable P pos1) /\
  map (fun P => to_sfen P full pos1 []) [Debug; Checked; Asserting; Release] = repeat (Ret (bytes "lnsgkg1nl/1r5s1/pppppp1p", false)) 4.
Proof. split; [right; vm_compute; repeat split; discriminate|]. split; [exact pos1_reachable|]. vm_compute. reflexivity. Qed.

(** C80: [LegalityChecker::make_move] with any implementation of the trait: with more checks it panics or does the same. *)
Theorem c80_checker : forall P Q L p m, checks_more P Q -> same_or_panic (lc_make_move P L p m) (lc_make_move Q L p m).
Proof. exact c80_checker_pf. Qed.
Print Assumptions c80_checker.
Example c80_checker_ex : (* an implementor that says yes to a move without a piece: [make_move] has [debug_assert!] for its success *)
  checks_more Debug Release /\ map (fun P => match lc_make_move P yes_sayer the_record (rm 9 9 1 9 false) with Panic => 0 | Ret _ => 1 | UB => 2 end) [Debug; Checked; Asserting; Release] = [0; 1; 0; 1] /\
  map (fun P => returns (lc_make_move P yes_sayer the_record (rm 7 7 7 6 false)) (fun r => ply (inner (fst r)) =? 2)) [Debug; Checked; Asserting; Release] = repeat true 4.
Proof. split; [split; reflexivity|]. split; vm_compute; reflexivity. Qed.
