(** Property theorems C40: no panic and no undefined behaviour *)
From Verif Require Import TSafe.
From Verif Require Import LSample.

(** C40: every function of the interface returns normally with a valid value, in every build, for all valid
    arguments that meet its safety condition. What is missing: [shift_right] is only covered where its result
    is a valid bitboard (its documented condition, delta at most 9, does not guarantee that; see C17). *)
Theorem c40_calls_partial : forall P a, In a the_api -> safe false P a.
Proof. exact c40_calls_partial_pf. Qed.
Print Assumptions c40_calls_partial.
Example c40_calls_partial_ex : (* an unsafe function with its condition, and a valid argument on which it does something *)
  exists a, In a the_api /\ a_name a = "Square::from_u8_unchecked"%string /\
  exists x, oks false Debug (a_args a) x /\ a_pre a false x = true /\ exists v, a_fun a Debug x = Ret v.
Proof.
  exists (un1 "Square::from_u8_unchecked" TU8 TSquare (fun _ a => in_range 1 81 a) (fun _ a => sq_from_u8_unchecked a)).
  split; [|split; [reflexivity|]].
  - destruct (nth_error the_api (match find_api "Square::from_u8_unchecked" the_api with Some n => n | None => 0%nat end)) as [a|] eqn:E; [|discriminate].
    apply nth_error_In in E as I. vm_compute in E. injection E as <-. exact I.
  - exists (40, tt). repeat split. exists (Square 40). reflexivity.
Qed.

(** C40: hence no program that holds only literals at the start, calls functions of the interface on values it
    has obtained and respects these conditions ever panics or has undefined behaviour. Same gap. *)
Theorem c40_programs_partial : forall P ss r, execute false P [] ss = Some r ->
  exists env, r = Ret env /\ Forall (value_ok false P) env.
Proof. exact c40_programs_partial_pf. Qed.
Print Assumptions c40_programs_partial.
Example c40_programs_partial_ex : (* 7g7f from the starting position, then the SFEN of the position *)
  (match execute false Debug [] [call "PartialPosition::startpos" []; Literal (LU8 7); Literal (LU8 7); call "Square::new" [1%nat; 0%nat]; GetSome 0;
      Literal (LU8 7); Literal (LU8 6); call "Square::new" [1%nat; 0%nat]; GetSome 0; Literal (LBool false);
      call "Move::Normal" [5%nat; 1%nat; 0%nat]; call "PartialPosition::make_move" [10%nat; 0%nat]; GetFst 0;
      call "PartialPosition::to_sfen_owned" [0%nat]] with
   | Some (Ret (Val TText t :: _)) => Some t
   | _ => None
   end) = Some (bytes "lnsgkgsnl/1r5b1/ppppppppp/9/9/2P6/PP1PPPPPP/1B5R1/LNSGKGSNL w - 2").
Proof. vm_compute. reflexivity. Qed.

(** C40, full statement for builds without debug assertions: with the documented safety conditions only ([true]: bit 63 of the
    first word of a bitboard may be set), no call and no program panics or has undefined behaviour. *)
Theorem c40_release :
  forall P, debug_assertions P = false ->
  (forall a, In a the_api -> safe true P a) /\
  forall ss r, execute true P [] ss = Some r -> exists env, r = Ret env /\ Forall (value_ok true P) env.
Proof. exact c40_release_pf. Qed.
Print Assumptions c40_release.
Example c40_release_ex : (* the program that panics in a build with debug assertions: here pop answers with square 63 (7I), which is not in the set *)
  forallb (fun P => match execute true P [] [Literal (LU8 8); Literal (LU8 1); call "Square::new" [1%nat; 0%nat]; GetSome 0; call "Bitboard::single" [0%nat];
          Literal (LU8 0); call "Bitboard::shift_right" [1%nat; 0%nat]; call "Bitboard::pop" [0%nat]; GetSnd 0] with
   | Some (Ret (Val (TOpt TSquare) (Some s) :: _)) => sq_repr s =? 63
   | _ => false
   end) [Release; Checked] = true.
Proof. vm_compute. reflexivity. Qed.

(** C40, full statement for undefined behaviour: under the documented safety conditions no program has any, in
    any build. *)
Theorem c40_no_ub : forall P ss, execute true P [] ss <> Some UB.
Proof. exact c40_no_ub_pf. Qed.
Print Assumptions c40_no_ub.
Example c40_no_ub_ex : (* outside its documented condition an unsafe function does have undefined behaviour *)
  sq_from_u8_unchecked 0 = UB /\
  execute true Debug [] [Literal (LU8 0); call "Square::from_u8_unchecked" [0%nat]] = None /\
  (exists env, execute true Debug [] [Literal (LU8 81); call "Square::from_u8_unchecked" [0%nat]] = Some (Ret env)).
Proof. split; [|split]; [vm_compute; reflexivity..|]. eexists. vm_compute. reflexivity. Qed.

(** C40, any build under the documented safety conditions: a program that panics does so in [pop] (or the
    two functions that call it) on a bitboard whose first word is exactly bit 63. *)
Theorem c40_debug_panics : forall P ss r, execute true P [] ss = Some r ->
  (exists env, r = Ret env /\ Forall (value_ok true P) env) \/
  (debug_assertions P = true /\ r = Panic /\ exists before s after env, ss = before ++ s :: after /\
     execute true P [] before = Some (Ret env) /\ stray_pop env s).
Proof. exact c40_debug_panics_pf. Qed.
Print Assumptions c40_debug_panics.
Example c40_debug_panics_ex : (* with 9I added the lowest set bit is still the stray one *)
  execute true Debug [] [Literal (LU8 8); Literal (LU8 1); call "Square::new" [1%nat; 0%nat]; GetSome 0; call "Bitboard::single" [0%nat];
     Literal (LU8 0); call "Bitboard::shift_right" [1%nat; 0%nat]; Literal (LU8 81); call "Square::from_u8_unchecked" [0%nat];
     call "Bitboard: BitOrAssign<Square>" [2%nat; 0%nat]; call "Bitboard: Iterator::next" [0%nat]] = Some Panic.
Proof. vm_compute. reflexivity. Qed.

(** C40: such a panic happens: the set of 8A shifted right by 0, then [pop]. *)
Theorem c40_pop_refuted : forall P, debug_assertions P = true -> exists ss, execute true P [] ss = Some Panic.
Proof. exact c40_pop_refuted_pf. Qed.
Print Assumptions c40_pop_refuted.
Example c40_pop_refuted_ex : (* shifting 9A to the right by 1 gives the same *)
  map (fun P => match execute true P [] [Literal (LU8 9); Literal (LU8 1); call "Square::new" [1%nat; 0%nat]; GetSome 0; call "Bitboard::single" [0%nat];
     Literal (LU8 1); call "Bitboard::shift_right" [1%nat; 0%nat]; call "Bitboard::pop" [0%nat]] with Some Panic => true | _ => false end)
     [Debug; Asserting; Checked; Release] = [true; true; false; false].
Proof. vm_compute. reflexivity. Qed.

(** C40: the functions that write text to a caller's sink return normally whatever the sink does. *)
Theorem c40_writers : forall P W (K : sink W) w,
  (forall c, exists r, color_to_usi K c w = Ret r) /\
  (forall k, exists r, pk_to_usi P K k w = Ret r) /\
  (forall p, valid_piece p -> exists r, piece_to_usi P K p w = Ret r) /\
  (forall s, valid_square s -> exists r, sq_to_usi P K s w = Ret r) /\
  (forall m, valid_move m -> exists r, move_to_usi P K m w = Ret r) /\
  (forall c, valid_compact c -> exists r, cm_to_usi P K c w = Ret r) /\
  (forall s, reachable P s -> exists r, to_sfen P K s w = Ret r).
Proof. exact c40_writers_pf. Qed.
Print Assumptions c40_writers.
Example c40_writers_ex : (* a sink that refuses every second call *)
  to_sfen Debug (Sink (fun (n : nat) (_ : list N) => (S n, Nat.even n))) pos1 0%nat = Ret (2%nat, false).
Proof. vm_compute. reflexivity. Qed.
