(** Games with repetitions for the examples. *)
From Verif Require Import SpecRepeat LSampleR.

(** the rooks step aside and back *)
Definition shuffle : list move := [rm 2 8 3 8 false; rm 8 2 7 2 false; rm 3 8 2 8 false; rm 7 2 8 2 false].
Definition shuffles : list move := shuffle ++ shuffle ++ shuffle.
(** a rook gives check for ever *)
Definition hunt : list op := [at_ 5 1 King White; at_ 4 5 Rook Black; at_ 9 9 King Black].
Definition hunting : list move := [rm 4 5 5 5 false; rm 5 1 4 1 false; rm 5 5 4 5 false; rm 4 1 5 1 false].
Definition hunted : list move := hunting ++ hunting ++ hunting.
Definition full_answers (p : position) (ms : list move) : list bool * option position_status :=
  match lc_play Debug (full_checker Debug) p ms with
  | Ret (q, rs) => (map is_ok rs, match lc_status (full_checker Debug) q with Ret st => Some st | _ => None end)
  | _ => ([], None)
  end.
(** nothing happens *)
Definition quiet : list move := [rm 9 9 8 9 false; rm 5 1 6 1 false; rm 8 9 9 9 false; rm 6 1 5 1 false].
(** an implementor that breaks its promise *)
Definition yes_sayer : legality_checker := LegalityChecker (fun _ => Ret PSInProgress) (fun _ => Ret PSInProgress) (fun _ _ => Ret ROk) (fun _ _ => Ret true)
  (fun _ => Ret []) (fun _ _ => Ret bb_empty) (fun _ _ _ => Ret bb_empty) (fun _ _ => Ret bb_empty).
