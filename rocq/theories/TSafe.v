(** Proofs of the property theorems on panics and undefined behaviour (restated in Prop_Safe.v). *)
From Verif Require Export TSfen SpecApi LSafe.
(*PROPHEAD
Property theorems C40: no panic and no undefined behaviour
From Verif Require Import LSample.
*)

(** C40: every function of the interface returns normally with a valid value, in every build, for all valid
    arguments that meet its safety condition. What is missing: [shift_right] is only covered where its result
    is a valid bitboard (its documented condition, delta at most 9, does not guarantee that; see C17). *)
Lemma c40_calls_partial_pf : forall P a, In a the_api -> safe false P a.
Proof.
  intros P a H args O Q. pose proof (all_rows false P) as R. rewrite Forall_forall in R.
  destruct (R a H args O Q) as [V|(L & _)]; [exact V|discriminate].
Qed.
(** C40: hence no program that holds only literals at the start, calls functions of the interface on values it
    has obtained and respects these conditions ever panics or has undefined behaviour. Same gap. *)
Lemma c40_programs_partial_pf : forall P ss r, execute false P [] ss = Some r ->
  exists env, r = Ret env /\ Forall (value_ok false P) env.
Proof. intros P ss r E. destruct (execute_ok false P ss [] r (Forall_nil _) E) as [H|(L & _)]; [exact H|discriminate]. Qed.
(** C40, full statement for builds without debug assertions: with the documented safety conditions only ([true]: bit 63 of the
    first word of a bitboard may be set), no call and no program panics or has undefined behaviour. *)
Lemma c40_release_pf :
  forall P, debug_assertions P = false ->
  (forall a, In a the_api -> safe true P a) /\
  forall ss r, execute true P [] ss = Some r -> exists env, r = Ret env /\ Forall (value_ok true P) env.
Proof.
  intros P DA. split.
  - intros a H args O Q. pose proof (all_rows true P) as R. rewrite Forall_forall in R.
    destruct (R a H args O Q) as [V|(_ & L & _)]; [exact V|congruence].
  - intros ss r E. destruct (execute_ok true P ss [] r (Forall_nil _) E) as [H|(_ & L & _)]; [exact H|congruence].
Qed.
(** C40, full statement for undefined behaviour: under the documented safety conditions no program has any, in
    any build. *)
Lemma c40_no_ub_pf : forall P ss, execute true P [] ss <> Some UB.
Proof.
  intros P ss E. destruct (execute_ok true P ss [] UB (Forall_nil _) E) as [(env & H & _)|(_ & _ & H & _)]; discriminate.
Qed.
(** C40, any build under the documented safety conditions: a program that panics does so in [pop] (or the
    two functions that call it) on a bitboard whose first word is exactly bit 63. *)
Lemma c40_debug_panics_pf : forall P ss r, execute true P [] ss = Some r ->
  (exists env, r = Ret env /\ Forall (value_ok true P) env) \/
  (debug_assertions P = true /\ r = Panic /\ exists before s after env, ss = before ++ s :: after /\
     execute true P [] before = Some (Ret env) /\ stray_pop env s).
Proof.
  intros P ss r E. destruct (execute_ok true P ss [] r (Forall_nil _) E) as [H|(_ & D & H & X)]; [left|right]; auto.
Qed.
(** C40: such a panic happens: the set of 8A shifted right by 0, then [pop]. *)
Lemma c40_pop_refuted_pf : forall P, debug_assertions P = true -> exists ss, execute true P [] ss = Some Panic.
Proof.
  intros P DA.
  exists [Literal (LU8 8); Literal (LU8 1); call "Square::new" [1%nat; 0%nat]; GetSome 0; call "Bitboard::single" [0%nat];
          Literal (LU8 0); call "Bitboard::shift_right" [1%nat; 0%nat]; call "Bitboard::pop" [0%nat]].
  destruct P; try discriminate; vm_compute; reflexivity.
Qed.
(** C40: the functions that write text to a caller's sink return normally whatever the sink does. *)
Lemma c40_writers_pf : forall P W (K : sink W) w,
  (forall c, exists r, color_to_usi K c w = Ret r) /\
  (forall k, exists r, pk_to_usi P K k w = Ret r) /\
  (forall p, valid_piece p -> exists r, piece_to_usi P K p w = Ret r) /\
  (forall s, valid_square s -> exists r, sq_to_usi P K s w = Ret r) /\
  (forall m, valid_move m -> exists r, move_to_usi P K m w = Ret r) /\
  (forall c, valid_compact c -> exists r, cm_to_usi P K c w = Ret r) /\
  (forall s, reachable P s -> exists r, to_sfen P K s w = Ret r).
Proof.
  intros P W K w.
  assert (G : forall f t, prints f t -> exists r, f W K w = Ret r) by (intros f t (c & _ & F); eauto).
  split; [intros c; eapply (G (fun W K => color_to_usi K c)), prints_color|].
  split; [intros k; eapply (G (fun W K => pk_to_usi P K k)), prints_kind|].
  split; [intros p V; eapply (G (fun W K => piece_to_usi P K p)), prints_piece, V|].
  split; [intros s V; eapply (G (fun W K => sq_to_usi P K s)), prints_square, V|].
  split; [intros s V; eapply (G (fun W K => move_to_usi P K s)), prints_move, V|].
  split; [intros s V; eapply (G (fun W K => cm_to_usi P K s)), prints_compact, V|].
  intros s R. eapply (G (fun W K => to_sfen P K s)), prints_sfen. eapply reachable_wf, R.
Qed.
