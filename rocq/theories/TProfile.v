(** Proofs of the property theorems on the differences between builds (restated in Prop_Profile.v). *)
From Verif Require Export TSafe LProfile.
(*PROPHEAD
Property theorems C80: what the overflow checks and the debug assertions of a build change
From Verif Require Import LSample LSampleR LSampleS.
*)

Lemma debug_most Q : checks_more Debug Q.
Proof. split; reflexivity. Qed.
Lemma sop_ret {A} (r s : res A) v : same_or_panic r s -> r = Ret v -> s = Ret v.
Proof. intros [H|H] E; congruence. Qed.
Lemma sop_do_step P Q lax env s : checks_more P Q ->
  match do_step lax P env s, do_step lax Q env s with
  | Some r, Some r' => same_or_panic r r'
  | None, None => True
  | _, _ => False
  end.
Proof.
  intros C. destruct s; cbn [do_step]; try (destruct (take_apart _ env); [apply sop_same|exact I]).
  - destruct (literal_ok l); [apply sop_same|exact I].
  - destruct (nth_error the_api f) as [a|] eqn:A; [|exact I]. destruct (operands env (a_args a) args) as [x|]; [|exact I].
    destruct (a_pre a lax x); [|exact I]. apply sop_bind; [|intros v; apply sop_same].
    pose proof (sop_api P Q C) as F. rewrite Forall_forall in F. apply F. eapply nth_error_In, A.
Qed.
Lemma sop_execute P Q lax : checks_more P Q -> forall ss env,
  execute lax P env ss = Some Panic \/ execute lax P env ss = execute lax Q env ss.
Proof.
  intros C. induction ss as [|s ss IH]; intros env; cbn [execute]; [now right|].
  pose proof (sop_do_step P Q lax env s C) as H.
  destruct (do_step lax P env s) as [r|], (do_step lax Q env s) as [r'|]; try contradiction; [|now right].
  destruct H as [->| ->]; [now left|]. destruct r'; [apply IH|now left|now right].
Qed.
Lemma execute_app P lax : forall before env env' after, execute lax P env before = Some (Ret env') ->
  execute lax P env (before ++ after) = execute lax P env' after.
Proof.
  induction before as [|s b IH]; intros env env' after; cbn [execute app]; [now intros [= ->]|].
  destruct (do_step lax P env s) as [[v| |]|]; try discriminate. apply IH.
Qed.
Definition pop_numbers : list nat :=
  map (fun n => match find_api n the_api with Some i => i | None => 0%nat end) ["Bitboard::pop"; "Bitboard_pop"; "Bitboard: Iterator::next"]%string.
Lemma pops_number f a : nth_error the_api f = Some a -> pops a -> In f pop_numbers.
Proof.
  intros A H. assert (L : (f < length the_api)%nat) by (apply nth_error_Some; congruence).
  assert (K : forallb (fun i => match nth_error (map a_name the_api) i with
                | Some n => implb (existsb (String.eqb n) ["Bitboard::pop"; "Bitboard_pop"; "Bitboard: Iterator::next"]%string) (existsb (Nat.eqb i) pop_numbers)
                | None => true end) (seq 0 (length the_api)) = true) by (vm_compute; reflexivity).
  rewrite forallb_forall in K. specialize (K f). rewrite in_seq in K. specialize (K ltac:(lia)).
  rewrite nth_error_map, A in K. cbn [option_map] in K.
  assert (E : existsb (String.eqb (a_name a)) ["Bitboard::pop"; "Bitboard_pop"; "Bitboard: Iterator::next"]%string = true).
  { apply existsb_exists. exists (a_name a). split; [exact H|apply String.eqb_refl]. }
  rewrite E in K. cbn [implb] in K. apply existsb_exists in K. destruct K as (x & X & Y). apply Nat.eqb_eq in Y. now subst.
Qed.
Lemma pop_stray P b : debug_assertions P = true -> bb1 b < 2 ^ 18 -> bb0 b = 2 ^ 63 -> bb_pop P b = Panic.
Proof.
  intros DA W B. pose proof (pow18_64 _ W) as U1. assert (U0 : bb0 b < 2 ^ 64) by (rewrite B; reflexivity).
  unfold bb_pop. rewrite to_u128_ok by auto. cbn [bind].
  remember (bb1 b * 2 ^ 64 + bb0 b) as r eqn:Er.
  assert (Rb : forall i, N.testbit r i = if i <? 64 then N.testbit (bb0 b) i else N.testbit (bb1 b) (i - 64))
    by (intros i; rewrite Er; now apply u128_bits).
  assert (R63 : N.testbit r 63 = true) by (rewrite Rb, B; reflexivity).
  destruct r as [|p]; [discriminate|].
  replace (N.pos p =? 0) with false by reflexivity. cbv zeta iota.
  rewrite trailing_zeros_ptz. pose proof (ptz_set p) as Z1. pose proof (ptz_below p) as Z2. rewrite Rb in Z1.
  assert (E : ptz p = 63).
  { destruct (N.lt_trichotomy (ptz p) 63) as [H|[H|H]]; auto.
    - replace (ptz p <? 64) with true in Z1 by lia. rewrite B in Z1. change (2 ^ 63) with (N.shiftl 1 63) in Z1. rewrite bit_single in Z1.
      destruct (N.eqb_spec (ptz p) 63); [lia|discriminate].
    - rewrite Z2 in R63 by exact H. discriminate. }
  rewrite E. change (63 <? 63) with false. cbv iota. change (sq_from_u8_unchecked (cast_w 8 63)) with (Ret (Square 63)). cbn [bind].
  rewrite DA. rewrite bb_contains_ok by (try split; cbn [sq_repr]; auto; lia). cbn [bind].
  replace (member b (Square 63)) with false.
  - unfold debug_assert. now rewrite DA.
  - symmetry. unfold member. cbn [sq_repr]. change (63 <=? 63) with true. cbv iota. rewrite B. reflexivity.
Qed.
Lemma stray_panics P lax env s : debug_assertions P = true -> Forall (value_ok lax P) env -> stray_pop env s -> do_step lax P env s = Some Panic.
Proof.
  intros D F (f & i & a & b & -> & A & H & V & E). pose proof (pops_number f a A H) as I.
  assert (W : bb1 b < 2 ^ 18).
  { rewrite Forall_forall in F. specialize (F _ (nth_error_In _ _ V)). cbn in F. apply F. }
  pose proof (pop_stray P b D W E) as X.
  assert (O : operands env [TBB] [i] = Some (b, tt)) by (cbn [operands]; rewrite V; reflexivity).
  clear A H V E. unfold do_step.
  destruct I as [<-|[<-|[<-|[]]]].
  - change (nth_error the_api _) with (Some (fn1 "Bitboard::pop" TBB (TPair TBB (TOpt TSquare)) bb_pop)).
    cbv beta iota delta [a_args a_pre a_fun a_ret fn1]. rewrite O. cbn [fst]. now rewrite X.
  - change (nth_error the_api _) with (Some (fn1 "Bitboard_pop" TBB (TPair TBB TOSquare) Bitboard_pop)).
    cbv beta iota delta [a_args a_pre a_fun a_ret fn1]. rewrite O. cbn [fst]. unfold Bitboard_pop. now rewrite X.
  - change (nth_error the_api _) with (Some (fn1 "Bitboard: Iterator::next" TBB (TPair TBB (TOpt TSquare)) bb_next)).
    cbv beta iota delta [a_args a_pre a_fun a_ret fn1]. rewrite O. cbn [fst]. unfold bb_next. now rewrite X.
Qed.
Lemma like_debug P lax ss : debug_assertions P = true -> execute lax P [] ss = execute lax Debug [] ss.
Proof.
  intros D. destruct (sop_execute Debug P lax (debug_most P) ss []) as [E|E]; [|now symmetry].
  destruct (execute_ok lax Debug ss [] Panic (Forall_nil _) E) as [(e & H & _)|(_ & _ & _ & b & s & a & env & -> & B & S)]; [discriminate|].
  rewrite E. assert (B' : execute lax P [] b = Some (Ret env)).
  { destruct (sop_execute Debug P lax (debug_most P) b []) as [X|X]; congruence. }
  rewrite (execute_app P lax b [] env _ B'). cbn [execute].
  rewrite (stray_panics P lax env s D); auto.
  destruct (execute_ok lax P b [] _ (Forall_nil _) B') as [(e & [= <-] & F)|(_ & _ & H & _)]; [exact F|discriminate].
Qed.
Lemma like_release P lax ss : debug_assertions P = false -> execute lax P [] ss = execute lax Release [] ss.
Proof.
  intros D. destruct P; try discriminate; auto.
  destruct (sop_execute Checked Release lax ltac:(split; discriminate) ss []) as [E|E]; auto.
  destruct (execute_ok lax Checked ss [] Panic (Forall_nil _) E) as [(e & H & _)|(_ & H & _)]; discriminate.
Qed.

(** C80: whatever arguments a function of the interface gets, valid or not, a build that checks more panics or does exactly what the
    build that checks less does, undefined behaviour included. *)
Lemma c80_calls_pf : forall P Q, checks_more P Q -> forall a, In a the_api -> forall args, same_or_panic (a_fun a P args) (a_fun a Q args).
Proof. intros P Q C. pose proof (sop_api P Q C) as F. now rewrite Forall_forall in F. Qed.
(** C80: the same for whole programs. *)
Lemma c80_programs_pf : forall P Q lax ss, checks_more P Q ->
  execute lax P [] ss = Some Panic \/ execute lax P [] ss = execute lax Q [] ss.
Proof. intros P Q lax ss C. now apply sop_execute. Qed.
(** C80: the overflow checks change no program that respects the documented safety conditions. *)
Lemma c80_overflow_checks_pf : forall P Q lax ss, debug_assertions P = debug_assertions Q -> execute lax P [] ss = execute lax Q [] ss.
Proof.
  intros P Q lax ss E. destruct (debug_assertions P) eqn:D; symmetry in E.
  - now rewrite (like_debug P), (like_debug Q).
  - now rewrite (like_release P), (like_release Q).
Qed.
(** C80: nor do the debug assertions, if [shift_right] is only used where its result is a valid bitboard: then all four builds give the
    same values. *)
Lemma c80_all_builds_pf : forall P Q ss, execute false P [] ss = execute false Q [] ss.
Proof.
  assert (H : forall P ss, execute false P [] ss = execute false Debug [] ss).
  { intros P ss. destruct (sop_execute Debug P false (debug_most P) ss []) as [E|E]; [|now symmetry].
    destruct (c40_programs_partial_pf Debug ss _ E) as (env & X & _). discriminate. }
  intros P Q ss. now rewrite (H P), (H Q).
Qed.
(** C80: otherwise two builds agree up to the first [pop] on a bitboard whose first word is exactly bit 63. There the build with debug
    assertions panics, and the one without does not. *)
Lemma c80_difference_pf : forall P Q ss, debug_assertions P = true -> debug_assertions Q = false ->
  execute true P [] ss = execute true Q [] ss \/
  (execute true P [] ss = Some Panic /\ execute true Q [] ss <> Some Panic /\ exists before s after env, ss = before ++ s :: after /\
     execute true P [] before = Some (Ret env) /\ execute true Q [] before = Some (Ret env) /\ stray_pop env s).
Proof.
  intros P Q ss DP DQ. rewrite (like_debug P), (like_release Q) by auto.
  destruct (sop_execute Debug Release true (debug_most _) ss []) as [E|E]; [right|now left].
  split; [exact E|]. split.
  - intros R. destruct (execute_ok true Release ss [] _ (Forall_nil _) R) as [(e & H & _)|(_ & H & _)]; discriminate.
  - destruct (execute_ok true Debug ss [] Panic (Forall_nil _) E) as [(e & H & _)|(_ & _ & _ & b & s & a & env & -> & B & S)]; [discriminate|].
    exists b, s, a, env. rewrite (like_debug P), (like_release Q) by auto. repeat split; auto.
    destruct (sop_execute Debug Release true (debug_most _) b []) as [X|X]; congruence.
Qed.
(** C80: what can be reached does not depend on the build, and the same calls lead to it. *)
Lemma c80_reachable_pf : forall P Q,
  (forall s, reachable P s <-> reachable Q s) /\ (forall s, played P s <-> played Q s) /\
  forall s os, reachable P s -> Forall valid_op os -> run_ops P s os = run_ops Q s os.
Proof.
  assert (S : forall P Q s, pp_startpos P = Ret s -> pp_startpos Q = Ret s).
  { intros P Q s. now rewrite !startpos_ok. }
  assert (I : forall P Q s, initial P s -> initial Q s) by (intros P Q s [->|H]; [now left|right; eapply S, H]).
  assert (W : forall P s, initial P s -> wf s).
  { intros P s H. apply (reachable_wf P). exists s, [], []. repeat split; auto. }
  assert (R : forall P Q s, reachable P s -> reachable Q s).
  { intros P Q s (s0 & os & bs & H & V & E). exists s0, os, bs. split; [eapply I, H|]. split; [exact V|].
    rewrite run_ops_ok in E |- *; eauto. }
  assert (T : forall P Q s, played P s -> played Q s).
  { intros P Q s (s0 & os & bs & H & V & E). exists s0, os, bs. split; [eapply S, H|]. split; [exact V|].
    assert (V' : Forall valid_op (map OpMove os)) by (apply Forall_map; exact V).
    assert (W0 : wf s0) by (apply (W P); now right). rewrite run_ops_ok in E |- *; eauto. }
  intros P Q. split; [split; apply R|]. split; [split; apply T|].
  intros s os H V. rewrite !run_ops_ok; auto; eapply reachable_wf, H.
Qed.
(** C80: the functions that write to a caller's sink treat it alike in all builds when given valid values. *)
Lemma c80_writers_pf : forall P Q W (K : sink W) w,
  (forall k, pk_to_usi P K k w = pk_to_usi Q K k w) /\
  (forall p, valid_piece p -> piece_to_usi P K p w = piece_to_usi Q K p w) /\
  (forall s, valid_square s -> sq_to_usi P K s w = sq_to_usi Q K s w) /\
  (forall m, valid_move m -> move_to_usi P K m w = move_to_usi Q K m w) /\
  (forall c, valid_compact c -> cm_to_usi P K c w = cm_to_usi Q K c w) /\
  (forall s, reachable P s -> to_sfen P K s w = to_sfen Q K s w).
Proof.
  assert (G : forall W (f : profile -> res W), (forall Q, same_or_panic (f Debug) (f Q)) -> (exists r, f Debug = Ret r) -> forall P Q, f P = f Q).
  { intros W f H (r & E) P Q. pose proof (sop_ret _ _ r (H P) E). pose proof (sop_ret _ _ r (H Q) E). congruence. }
  intros P Q W K w. destruct (c40_writers_pf Debug W K w) as (_ & H1 & H2 & H3 & H4 & H5 & H6).
  split; [intros k; apply (G _ (fun P => pk_to_usi P K k w)); [intros; apply sop_pk_to_usi, debug_most|apply H1]|].
  split; [intros k V; apply (G _ (fun P => piece_to_usi P K k w)); [intros; apply sop_piece_to_usi, debug_most|now apply H2]|].
  split; [intros k V; apply (G _ (fun P => sq_to_usi P K k w)); [intros; apply sop_sq_to_usi, debug_most|now apply H3]|].
  split; [intros k V; apply (G _ (fun P => move_to_usi P K k w)); [intros; apply sop_move_to_usi, debug_most|now apply H4]|].
  split; [intros k V; apply (G _ (fun P => cm_to_usi P K k w)); [intros; apply sop_cm_to_usi, debug_most|now apply H5]|].
  intros k V; apply (G _ (fun P => to_sfen P K k w)); [intros; apply sop_to_sfen, debug_most|]. apply H6. now apply (c80_reachable_pf P Debug).
Qed.
(** C80: [LegalityChecker::make_move] with any implementation of the trait: with more checks it panics or does the same. *)
Lemma c80_checker_pf : forall P Q L p m, checks_more P Q -> same_or_panic (lc_make_move P L p m) (lc_make_move Q L p m).
Proof. intros P Q L p m C. now apply sop_lc_make_move. Qed.
