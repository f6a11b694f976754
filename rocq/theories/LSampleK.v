(** Implementors of [LegalityChecker] with a state, for the examples. *)
From Verif Require Import TChecker.

(** the status that [referee] gives, remembered by ply *)
Definition over (n : N) : position_status := if n <? 5 then PSInProgress else PSDraw.
Fixpoint recall (n : N) (l : list (N * position_status)) : option position_status :=
  match l with [] => None | (k, st) :: rest => if k =? n then Some st else recall n rest end.
Definition remembering (P : profile) : implementor (list (N * position_status)) :=
  let I := stateless (referee P) in
  let keep {A} (m : sm unit A) : sm (list (N * position_status)) A := fun l => '(_, a) <- m tt;; Ret (l, a) in
  Implementor (fun p l => match recall (pos_ply p) l with Some st => Ret (l, st) | None => Ret ((pos_ply p, over (pos_ply p)) :: l, over (pos_ply p)) end)
    (fun x => keep (i_status_partial I x)) (fun x m => keep (i_is_legal_partial I x m)) (fun x m => keep (i_is_legal_partial_lite I x m))
    (fun x => keep (i_all_legal_moves_partial I x)) (fun x y => keep (i_normal_from_candidates I x y)) (fun x y z => keep (i_normal_to_candidates I x y z))
    (fun x y => keep (i_drop_candidates I x y)) None None None None.
Definition true_notes (l : list (N * position_status)) : Prop := Forall (fun e => snd e = over (fst e)) l.
Lemma recall_true n l : true_notes l -> forall st, recall n l = Some st -> st = over n.
Proof.
  induction 1 as [|[k x] l E F IH]; cbn [recall]; [discriminate|]. intros st. destruct (N.eqb_spec k n) as [->|]; [|auto]. intros [= <-]. exact E.
Qed.
Lemma remembering_as P : answers_as true_notes (remembering P) (referee P).
Proof.
  assert (K : forall A (r : res A), gives true_notes (fun l => '(_, a) <- (a <- r;; Ret (tt, a));; Ret (l, a)) r).
  { intros A r l T. destruct r as [a| |]; cbn [bind]; eauto. }
  split; [|repeat split; intros; apply K].
  intros p l T. cbn [referee lc_status]. cbn [remembering i_status]. fold (over (pos_ply p)). destruct (recall (pos_ply p) l) as [st|] eqn:E.
  - rewrite (recall_true _ _ T _ E). eauto.
  - eexists. split; [|reflexivity]. constructor; auto.
Qed.
Definition the_moves : list lq :=
  [LIsLegal (nm 7 7 7 6 false); LMake (nm 7 7 7 6 false); LStatus; LMake (nm 7 6 7 5 false); LMake (nm 3 3 3 4 false); LDrops (piece_of Pawn Black);
   LMake (nm 2 7 2 6 false); LIsLegalLite (nm 8 3 8 4 false); LMake (nm 8 3 8 4 false); LMake (nm 2 6 2 5 false); LAll].
Lemma the_moves_valid : Forall valid_lq the_moves.
Proof. repeat constructor; try discriminate; apply piece_of_valid. Qed.
Lemma remembering_answers P : i_answers P (remembering P) /\ i_honest P (remembering P).
Proof.
  assert (S : forall p, answers (i_status (remembering P) p)).
  { intros p l. cbn [remembering i_status]. destruct (recall (pos_ply p) l); eexists _, _; reflexivity. }
  assert (M : forall x m, reachable P x -> valid_move m -> make_move P m x = Ret (match do_move x m with Some y => (y, Some tt) | None => (x, None) end)).
  { intros x m R V. rewrite make_move_ok by (auto; now apply (reachable_wf P)). now destruct (do_move x m). }
  assert (L : forall x m, reachable P x -> valid_move m -> answers (i_is_legal_partial (remembering P) x m) /\ answers (i_is_legal_partial_lite (remembering P) x m)).
  { intros x m R V. cbn [remembering stateless referee lc_is_legal_partial lc_is_legal_partial_lite i_is_legal_partial i_is_legal_partial_lite]. rewrite (M x m R V).
    split; intros b; cbn [bind]; destruct (do_move x m) as [y|]; eexists _, _; reflexivity. }
  split; [split|].
  - intros p R. split; [apply S|]. split.
    { intros s. unfold i_all_legal_moves. destruct (S p s) as (s' & st & E). cbn [remembering o_all_legal_moves] in *. rewrite E. cbn [bind].
      destruct (negb (ps_eqb st PSInProgress)); eexists _, _; reflexivity. }
    intros m V. destruct (L (inner p) m R V) as [L1 L2].
    split; intros s; unfold i_is_legal, i_is_legal_lite; destruct (S p s) as (s' & st & E); cbn [remembering o_is_legal o_is_legal_lite]; rewrite E; cbn [bind];
      destruct (negb (ps_eqb st PSInProgress)); [eexists _, _; reflexivity|apply L1|eexists _, _; reflexivity|apply L2].
  - intros x R. split; [intros l; eexists _, _; reflexivity|]. split; [intros l; eexists _, _; reflexivity|]. split; [intros m V; exact (L x m R V)|].
    split; [intros; intros l; eexists _, _; reflexivity|]. split; intros; intros l; eexists _, _; reflexivity.
  - intros p m s s' R V E. unfold i_is_legal in E. destruct (S p s) as (s1 & st & E1). cbn [remembering o_is_legal] in E. rewrite E1 in E. cbn [bind] in E.
    destruct (negb (ps_eqb st PSInProgress)); [discriminate|]. cbn [remembering stateless referee i_is_legal_partial lc_is_legal_partial] in E. rewrite (M (inner p) m R V) in E.
    unfold pos_make_move. change (pos_inner p) with (inner p). rewrite (M (inner p) m R V).
    destruct (do_move (inner p) m) as [y|]; cbn [bind is_some] in *; [eauto|]. discriminate.
Qed.
