(** Lemmas on moves and compact moves. *)
From Verif Require Export LBase LSquare LPiece.

Lemma packed_nonzero m : valid_move m -> packed m <> 0.
Proof. destruct m as [f t pr|p t]; simpl; unfold valid_square, valid_piece; [destruct pr|]; lia. Qed.
Lemma packed_u16 m : valid_move m -> packed m < 65536.
Proof. destruct m as [f t pr|p t]; simpl; unfold valid_square, valid_piece; [destruct pr|]; lia. Qed.

(** the packing loses nothing *)
Lemma packed_inj m m' : valid_move m -> valid_move m' -> packed m = packed m' -> m = m'.
Proof.
  destruct m as [f t pr|p t], m' as [f' t' pr'|p' t']; simpl; unfold valid_square, valid_piece; intros H H' E.
  - assert (sq_repr t = sq_repr t') by (destruct pr, pr'; lia).
    assert (sq_repr f = sq_repr f') by (destruct pr, pr'; lia).
    f_equal; auto using square_inj. destruct pr, pr'; auto; lia.
  - exfalso. destruct pr; lia.
  - exfalso. destruct pr'; lia.
  - f_equal; [apply piece_inj|apply square_inj]; lia.
Qed.

Definition normal_ok P pr s t : bool :=
  let m := Normal s t pr in
  match cm_of_move P m with
  | Ret c => (cm_repr c =? packed m) && negb (cm_is_drop c) && Bool.eqb (cm_is_promoting c) pr &&
      match cm_to c, cm_from P c, move_of_cm P c with
      | Ret t', Ret (Some s'), Ret (Normal s'' t'' pr'') =>
          sq_eqb t' t && sq_eqb s' s && sq_eqb s'' s && sq_eqb t'' t && Bool.eqb pr'' pr
      | _, _, _ => false
      end
  | _ => false
  end.
Lemma normal_sweep P pr s t : valid_square s -> valid_square t -> normal_ok P pr s t = true.
Proof. revert s t. apply sq_sweep2. destruct P, pr; vm_compute; reflexivity. Qed.

Definition drop_ok P s p : bool :=
  let m := Drop p s in
  match cm_of_move P m with
  | Ret c => (cm_repr c =? packed m) && cm_is_drop c && negb (cm_is_promoting c) &&
      match cm_to c, cm_from P c, move_of_cm P c with
      | Ret t', Ret None, Ret (Drop p'' t'') => sq_eqb t' s && piece_eqb p'' p && sq_eqb t'' s
      | _, _, _ => false
      end
  | _ => false
  end.
Lemma drop_sweep P s p : valid_square s -> valid_piece p -> drop_ok P s p = true.
Proof.
  intros Hs. revert p. apply piece_sweep. revert s Hs.
  apply (sq_sweep (fun s => forallb (drop_ok P s) all_pieces)). destruct P; vm_compute; reflexivity.
Qed.

Lemma cm_all P m : valid_move m ->
  let c := CompactMove (packed m) in
  cm_of_move P m = Ret c /\ move_of_cm P c = Ret m /\ cm_from P c = Ret (mv_from m) /\
  cm_to c = Ret (mv_to m) /\ cm_is_promoting c = mv_is_promoting m /\ cm_is_drop c = mv_is_drop m.
Proof.
  intros H. destruct m as [s t pr|p t]; destruct H as [H1 H2].
  - pose proof (normal_sweep P pr s t H1 H2) as E. unfold normal_ok in E.
    destruct (cm_of_move P (Normal s t pr)) as [c| |] eqn:E1; try discriminate.
    apply andb_prop in E as [E E2]. apply andb_prop in E as [E E3]. apply andb_prop in E as [E E4].
    apply N.eqb_eq in E. assert (Ec : c = CompactMove (packed (Normal s t pr))) by (rewrite <- E; now destruct c).
    apply negb_true_iff in E4. apply eqb_prop in E3.
    destruct (cm_to c) as [t'| |] eqn:F1; try discriminate.
    destruct (cm_from P c) as [[s'|]| |] eqn:F2; try discriminate.
    destruct (move_of_cm P c) as [[s'' t'' pr''|]| |] eqn:F3; try discriminate.
    repeat (apply andb_prop in E2 as [E2 ?]).
    repeat match goal with X : sq_eqb _ _ = true |- _ => apply sq_eqb_eq in X end.
    match goal with X : Bool.eqb _ _ = true |- _ => apply eqb_prop in X end. subst t' s' s'' t'' pr''.
    rewrite <- Ec. cbn zeta. rewrite F1, F2, F3, E3, E4. repeat split; auto. now destruct pr.
  - pose proof (drop_sweep P t p H2 H1) as E. unfold drop_ok in E.
    destruct (cm_of_move P (Drop p t)) as [c| |] eqn:E1; try discriminate.
    apply andb_prop in E as [E E2]. apply andb_prop in E as [E E3]. apply andb_prop in E as [E E4].
    apply N.eqb_eq in E. assert (Ec : c = CompactMove (packed (Drop p t))) by (rewrite <- E; now destruct c).
    apply negb_true_iff in E3.
    destruct (cm_to c) as [t'| |] eqn:F1; try discriminate.
    destruct (cm_from P c) as [[s'|]| |] eqn:F2; try discriminate.
    destruct (move_of_cm P c) as [[|p'' t'']| |] eqn:F3; try discriminate.
    repeat (apply andb_prop in E2 as [E2 ?]).
    repeat match goal with X : sq_eqb _ _ = true |- _ => apply sq_eqb_eq in X end.
    match goal with X : piece_eqb _ _ = true |- _ => apply piece_eqb_eq in X end. subst t' t'' p''.
    rewrite <- Ec. cbn zeta. rewrite F1, F2, F3, E3, E4. repeat split; auto.
Qed.

Lemma cm_of_move_ok P m : valid_move m -> cm_of_move P m = Ret (CompactMove (packed m)).
Proof. intros H. now apply (cm_all P m). Qed.
Lemma move_of_cm_ok P m : valid_move m -> move_of_cm P (CompactMove (packed m)) = Ret m.
Proof. intros H. now apply (cm_all P m). Qed.
Lemma cm_normal_eq P f t pr : cm_normal P f t pr = cm_of_move P (Normal f t pr).
Proof. reflexivity. Qed.
Lemma cm_drop_eq P p t : cm_drop P p t = cm_of_move P (Drop p t).
Proof. reflexivity. Qed.
Lemma cm_inj a b : cm_repr a = cm_repr b -> a = b.
Proof. destruct a, b; simpl; congruence. Qed.
Lemma cm_eqb_eq a b : cm_eqb a b = true <-> a = b.
Proof. unfold cm_eqb. rewrite N.eqb_eq. split; [apply cm_inj|congruence]. Qed.
Lemma move_eqb_eq a b : move_eqb a b = true <-> a = b.
Proof.
  destruct a, b; simpl; rewrite ?andb_true_iff, ?sq_eqb_eq, ?piece_eqb_eq, ?eqb_true_iff;
    split; try discriminate; intuition congruence.
Qed.
Lemma valid_compact_move c : valid_compact c -> exists m, valid_move m /\ c = CompactMove (packed m).
Proof. intros (m & H & E). exists m. split; auto. now apply cm_inj. Qed.
Lemma ocm_round o : match o with Some m => valid_compact m | None => True end -> ocm_into (ocm_from o) = o.
Proof.
  destruct o as [c|]; [|reflexivity]. intros (m & H & E).
  unfold ocm_into, ocm_from, nonzero_new. cbn [ocm_repr].
  pose proof (packed_nonzero m H). destruct (N.eqb_spec (cm_repr c) 0); [congruence|]. now destruct c.
Qed.
Lemma ocm_inj a b : ocm_repr a = ocm_repr b -> a = b.
Proof. destruct a, b; simpl; congruence. Qed.
