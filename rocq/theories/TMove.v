(** Proofs of the property theorems on moves (restated in Prop_Move.v). *)
From Verif Require Export LMove.
(*PROPHEAD
Property theorems C08-C09: moves and compact moves
*)

(** C08: a move survives the conversion to [CompactMove] and back; the compact form is the documented, nonzero, 16-bit number;
    [CompactMove::normal] and [CompactMove::drop] are the same conversion. *)
Lemma c08_move_round_trip_pf : forall P m, valid_move m ->
  exists c, cm_of_move P m = Ret c /\ move_of_cm P c = Ret m /\
    cm_repr c = packed m /\ cm_repr c <> 0 /\ cm_repr c < 65536 /\
    match m with
    | Normal from to promote => cm_normal P from to promote = Ret c
    | Drop p to => cm_drop P p to = Ret c
    end.
Proof.
  intros P m H. exists (CompactMove (packed m)). rewrite cm_of_move_ok, move_of_cm_ok by auto.
  pose proof (packed_nonzero m H). pose proof (packed_u16 m H).
  do 5 (split; auto). destruct m; [rewrite cm_normal_eq|rewrite cm_drop_eq]; now rewrite cm_of_move_ok.
Qed.

(** C08: distinct moves have distinct compact forms, and every compact form is that of exactly one move. *)
Lemma c08_compact_bijection_pf : forall P c, valid_compact c ->
  exists m, valid_move m /\ move_of_cm P c = Ret m /\ cm_of_move P m = Ret c /\
    forall m', valid_move m' -> cm_of_move P m' = Ret c -> m' = m.
Proof.
  intros P c H. destruct (valid_compact_move c H) as (m & V & ->). exists m.
  rewrite cm_of_move_ok, move_of_cm_ok by auto. do 3 (split; auto).
  intros m' V'. rewrite cm_of_move_ok by auto. intros [= E]. now apply packed_inj.
Qed.

(** C09: the accessors of a [CompactMove] are those of the [Move] it encodes. *)
Lemma c09_accessors_agree_pf : forall P m c, valid_move m -> cm_of_move P m = Ret c ->
  cm_from P c = Ret (mv_from m) /\ cm_to c = Ret (mv_to m) /\
  cm_is_promoting c = mv_is_promoting m /\ cm_is_drop c = mv_is_drop m /\
  (o <- CompactMove_from P c;; Ret (os_into o)) = Ret (mv_from m).
Proof.
  intros P m c H E. rewrite cm_of_move_ok in E by auto. injection E as <-.
  destruct (cm_all P m H) as (_ & _ & E1 & E2 & E3 & E4).
  do 4 (split; auto). unfold CompactMove_from. rewrite E1. cbn [bind]. f_equal. apply os_round.
  destruct m; simpl; auto. apply H.
Qed.

(** C09: and the accessors of [Move] are what they say. *)
Lemma c09_move_accessors_pf : forall from to promote p,
  mv_from (Normal from to promote) = Some from /\ mv_to (Normal from to promote) = to /\
  mv_is_promoting (Normal from to promote) = promote /\ mv_is_drop (Normal from to promote) = false /\
  mv_from (Drop p to) = None /\ mv_to (Drop p to) = to /\
  mv_is_promoting (Drop p to) = false /\ mv_is_drop (Drop p to) = true.
Proof. intros f t [] p; repeat split. Qed.

(** C08: [==] on [Move], [CompactMove] and [OptionCompactMove] is equality. *)
Lemma c08_move_eq_pf : forall m m' c c' o o',
  (move_eqb m m' = true <-> m = m') /\ (cm_eqb c c' = true <-> c = c') /\ (ocm_eqb o o' = true <-> o = o').
Proof.
  intros. split; [apply move_eqb_eq|]. split; [apply cm_eqb_eq|].
  unfold ocm_eqb. rewrite N.eqb_eq. split; [apply ocm_inj|congruence].
Qed.
