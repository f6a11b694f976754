(** Proofs of the property theorems on the generated constants (restated in Prop_Build.v). *)
From Verif Require Export LPiece LSquare MBuild SpecBuild.
(*PROPHEAD
Property theorems C49: the constants generated by the build script
*)

Lemma exactly_list {A B} (dom : A -> Prop) name (value : A -> B) l xs :
  l = map (fun a => (name a, value a)) xs -> NoDup (map name xs) -> (forall a, dom a <-> In a xs) -> exactly dom name value l.
Proof.
  intros -> N D. split; [rewrite map_map; exact N|]. split.
  - intros a Ha. apply in_map_iff. exists a. split; auto. now apply D.
  - intros n v H. apply in_map_iff in H as (a & [= <- <-] & Ha). exists a. split; auto. now apply D.
Qed.
Fixpoint nodup_strings (l : list string) : bool :=
  match l with [] => true | x :: t => negb (existsb (String.eqb x) t) && nodup_strings t end.
Lemma nodup_strings_ok l : nodup_strings l = true -> NoDup l.
Proof.
  induction l as [|x l IH]; [constructor|]. cbn. rewrite andb_true_iff, negb_true_iff. intros [H1 H2]. constructor; auto. intros H.
  assert (E : existsb (String.eqb x) l = true) by (apply existsb_exists; exists x; split; [auto|apply String.eqb_refl]). congruence.
Qed.
Definition kind_colors : list (piece_kind * color) := flat_map (fun c => map (fun k => (k, c)) all_kinds) [Black; White].
Lemma kind_colors_all x : True <-> In x kind_colors.
Proof. split; auto. intros _. destruct x as [[] []]; vm_compute; tauto. Qed.
Definition file_ranks : list (N * N) := flat_map (fun f => map (fun r => (f, r)) (range 1 10)) (range 1 10).
Lemma file_ranks_all x : (1 <= fst x <= 9 /\ 1 <= snd x <= 9) <-> In x file_ranks.
Proof.
  unfold file_ranks. rewrite in_flat_map. destruct x as [f r]. cbn [fst snd]. split.
  - intros [F R]. exists f. split; [apply range_In; lia|]. apply in_map. apply range_In. lia.
  - intros (f' & F & H). apply in_map_iff in H as (r' & [= <- <-] & R). apply range_In in F, R. lia.
Qed.
(** C49: each of the two places with piece constants (associated constants of [Piece], module [piece]) has exactly one constant per kind
    and color, with that name and the value [Piece::new] gives for it. *)
Lemma c49_pieces_pf : forall P here, In here [of_impl "Piece"; of_mod "piece"] ->
  exists cs vs, constants here piece_consts_rs = Some cs /\ all_some (fun x => piece_meaning P (snd x)) cs = Some vs /\ length cs = 28%nat /\
    exactly (fun _ => True) (fun x => piece_name (fst x) (snd x)) (fun x => Ret (piece_of (fst x) (snd x))) vs.
Proof.
  intros P here H.
  assert (G : exists cs, constants here piece_consts_rs = Some cs /\
    all_some (fun x => piece_meaning P (snd x)) cs = Some (map (fun x => (piece_name (fst x) (snd x), Ret (piece_of (fst x) (snd x)))) kind_colors) /\ length cs = 28%nat).
  { destruct H as [<-|[<-|[]]]; (eexists; split; [vm_compute; reflexivity|]); destruct P; vm_compute; auto. }
  destruct G as (cs & E & V & L). exists cs. eexists. split; [exact E|]. split; [exact V|]. split; [exact L|].
  eapply exactly_list; [reflexivity|apply nodup_strings_ok; vm_compute; reflexivity|apply kind_colors_all].
Qed.
(** C49: each of the two places with square constants has exactly one constant per file 1-9 and rank A-I, with that name, which is
    [Square::new] of that file and rank. *)
Lemma c49_squares_pf : forall P here, In here [of_impl "Square"; of_mod "square"] ->
  exists cs vs, constants here square_consts_rs = Some cs /\ all_some (fun x => square_meaning (snd x)) cs = Some vs /\ length cs = 81%nat /\
    exactly (fun x => 1 <= fst x <= 9 /\ 1 <= snd x <= 9) (fun x => square_name (fst x) (snd x)) (fun x => Ret (square_at (fst x) (snd x))) vs /\
    forall f r, 1 <= f <= 9 -> 1 <= r <= 9 -> sq_new P f r = Ret (Some (square_at f r)).
Proof.
  intros P here H.
  assert (G : exists cs, constants here square_consts_rs = Some cs /\
    all_some (fun x => square_meaning (snd x)) cs = Some (map (fun x => (square_name (fst x) (snd x), Ret (square_at (fst x) (snd x)))) file_ranks) /\ length cs = 81%nat).
  { destruct H as [<-|[<-|[]]]; (eexists; split; [vm_compute; reflexivity|]); vm_compute; auto. }
  destruct G as (cs & E & V & L). exists cs. eexists. split; [exact E|]. split; [exact V|]. split; [exact L|]. split.
  - eapply exactly_list; [reflexivity|apply nodup_strings_ok; vm_compute; reflexivity|apply file_ranks_all].
  - intros f r F R. apply sq_new_some. split; auto.
Qed.
(** C49: the files contain no other constants, and the doc comment of every constant in a module names the associated constant of the
    same name. *)
Lemma c49_nothing_else_pf :
  (exists a b, constants (of_impl "Piece") piece_consts_rs = Some a /\ constants (of_mod "piece") piece_consts_rs = Some b /\
     constants (fun _ => true) piece_consts_rs = Some (a ++ b) /\ forallb (says "Piece") b = true) /\
  (exists a b, constants (of_impl "Square") square_consts_rs = Some a /\ constants (of_mod "square") square_consts_rs = Some b /\
     constants (fun _ => true) square_consts_rs = Some (a ++ b) /\ forallb (says "Square") b = true).
Proof.
  split; do 2 eexists; (split; [vm_compute; reflexivity|]); (split; [vm_compute; reflexivity|]); split; vm_compute; reflexivity.
Qed.
(** C49: what the rest of the model uses for these constants is what the text says; any other name does not exist. *)
Lemma c49_model_pf : forall P,
  (forall k c, piece_const P (piece_name k c) = Ret (piece_of k c)) /\
  (forall f r, 1 <= f <= 9 -> 1 <= r <= 9 -> square_const (square_name f r) = Ret (square_at f r)) /\
  (forall n, (forall k c, n <> piece_name k c) -> piece_const P n = Panic) /\
  (forall n, (forall f r, 1 <= f <= 9 -> 1 <= r <= 9 -> n <> square_name f r) -> square_const n = Panic).
Proof.
  assert (AS : forall A (l : list (string * A)) n, ~ In n (map fst l) -> assoc n l = None).
  { intros A l n. induction l as [|[m x] l IH]; [reflexivity|]. cbn. intros H. destruct (String.eqb_spec m n); [tauto|]. apply IH. tauto. }
  intros P. split; [|split; [|split]].
  - intros [] []; destruct P; vm_compute; reflexivity.
  - intros f r F R. assert (Hi : In (f, r) file_ranks) by (apply file_ranks_all; auto).
    assert (A : forallb (fun x => match square_const (square_name (fst x) (snd x)) with Ret s => sq_eqb s (square_at (fst x) (snd x)) | _ => false end) file_ranks = true)
      by (vm_compute; reflexivity).
    rewrite forallb_forall in A. specialize (A _ Hi). cbn [fst snd] in A. revert A. generalize (square_const (square_name f r)) (square_at f r).
    intros [x| |] y A; [apply N.eqb_eq in A|discriminate A|discriminate A]. destruct x as [x], y as [y]. cbn [sq_repr] in A. now subst.
  - intros n H. unfold piece_const. rewrite AS; auto. assert (E : map fst piece_consts = map (fun x => piece_name (fst x) (snd x)) kind_colors) by (vm_compute; reflexivity).
    rewrite E. intros Q. apply in_map_iff in Q as ([k c] & <- & _). now apply (H k c).
  - intros n H. unfold square_const. rewrite AS; auto. assert (E : map fst square_consts = map (fun x => square_name (fst x) (snd x)) file_ranks) by (vm_compute; reflexivity).
    rewrite E. intros Q. apply in_map_iff in Q as ([f r] & <- & Hi). apply file_ranks_all in Hi as [F R]. now apply (H f r).
Qed.
