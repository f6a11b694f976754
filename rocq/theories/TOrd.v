(** Proofs of the property theorems on [Ord], [Eq] and [Hash] (restated in Prop_Ord.v). *)
From Verif Require Export TGame LOrd.
(*PROPHEAD
Property theorems C41-C43: Ord, Eq and Hash
From Verif Require Import LSample.
*)

Lemma int_ord {A} (f : A -> N) : lawful_ord (fun a b => f a ?= f b) (fun a b => int_partial_cmp (f a) (f b)).
Proof. split; [|reflexivity]. apply good_order, (good_on f), good_N. Qed.
Lemma ints_ord {A} (f : A -> list N) :
  lawful_ord (fun a b => list_cmp N.compare (f a) (f b)) (fun a b => list_partial_cmp int_partial_cmp (f a) (f b)).
Proof. split; [|intros; apply list_partial]. apply good_order, (good_on f), good_list, good_N. Qed.
(** C41: [cmp] is a total order and [partial_cmp] is [Some] of it, for every type but positions and games. *)
Lemma c41_values_pf :
  lawful_ord color_cmp color_partial_cmp /\ lawful_ord pk_cmp pk_partial_cmp /\ lawful_ord gr_cmp gr_partial_cmp /\
  lawful_ord imk_cmp imk_partial_cmp /\ lawful_ord ps_cmp ps_partial_cmp /\
  lawful_ord sq_cmp sq_partial_cmp /\ lawful_ord os_cmp os_partial_cmp /\ lawful_ord piece_cmp piece_partial_cmp /\
  lawful_ord op_cmp op_partial_cmp /\ lawful_ord cm_cmp cm_partial_cmp /\ lawful_ord ocm_cmp ocm_partial_cmp /\
  lawful_ord ogr_cmp ogr_partial_cmp /\ lawful_ord rui_cmp rui_partial_cmp /\
  lawful_ord hand_cmp hand_partial_cmp /\ lawful_ord bb_cmp bb_partial_cmp /\ lawful_ord bs_cmp bs_partial_cmp /\
  lawful_ord move_cmp move_partial_cmp.
Proof.
  do 13 (split; [apply int_ord|]).
  split; [apply (ints_ord hand_bytes)|]. split; [apply (ints_ord (fun b => [bb0 b; bb1 b]))|]. split; [apply (ints_ord (fun b => [bs0 b; bs1 b]))|].
  split; [apply good_order, good_move|reflexivity].
Qed.
(** C41: the same for [PartialPosition], [Position], [PartialGame] and [Game]. *)
Lemma c41_positions_pf :
  lawful_ord pp_cmp pp_partial_cmp /\ lawful_ord pos_cmp pos_partial_cmp /\
  lawful_ord (game_cmp pp_cmp) (game_partial_cmp pp_cmp) /\ lawful_ord (game_cmp pos_cmp) (game_partial_cmp pos_cmp).
Proof.
  split; [split; [apply good_order, good_pp|reflexivity]|]. split; [split; [apply good_order, good_pos|reflexivity]|].
  split; (split; [apply good_order, good_game|reflexivity]); [apply good_pp|apply good_pos].
Qed.

(** ** [Eq] *)
Lemma int_agrees {A} (f : A -> N) : ord_agrees any (fun a b => f a ?= f b) (fun a b => f a =? f b).
Proof. intros a b _ _. rewrite N.compare_eq_iff, N.eqb_eq. tauto. Qed.
Lemma int_equality {A} (f : A -> N) : (forall a b, f a = f b -> a = b) -> is_equality any (fun a b => f a =? f b).
Proof. intros I a b _ _. rewrite N.eqb_eq. split; auto. now intros ->. Qed.
Ltac equality f := apply (int_equality f); first
  [ intros [] []; cbn; intros E; now (subst + discriminate E) || (now rewrite E)
  | intros [] []; cbn; congruence ].
(** C42: [cmp] says Equal exactly if [==] holds, and [==] is identity, for every type but positions and games. *)
Lemma c42_values_pf :
  (ord_agrees any color_cmp color_eqb /\ is_equality any color_eqb) /\
  (ord_agrees any pk_cmp pk_eqb /\ is_equality any pk_eqb) /\
  (ord_agrees any gr_cmp gr_eqb /\ is_equality any gr_eqb) /\
  (ord_agrees any imk_cmp imk_eqb /\ is_equality any imk_eqb) /\
  (ord_agrees any ps_cmp ps_eqb /\ is_equality any ps_eqb) /\
  (ord_agrees any sq_cmp sq_eqb /\ is_equality any sq_eqb) /\
  (ord_agrees any os_cmp os_eqb /\ is_equality any os_eqb) /\
  (ord_agrees any piece_cmp piece_eqb /\ is_equality any piece_eqb) /\
  (ord_agrees any op_cmp op_eqb /\ is_equality any op_eqb) /\
  (ord_agrees any cm_cmp cm_eqb /\ is_equality any cm_eqb) /\
  (ord_agrees any ocm_cmp ocm_eqb /\ is_equality any ocm_eqb) /\
  (ord_agrees any ogr_cmp ogr_eqb /\ is_equality any ogr_eqb) /\
  (ord_agrees any rui_cmp rui_eqb /\ is_equality any rui_eqb) /\
  (ord_agrees valid_hand hand_cmp hand_eqb /\ is_equality valid_hand hand_eqb) /\
  (ord_agrees any bb_cmp bb_eqb /\ is_equality any bb_eqb) /\
  (ord_agrees any bs_cmp bs_eqb /\ is_equality any bs_eqb) /\
  (ord_agrees any move_cmp move_eqb /\ is_equality any move_eqb).
Proof.
  split. { split; intros [] [] _ _; vm_compute; split; congruence. }
  split. { split; [apply (int_agrees pk_as_u8)|]. intros [] [] _ _; vm_compute; split; congruence. }
  split. { split; [apply (int_agrees gr_as_u8)|]. intros [] [] _ _; vm_compute; split; congruence. }
  split. { split; [apply (int_agrees imk_as_u8)|]. intros [] [] _ _; vm_compute; split; congruence. }
  split. { split; [apply (int_agrees ps_as_u8)|]. intros [] [] _ _; vm_compute; split; congruence. }
  split. { split; [apply (int_agrees sq_repr)|apply (int_equality sq_repr); intros [] []; cbn; congruence]. }
  split. { split; [apply (int_agrees os_repr)|apply (int_equality os_repr); intros [] []; cbn; congruence]. }
  split. { split; [apply (int_agrees piece_repr)|apply (int_equality piece_repr); intros [] []; cbn; congruence]. }
  split. { split; [apply (int_agrees op_repr)|apply (int_equality op_repr); intros [] []; cbn; congruence]. }
  split. { split; [apply (int_agrees cm_repr)|apply (int_equality cm_repr); intros [] []; cbn; congruence]. }
  split. { split; [apply (int_agrees ocm_repr)|apply (int_equality ocm_repr); intros [] []; cbn; congruence]. }
  split. { split; [apply (int_agrees ogr_repr)|apply (int_equality ogr_repr); intros [] []; cbn; congruence]. }
  split. { split; [apply (int_agrees rui_repr)|apply (int_equality rui_repr); intros [] []; cbn; congruence]. }
  split. { split; intros a b Va Vb; [rewrite hand_cmp_eq|]; rewrite hand_eqb_eq by auto; tauto. }
  split. { assert (E : is_equality any bb_eqb) by (intros a b _ _; apply bb_eqb_eq). split; auto. intros a b Va Vb. rewrite (E a b Va Vb).
    unfold bb_cmp. rewrite ints_eq. destruct a, b; cbn. split; congruence. }
  split. { assert (E : is_equality any bs_eqb) by (intros [] [] _ _; unfold bs_eqb; cbn; rewrite andb_true_iff, !N.eqb_eq; split; [intros []|intros [=]]; subst; auto).
    split; auto. intros a b Va Vb. rewrite (E a b Va Vb). unfold bs_cmp. rewrite ints_eq. destruct a, b; cbn. split; congruence. }
  split; intros a b _ _; [rewrite move_cmp_eq|]; rewrite move_eqb_eq; tauto.
Qed.
Lemma king_agree P s t : wf s -> wf t -> (forall c, king_position P s c = king_position P t c) -> pp_king_square s = pp_king_square t.
Proof.
  intros Ws Wt H. apply (nth_ext_list _ _ 2 (OptionSquare 0)); try apply wf_king_len; auto. intros i Hi. destruct (two_colors i Hi) as [c ->].
  apply os_into_inj. specialize (H c). rewrite !king_position_ok in H by auto. injection H as H. exact H.
Qed.
(** C42: the exact law for positions: [==] holds exactly if [cmp] says Equal and the king positions agree.
    Full statement: [forall P, ord_agrees (reachable P) pp_cmp pp_eqb]. *)
Lemma c42_positions_partial_pf : forall P s t, reachable P s -> reachable P t ->
  (pp_eqb s t = true <-> pp_cmp s t = Eq /\ forall c, king_position P s c = king_position P t c) /\
  (pp_eqb s t = true <-> s = t).
Proof.
  intros P s t R R'. pose proof (reachable_wf P s R) as W. pose proof (reachable_wf P t R') as W'.
  pose proof (pp_eqb_eq s t W W') as E. split; auto. rewrite E, pp_cmp_eq. split.
  - intros ->. split; [tauto|auto].
  - intros ((A & B & C & D & L) & K). apply wf_ext; auto. unfold aeq. cbn [abs a_side a_ply a_board a_hand a_last a_king].
    split; [exact A|]. split; [exact B|]. split; [intros; unfold cell; now rewrite D|]. split; [intros; unfold hand_at; now rewrite C|].
    split; [unfold last_at; now rewrite L|]. intros c. unfold king_at. now rewrite (king_agree P s t).
Qed.
Lemma played_same P s t : played P s -> played P t -> pp_cmp s t = Eq -> s = t.
Proof.
  intros H H' E. destruct (played_facts P s H) as (W & _ & K). destruct (played_facts P t H') as (W' & _ & K').
  destruct (c42_positions_partial_pf P s t (played_reachable P s H) (played_reachable P t H')) as [X Y]. apply Y, X. clear X Y.
  split; auto. intros c. rewrite !king_position_ok by auto. f_equal.
  rewrite pp_cmp_eq in E. destruct E as (_ & _ & _ & D & _).
  assert (B : forall q, a_board (abs s) q = a_board (abs t) q) by (intros q; cbn [abs a_board]; unfold cell; now rewrite D).
  destruct (K c) as [V1 I1], (K' c) as [V2 I2]. change (a_king (abs s) c = a_king (abs t) c).
  destruct (a_king (abs s) c) as [q|] eqn:E1.
  - pose proof (V1 q eq_refl) as V. symmetry. apply I2; auto. rewrite <- B. now apply I1.
  - destruct (a_king (abs t) c) as [q|] eqn:E2; auto. pose proof (V2 q eq_refl) as V. apply I1; auto. rewrite B. now apply I2.
Qed.
(** C42: in play (positions reached from the starting position by moves) [Ord] and [Eq] agree.
    Full statement: [forall P, ord_agrees (reachable P) pp_cmp pp_eqb], and the same for [Position] and the games. *)
Lemma c42_in_play_partial_pf : forall P,
  ord_agrees (played P) pp_cmp pp_eqb /\
  ord_agrees (fun p => played P (initial_position p) /\ played P (inner p)) pos_cmp pos_eqb /\
  ord_agrees (fun g => played P (game_position g)) (game_cmp pp_cmp) (game_eqb pp_eqb) /\
  ord_agrees (fun g => played P (initial_position (game_position g)) /\ played P (inner (game_position g))) (game_cmp pos_cmp) (game_eqb pos_eqb).
Proof.
  intros P. assert (G : ord_agrees (played P) pp_cmp pp_eqb).
  { intros s t H H'. rewrite pp_eqb_eq by (eapply played_wf; eauto). split; [now apply (played_same P)|]. intros ->. apply good_pp. }
  assert (G2 : ord_agrees (fun p => played P (initial_position p) /\ played P (inner p)) pos_cmp pos_eqb).
  { intros p q [H1 H2] [H3 H4]. unfold pos_cmp, pos_eqb, initial_position, inner in *. rewrite !then_eq, !andb_true_iff, (G _ _ H1 H3), (G _ _ H2 H4).
    rewrite (list_eq _ (fun _ => True)), (list_eqb_eq move_eqb (fun _ => True)); try (apply Forall_forall; tauto); [tauto| |];
      intros; [apply move_eqb_eq|apply move_cmp_eq]. }
  split; [exact G|]. split; [exact G2|].
  split; intros g h H H'; unfold game_cmp, game_eqb, ogr_cmp, ogr_eqb; rewrite then_eq, andb_true_iff, N.compare_eq_iff, N.eqb_eq.
  - rewrite (G _ _ H H'). tauto.
  - rewrite (G2 _ _ H H'). tauto.
Qed.
(** Put a king somewhere and take it away again *)
Definition ghost : list op := [OpPieceSet (square_at 5 5) (Some (piece_of King Black)); OpPieceSet (square_at 5 5) None].
Definition ghost_pos : partial_position :=
  Eval vm_compute in match run_ops Debug pp_empty ghost with Ret (s, _) => s | _ => pp_empty end.
Lemma ghost_reachable P : reachable P ghost_pos.
Proof.
  exists pp_empty, ghost, [true; true]. split; [now left|]. split; [|destruct P; vm_compute; reflexivity].
  repeat constructor; try (vm_compute; discriminate).
Qed.
(** C42 is false for positions and games: [king_square] takes part in [==] but not in [cmp].
    Full statement: [forall P, ord_agrees (reachable P) pp_cmp pp_eqb], and the same for [Position] and the games. *)
Lemma c42_positions_refuted_pf : forall P, exists s t, reachable P s /\ reachable P t /\
  (pp_cmp s t = Eq /\ pp_eqb s t = false) /\
  (pos_cmp (arbitrary_position s) (arbitrary_position t) = Eq /\ pos_eqb (arbitrary_position s) (arbitrary_position t) = false) /\
  (forall r, game_cmp pp_cmp (GameOf s r) (GameOf t r) = Eq /\ game_eqb pp_eqb (GameOf s r) (GameOf t r) = false) /\
  (forall r, game_cmp pos_cmp (GameOf (arbitrary_position s) r) (GameOf (arbitrary_position t) r) = Eq /\
             game_eqb pos_eqb (GameOf (arbitrary_position s) r) (GameOf (arbitrary_position t) r) = false).
Proof.
  intros P. exists pp_empty, ghost_pos. split; [exists pp_empty, [], []; split; [now left|split; auto]|]. split; [apply ghost_reachable|].
  assert (A : pp_cmp pp_empty ghost_pos = Eq) by (vm_compute; reflexivity).
  assert (B : pp_eqb pp_empty ghost_pos = false) by (vm_compute; reflexivity).
  assert (C : pos_cmp (arbitrary_position pp_empty) (arbitrary_position ghost_pos) = Eq) by (unfold pos_cmp; cbn [arbitrary_position pos_initial pos_inner pos_moves]; now rewrite A).
  assert (D : pos_eqb (arbitrary_position pp_empty) (arbitrary_position ghost_pos) = false) by (unfold pos_eqb; cbn [arbitrary_position pos_initial pos_inner pos_moves]; now rewrite B).
  split; [auto|]. split; [auto|].
  split; intros r; unfold game_cmp, game_eqb; cbn [g_inner g_resolution]; rewrite ?A, ?B, ?C, ?D; split; auto; apply N.compare_refl.
Qed.

(** ** [Hash] *)
Lemma equality_hash {A T} (V : A -> Prop) eqb (h : A -> list T) : is_equality V eqb -> hash_agrees V eqb h.
Proof. intros E a b Va Vb H. apply E in H; auto. now subst. Qed.
(** C43: equal values feed the same data to the hasher, for every type but positions and games. *)
Lemma c43_values_pf :
  hash_agrees any color_eqb color_hash /\ hash_agrees any pk_eqb pk_hash /\ hash_agrees any gr_eqb gr_hash /\
  hash_agrees any imk_eqb imk_hash /\ hash_agrees any ps_eqb ps_hash /\ hash_agrees any sq_eqb sq_hash /\ hash_agrees any os_eqb os_hash /\
  hash_agrees any piece_eqb piece_hash /\ hash_agrees any op_eqb op_hash /\ hash_agrees any cm_eqb cm_hash /\ hash_agrees any ocm_eqb ocm_hash /\
  hash_agrees any ogr_eqb ogr_hash /\ hash_agrees any rui_eqb rui_hash /\ hash_agrees valid_hand hand_eqb hand_hash /\
  hash_agrees any bb_eqb bb_hash /\ hash_agrees any bs_eqb bs_hash /\ hash_agrees any move_eqb move_hash.
Proof.
  pose proof c42_values_pf as H. do 16 destruct H as [[_ ?] H]. destruct H as [_ ?].
  repeat (split; [apply equality_hash; assumption|]). apply equality_hash; assumption.
Qed.
(** C43: the same for positions and games, with any history. *)
Lemma c43_positions_pf : forall P,
  hash_agrees (reachable P) pp_eqb pp_hash /\
  hash_agrees (fun p => reachable P (initial_position p) /\ reachable P (inner p)) pos_eqb pos_hash /\
  hash_agrees (fun g => reachable P (game_position g)) (game_eqb pp_eqb) (game_hash pp_hash) /\
  hash_agrees (fun g => reachable P (initial_position (game_position g)) /\ reachable P (inner (game_position g))) (game_eqb pos_eqb) (game_hash pos_hash).
Proof.
  intros P. assert (G : forall s t, reachable P s -> reachable P t -> pp_eqb s t = true -> s = t).
  { intros s t R R' E. now apply (c42_positions_partial_pf P s t R R'). }
  assert (G2 : forall p q, (reachable P (initial_position p) /\ reachable P (inner p)) -> (reachable P (initial_position q) /\ reachable P (inner q)) ->
    pos_eqb p q = true -> p = q).
  { intros [i n m] [i' n' m'] [H1 H2] [H3 H4]. unfold pos_eqb. cbn [pos_initial pos_inner pos_moves initial_position inner] in *.
    rewrite !andb_true_iff. intros [[E1 E2] E3]. apply G in E1, E2; auto. apply (list_eqb_eq move_eqb (fun _ => True)) in E3;
      try (apply Forall_forall; tauto); [congruence|]. intros; apply move_eqb_eq. }
  split; [intros s t R R' E; now rewrite (G s t R R' E)|]. split; [intros p q R R' E; now rewrite (G2 p q R R' E)|].
  split; intros [g [r]] [h [r']] R R'; unfold game_eqb, ogr_eqb; cbn [g_inner g_resolution game_position ogr_repr] in *; rewrite andb_true_iff, N.eqb_eq;
    intros [E ->]; [rewrite (G _ _ R R' E)|rewrite (G2 _ _ R R' E)]; reflexivity.
Qed.
