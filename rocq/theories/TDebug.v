(*PROPHEAD
The texts of the derived [Debug] implementations.
From Verif Require Import LSample SpecDebug MDebug SpecSfen SpecBoard.
*)
From Verif Require Import LSfen LDebugInj SpecDebug MDebug.
Local Open Scope list_scope.

Lemma shown b d t : good d = true -> numbers_fit d -> tree_text b d = t -> debug_prints (fmt_debug b d) t.
Proof.
  intros G N <-. assert (H : prints (fmt_debug b d) (tree_text b d)) by (apply prints_debug; [easy|now apply good_fields]).
  split; [easy|]. split; [now apply prints_honest|]. unfold formatted. now rewrite (prints_string _ _ H).
Qed.
Lemma list_tree {A} b (f : A -> debug_tree) (g : A -> text) l : (forall x, tree_text b (f x) = g x) -> tree_text b (list_of f l) = list_text b (map g l).
Proof. intros H. cbn [list_of tree_text node_text]. rewrite !map_map. f_equal. apply map_ext. intros x. cbn [snd]. apply H. Qed.
Lemma list_good {A} (f : A -> debug_tree) l : (forall x, good (f x) = true) -> good (list_of f l) = true.
Proof.
  intros H. cbn [list_of good kname_ok]. replace (kind_ok DList (map (fun x => ([], f x)) l)) with true by (now destruct l). cbn [andb].
  apply forallb_forall. intros x I. apply in_map_iff in I as (y & <- & _). cbn [fst snd label_ok]. apply H.
Qed.
Lemma list_fit {A} (f : A -> debug_tree) l : Forall (fun x => numbers_fit (f x)) l -> numbers_fit (list_of f l).
Proof. intros F. cbn [list_of numbers_fit]. induction F; cbn [map fold_right]; auto. Qed.
Lemma list_tree_inj {A} (f : A -> debug_tree) l m : (forall x y, f x = f y -> x = y) -> list_of f l = list_of f m -> l = m.
Proof.
  intros H E. injection E as E. revert m E. induction l as [|x l IH]; intros [|y m] E; try discriminate; [easy|].
  cbn [map] in E. injection E as E1 E2. f_equal; auto.
Qed.

(** ** Trees of the types *)
Lemma hand_tree b h : tree_text b (hand_debug h) = hand_dtext b h.
Proof.
  unfold hand_debug, hand_dtext, numbers, tuple. cbn [tree_text node_text map fst snd].
  change (tree_text b (DNode DList (map (fun x : N => ([], DNum x)) (hand_bytes h)))) with (tree_text b (list_of DNum (hand_bytes h))).
  now rewrite (list_tree b DNum decimal).
Qed.
Lemma hand_good h : good (hand_debug h) = true.
Proof.
  unfold hand_debug, tuple. cbn [good kind_ok forallb fst snd label_ok]. change (good (DNode DList ?x)) with (good (DNode DList x)).
  pose proof (list_good DNum (hand_bytes h) (fun _ => eq_refl)) as L. cbn [list_of good kname_ok] in *. cbn [andb] in *. now rewrite L.
Qed.
Lemma pp_tree b s : tree_text b (pp_debug s) = partial_dtext b s.
Proof.
  unfold pp_debug, partial_dtext, struct. cbn [map fst snd]. cbn [tree_text]. cbn [map fst snd node_text].
  rewrite (list_tree b hand_debug (hand_dtext b)) by apply hand_tree.
  rewrite (list_tree b op_debug (opiece_dtext b)) by reflexivity.
  rewrite !(list_tree b bb_debug (bitboard_dtext b)) by reflexivity.
  rewrite (list_tree b os_debug (osquare_dtext b)) by reflexivity.
  f_equal. f_equal. now destruct (pp_side s).
Qed.
Lemma pp_good s : good (pp_debug s) = true.
Proof.
  unfold pp_debug, struct. cbn [map fst snd]. cbn [good kind_ok forallb fst snd].
  rewrite (list_good hand_debug) by apply hand_good. rewrite (list_good op_debug) by reflexivity.
  rewrite !(list_good bb_debug) by reflexivity. rewrite (list_good os_debug) by reflexivity. now destruct (pp_side s).
Qed.
Lemma pp_fit s : partial_sized s -> numbers_fit (pp_debug s).
Proof.
  intros (A & B & C & D & E & F & G). unfold pp_debug, struct. cbn [map fst snd]. cbn [numbers_fit fold_right snd]. unfold word64 in *.
  split; [now destruct (pp_side s)|]. split; [exact A|]. split.
  { apply list_fit. eapply Forall_impl; [|exact B]. intros h H. cbn [hand_debug tuple numbers_fit fold_right snd]. split; [|easy].
    apply (list_fit DNum). exact H. }
  split. { apply list_fit. eapply Forall_impl; [|exact C]. intros p H. now split. }
  split. { apply list_fit. eapply Forall_impl; [|exact D]. intros p [H H']. now repeat split. }
  split. { apply list_fit. eapply Forall_impl; [|exact E]. intros p [H H']. now repeat split. }
  split. { now split. }
  split; [|easy]. apply list_fit. eapply Forall_impl; [|exact G]. intros p H. now split.
Qed.
Lemma into_small {A} (mk : N -> A) (V : A -> Prop) n bound : (forall k, V (mk k) -> k < bound) -> 0 < bound ->
  valid_o V (match nonzero_new n with Some k => Some (mk k) | None => None end) -> n < bound.
Proof. intros H B. unfold nonzero_new. destruct (n =? 0) eqn:E; [apply N.eqb_eq in E; now subst|]. cbn. apply H. Qed.
Lemma wf_sized s : wf s -> partial_sized s.
Proof.
  intros W. unfold partial_sized, word64. assert (T : forall n, n < 65536 -> n < 2 ^ 64) by (intros n H; eapply N.lt_trans; [exact H|reflexivity]).
  split; [apply T, wf_ply, W|].
  split. { eapply Forall_impl; [|apply (wf_hands s W)]. intros h (_ & F & _). eapply Forall_impl; [|exact F]. cbv beta. intros n H. apply T. lia. }
  assert (B : forall l, Forall valid_bb l -> Forall (fun x => bb0 x < 2 ^ 64 /\ bb1 x < 2 ^ 64) l).
  { intros l F. eapply Forall_impl; [|exact F]. intros x [H1 H2]. split; [eapply N.lt_trans; [exact H1|reflexivity]|eapply N.lt_trans; [exact H2|reflexivity]]. }
  split; [|split; [apply B, wf_player_valid, W|split; [apply B, wf_kind_valid, W|split]]].
  - eapply Forall_impl; [|apply (wf_board s W)]. intros p H. apply T. unfold cell_ok, op_into in H.
    apply (into_small Piece valid_piece (op_repr p)); [|easy|exact H]. intros k V. unfold valid_piece in V. cbn in V. lia.
  - apply T. pose proof (wf_last s W) as H. apply (into_small CompactMove valid_compact (ocm_repr (pp_last_move s))); [|easy|exact H].
    intros k (m & V & E). cbn in E. subst k. now apply packed_u16.
  - eapply Forall_impl; [|apply (wf_king s W)]. intros p H. apply T. unfold king_ok, os_into in H.
    apply (into_small Square valid_square (os_repr p)); [|easy|exact H]. intros k V. unfold valid_square in V. cbn in V. lia.
Qed.
Lemma hand_tree_inj h g : hand_debug h = hand_debug g -> h = g.
Proof.
  unfold hand_debug, tuple. intros E. assert (X : list_of DNum (hand_bytes h) = list_of DNum (hand_bytes g)) by (injection E; intros; unfold list_of; now f_equal).
  apply list_tree_inj in X; [|now intros x y [=]]. destruct h, g. cbn in X. now subst.
Qed.
Lemma color_tree_inj c d : color_debug c = color_debug d -> c = d.
Proof. destruct c, d; intros E; try easy; discriminate E. Qed.
Lemma tuple_inj name x y : tuple name x = tuple name y -> x = y.
Proof. unfold tuple. now intros [= ->]. Qed.
Lemma num_inj n m : DNum n = DNum m -> n = m.
Proof. now intros [=]. Qed.
Lemma op_tree_inj p q : op_debug p = op_debug q -> p = q.
Proof. intros E. apply tuple_inj, num_inj in E. destruct p, q. cbn in E. now subst. Qed.
Lemma os_tree_inj p q : os_debug p = os_debug q -> p = q.
Proof. intros E. apply tuple_inj, num_inj in E. destruct p, q. cbn in E. now subst. Qed.
Lemma bb_tree_inj p q : bb_debug p = bb_debug q -> p = q.
Proof. unfold bb_debug. intros E. apply tuple_inj in E. apply list_tree_inj in E; [|apply num_inj]. destruct p, q. cbn in E. now injection E as -> ->. Qed.
Definition field (d : debug_tree) (i : nat) : debug_tree := match d with DNode _ items => snd (nth i items ([], d)) | _ => d end.
Lemma pp_tree_inj s t : pp_debug s = pp_debug t -> s = t.
Proof.
  intros E. assert (F : forall i, field (pp_debug s) i = field (pp_debug t) i) by (intros i; now rewrite E). clear E.
  pose proof (color_tree_inj _ _ (F 0%nat)) as F0. pose proof (num_inj _ _ (F 1%nat)) as F1.
  pose proof (list_tree_inj _ _ _ hand_tree_inj (F 2%nat)) as F2. pose proof (list_tree_inj _ _ _ op_tree_inj (F 3%nat)) as F3.
  pose proof (list_tree_inj _ _ _ bb_tree_inj (F 4%nat)) as F4. pose proof (list_tree_inj _ _ _ bb_tree_inj (F 5%nat)) as F5.
  pose proof (num_inj _ _ (tuple_inj _ _ _ (F 6%nat))) as F6. pose proof (list_tree_inj _ _ _ os_tree_inj (F 7%nat)) as F7.
  clear F. destruct s as [s0 s1 s2 s3 s4 s5 [s6] s7], t as [t0 t1 t2 t3 t4 t5 [t6] t7].
  cbn [pp_side pp_ply pp_hands pp_board pp_player_bb pp_piece_bb pp_last_move pp_king_square ocm_repr] in *. now subst.
Qed.
Lemma sq_tree_inj p q : sq_debug p = sq_debug q -> p = q.
Proof. intros E. apply tuple_inj, num_inj in E. destruct p, q. cbn in E. now subst. Qed.
Lemma piece_tree_inj p q : piece_debug p = piece_debug q -> p = q.
Proof. intros E. apply tuple_inj, num_inj in E. destruct p, q. cbn in E. now subst. Qed.
Lemma bool_tree_inj a b : bool_debug a = bool_debug b -> a = b.
Proof. destruct a, b; intros E; try easy; discriminate E. Qed.
Lemma move_tree_inj m n : move_debug m = move_debug n -> m = n.
Proof.
  intros E. assert (F : forall i, field (move_debug m) i = field (move_debug n) i) by (intros i; now rewrite E).
  destruct m as [f t p|p t], n as [f' t' p'|p' t']; try discriminate E; clear E.
  - pose proof (sq_tree_inj _ _ (F 0%nat)) as F0. pose proof (sq_tree_inj _ _ (F 1%nat)) as F1. pose proof (bool_tree_inj _ _ (F 2%nat)) as F2.
    clear F. now subst.
  - pose proof (piece_tree_inj _ _ (F 0%nat)) as F0. pose proof (sq_tree_inj _ _ (F 1%nat)) as F1. clear F. now subst.
Qed.
Lemma move_good m : good (move_debug m) = true.
Proof. now destruct m as [f t []|p t]. Qed.
Lemma move_tree b m : tree_text b (move_debug m) = move_dtext b m.
Proof. now destruct m as [f t []|p t]. Qed.
Lemma move_fit m : move_sized m -> numbers_fit (move_debug m).
Proof. unfold move_sized, word64. destruct m as [f t p|p t]; intros [H1 H2]; repeat split; try assumption. Qed.
Lemma pos_good p : good (pos_debug p) = true.
Proof.
  unfold pos_debug, struct. cbn [map fst snd]. cbn [good kind_ok forallb fst snd]. rewrite !pp_good, (list_good move_debug) by apply move_good. reflexivity.
Qed.
Lemma pos_tree b p : tree_text b (pos_debug p) = position_dtext b p.
Proof.
  unfold pos_debug, position_dtext, struct. cbn [map fst snd]. cbn [tree_text]. cbn [map fst snd node_text].
  now rewrite !pp_tree, (list_tree b move_debug (move_dtext b)) by apply move_tree.
Qed.
Lemma pos_fit p : position_sized p -> numbers_fit (pos_debug p).
Proof.
  intros (A & B & C). unfold pos_debug, struct. cbn [map fst snd]. cbn [numbers_fit fold_right snd].
  split; [now apply pp_fit|]. split; [now apply pp_fit|]. split; [|easy]. apply list_fit. eapply Forall_impl; [|exact C]. apply move_fit.
Qed.
Lemma pos_tree_inj p q : pos_debug p = pos_debug q -> p = q.
Proof.
  intros E. assert (F : forall i, field (pos_debug p) i = field (pos_debug q) i) by (intros i; now rewrite E). clear E.
  pose proof (pp_tree_inj _ _ (F 0%nat)) as F0. pose proof (pp_tree_inj _ _ (F 1%nat)) as F1.
  pose proof (list_tree_inj _ _ _ move_tree_inj (F 2%nat)) as F2. clear F. destruct p as [p0 p1 p2], q as [q0 q1 q2]. cbn [pos_initial pos_inner pos_moves] in *. now subst.
Qed.
Lemma game_good g : good (game_debug g) = true.
Proof. unfold game_debug, struct. cbn [map fst snd]. cbn [good kind_ok forallb fst snd]. now rewrite pos_good. Qed.
Lemma partial_game_good g : good (partial_game_debug g) = true.
Proof. unfold partial_game_debug, struct. cbn [map fst snd]. cbn [good kind_ok forallb fst snd]. now rewrite pp_good. Qed.
Lemma game_tree b g : tree_text b (game_debug g) = game_dtext b g.
Proof. unfold game_debug, game_dtext, struct. cbn [map fst snd]. cbn [tree_text]. cbn [map fst snd node_text]. now rewrite pos_tree. Qed.
Lemma partial_game_tree b g : tree_text b (partial_game_debug g) = partial_game_dtext b g.
Proof. unfold partial_game_debug, partial_game_dtext, struct. cbn [map fst snd]. cbn [tree_text]. cbn [map fst snd node_text]. now rewrite pp_tree. Qed.
Lemma game_fit g : position_sized (g_inner g) -> word64 (ogr_repr (g_resolution g)) -> numbers_fit (game_debug g).
Proof. intros A B. unfold game_debug, struct. cbn [map fst snd]. cbn [numbers_fit fold_right snd]. split; [now apply pos_fit|]. now repeat split. Qed.
Lemma partial_game_fit g : partial_sized (g_inner g) -> word64 (ogr_repr (g_resolution g)) -> numbers_fit (partial_game_debug g).
Proof. intros A B. unfold partial_game_debug, struct. cbn [map fst snd]. cbn [numbers_fit fold_right snd]. split; [now apply pp_fit|]. now repeat split. Qed.
Lemma game_tree_inj g h : game_debug g = game_debug h -> g = h.
Proof.
  intros E. assert (F : forall i, field (game_debug g) i = field (game_debug h) i) by (intros i; now rewrite E). clear E.
  pose proof (pos_tree_inj _ _ (F 0%nat)) as F0. pose proof (num_inj _ _ (tuple_inj _ _ _ (F 1%nat))) as F1. clear F.
  destruct g as [a [r]], h as [a' [r']]. cbn [g_inner g_resolution ogr_repr] in *. now subst.
Qed.
Lemma partial_game_tree_inj g h : partial_game_debug g = partial_game_debug h -> g = h.
Proof.
  intros E. assert (F : forall i, field (partial_game_debug g) i = field (partial_game_debug h) i) by (intros i; now rewrite E). clear E.
  pose proof (pp_tree_inj _ _ (F 0%nat)) as F0. pose proof (num_inj _ _ (tuple_inj _ _ _ (F 1%nat))) as F1. clear F.
  destruct g as [a [r]], h as [a' [r']]. cbn [g_inner g_resolution ogr_repr] in *. now subst.
Qed.

(** C76: the small values print their variant's name, or the type's name with the number in parentheses (on a line of its own with ["{:#?}"]);
    every sink is offered exactly that. *)
Lemma c76_values_pf : forall b,
  (forall c, debug_prints (fmt_debug b (color_debug c)) (color_name c)) /\
  (forall k, debug_prints (fmt_debug b (pk_debug k)) (kind_name k)) /\
  (forall r, debug_prints (fmt_debug b (gr_debug r)) (resolution_name r)) /\
  (forall k, debug_prints (fmt_debug b (imk_debug k)) (illegal_name k)) /\
  (forall s, debug_prints (fmt_debug b (ps_debug s)) (status_name s)) /\
  (forall s, word64 (sq_repr s) -> debug_prints (fmt_debug b (sq_debug s)) (square_dtext b s)) /\
  (forall s, word64 (os_repr s) -> debug_prints (fmt_debug b (os_debug s)) (osquare_dtext b s)) /\
  (forall p, word64 (piece_repr p) -> debug_prints (fmt_debug b (piece_debug p)) (piece_dtext b p)) /\
  (forall p, word64 (op_repr p) -> debug_prints (fmt_debug b (op_debug p)) (opiece_dtext b p)) /\
  (forall m, word64 (cm_repr m) -> debug_prints (fmt_debug b (cm_debug m)) (compact_dtext b m)) /\
  (forall m, word64 (ocm_repr m) -> debug_prints (fmt_debug b (ocm_debug m)) (ocompact_dtext b m)) /\
  (forall r, word64 (rui_repr r) -> debug_prints (fmt_debug b (rui_debug r)) (result_dtext b r)) /\
  (forall r, word64 (ogr_repr r) -> debug_prints (fmt_debug b (ogr_debug r)) (oresolution_dtext b r)).
Proof.
  intros b. repeat (split; [intros x; try intros H; apply shown; [now destruct x|now destruct x|now destruct x]|]).
  intros x H; apply shown; now destruct x.
Qed.
(** C76: hands, bitboards, moves, positions and games print the name of the type with all fields, in the order of their declaration. *)
Lemma c76_structures_pf : forall b,
  (forall h, Forall word64 (hand_bytes h) -> debug_prints (fmt_debug b (hand_debug h)) (hand_dtext b h)) /\
  (forall x, word64 (bb0 x) -> word64 (bb1 x) -> debug_prints (fmt_debug b (bb_debug x)) (bitboard_dtext b x)) /\
  (forall x, word64 (bs0 x) -> word64 (bs1 x) -> debug_prints (fmt_debug b (bs_debug x)) (swapped_dtext b x)) /\
  (forall m, move_sized m -> debug_prints (fmt_debug b (move_debug m)) (move_dtext b m)) /\
  (forall s, partial_sized s -> debug_prints (fmt_debug b (pp_debug s)) (partial_dtext b s)) /\
  (forall p, position_sized p -> debug_prints (fmt_debug b (pos_debug p)) (position_dtext b p)) /\
  (forall g, position_sized (g_inner g) -> word64 (ogr_repr (g_resolution g)) -> debug_prints (fmt_debug b (game_debug g)) (game_dtext b g)) /\
  (forall g, partial_sized (g_inner g) -> word64 (ogr_repr (g_resolution g)) ->
     debug_prints (fmt_debug b (partial_game_debug g)) (partial_game_dtext b g)) /\
  (forall P s, reachable P s -> partial_sized s).
Proof.
  intros b. split; [|split; [|split; [|split; [|split; [|split; [|split; [|split]]]]]]].
  - intros h H. apply shown; [apply hand_good| |apply hand_tree]. cbn [hand_debug tuple numbers_fit fold_right snd]. split; [|easy]. now apply (list_fit DNum).
  - intros x H H'. apply shown; [reflexivity|now repeat split|reflexivity].
  - intros x H H'. apply shown; [reflexivity|now repeat split|reflexivity].
  - intros m H. apply shown; [apply move_good|now apply move_fit|apply move_tree].
  - intros s H. apply shown; [apply pp_good|now apply pp_fit|apply pp_tree].
  - intros p H. apply shown; [apply pos_good|now apply pos_fit|apply pos_tree].
  - intros g H H'. apply shown; [apply game_good|now apply game_fit|apply game_tree].
  - intros g H H'. apply shown; [apply partial_game_good|now apply partial_game_fit|apply partial_game_tree].
  - intros P s R. now apply wf_sized, (reachable_wf P).
Qed.
Lemma tells_of {A} b (ok : A -> Prop) eqb (f : A -> debug_tree) : (forall x, good (f x) = true) -> (forall x, ok x -> numbers_fit (f x)) ->
  (forall x y, f x = f y -> x = y) -> (forall x y, ok x -> ok y -> (eqb x y = true <-> x = y)) -> tells ok eqb (fun x => fmt_debug b (f x)).
Proof.
  intros G N I E x y X Y. destruct (shown b (f x) _ (G x) (N x X) eq_refl) as (_ & _ & F). destruct (shown b (f y) _ (G y) (N y Y) eq_refl) as (_ & _ & F').
  exists (tree_text b (f x)), (tree_text b (f y)). split; [exact F|]. split; [exact F'|]. rewrite E by assumption. split; [|congruence].
  intros T. apply I. now apply (tree_text_inj b).
Qed.
Lemma repr_eqb {A} (r : A -> N) x y : (forall x y, r x = r y -> x = y) -> (r x =? r y) = true <-> x = y.
Proof. intros H. rewrite N.eqb_eq. split; [apply H|congruence]. Qed.
(** C76: the text tells apart exactly what the derived [==] tells apart: small values. *)
Lemma c76_tells_values_pf : forall b,
  tells (fun _ => True) color_eqb (fun c => fmt_debug b (color_debug c)) /\
  tells (fun _ => True) pk_eqb (fun c => fmt_debug b (pk_debug c)) /\
  tells (fun _ => True) gr_eqb (fun c => fmt_debug b (gr_debug c)) /\
  tells (fun _ => True) imk_eqb (fun c => fmt_debug b (imk_debug c)) /\
  tells (fun _ => True) ps_eqb (fun c => fmt_debug b (ps_debug c)) /\
  tells (fun s => word64 (sq_repr s)) sq_eqb (fun s => fmt_debug b (sq_debug s)) /\
  tells (fun s => word64 (os_repr s)) os_eqb (fun s => fmt_debug b (os_debug s)) /\
  tells (fun p => word64 (piece_repr p)) piece_eqb (fun p => fmt_debug b (piece_debug p)) /\
  tells (fun p => word64 (op_repr p)) op_eqb (fun p => fmt_debug b (op_debug p)) /\
  tells (fun m => word64 (cm_repr m)) cm_eqb (fun m => fmt_debug b (cm_debug m)) /\
  tells (fun m => word64 (ocm_repr m)) ocm_eqb (fun m => fmt_debug b (ocm_debug m)) /\
  tells (fun r => word64 (rui_repr r)) rui_eqb (fun r => fmt_debug b (rui_debug r)) /\
  tells (fun r => word64 (ogr_repr r)) ogr_eqb (fun r => fmt_debug b (ogr_debug r)).
Proof.
  intros b. split; [|split; [|split; [|split; [|split; [|split; [|split; [|split; [|split; [|split; [|split; [|split]]]]]]]]]]];
    (apply tells_of; [now intros []|now intros []|intros [] []; intros E; first [discriminate E|reflexivity|now injection E as ->]|intros x y _ _]).
  1-5: destruct x, y; split; intros E; first [discriminate E|reflexivity].
  all: apply repr_eqb; intros [] [] E; cbn in E; now subst.
Qed.
(** C76: ... and hands, bitboards, moves, and all that a client can have of positions and games. *)
Lemma c76_tells_structures_pf : forall b P,
  tells valid_hand hand_eqb (fun h => fmt_debug b (hand_debug h)) /\
  tells (fun x => u64_pair (bb0 x) (bb1 x)) bb_eqb (fun x => fmt_debug b (bb_debug x)) /\
  tells (fun x => u64_pair (bs0 x) (bs1 x)) bs_eqb (fun x => fmt_debug b (bs_debug x)) /\
  tells move_sized move_eqb (fun m => fmt_debug b (move_debug m)) /\
  tells (reachable P) pp_eqb (fun s => fmt_debug b (pp_debug s)) /\
  tells (fun p => reachable P (initial_position p) /\ reachable P (inner p) /\ Forall valid_move (moves p)) pos_eqb (fun p => fmt_debug b (pos_debug p)) /\
  tells (fun g => let p := g_inner g in reachable P (initial_position p) /\ reachable P (inner p) /\ Forall valid_move (moves p) /\ ogr_repr (g_resolution g) < 256)
    (game_eqb pos_eqb) (fun g => fmt_debug b (game_debug g)) /\
  tells (fun g => reachable P (g_inner g) /\ ogr_repr (g_resolution g) < 256) (game_eqb pp_eqb) (fun g => fmt_debug b (partial_game_debug g)).
Proof.
  intros b P. assert (T : forall n, n < 256 -> n < 2 ^ 64) by (intros n H; eapply N.lt_trans; [exact H|reflexivity]).
  assert (SZ : forall p, reachable P (initial_position p) /\ reachable P (inner p) /\ Forall valid_move (moves p) -> position_sized p).
  { intros p (A & B & C). split; [now apply wf_sized, (reachable_wf P)|]. split; [now apply wf_sized, (reachable_wf P)|].
    eapply Forall_impl; [|exact C]. intros [f t x|x t] [H H']; unfold valid_square, valid_piece in *; split; apply T; lia. }
  assert (PE : forall p q, reachable P (initial_position p) /\ reachable P (inner p) /\ Forall valid_move (moves p) ->
    reachable P (initial_position q) /\ reachable P (inner q) /\ Forall valid_move (moves q) -> (pos_eqb p q = true <-> p = q)).
  { intros p q (A & B & _) (A' & B' & _). unfold pos_eqb. rewrite !andb_true_iff, !pp_eqb_eq by now apply (reachable_wf P).
    rewrite (list_eqb_eq move_eqb (fun _ => True)); try (apply Forall_forall; tauto); [|intros; apply LMove.move_eqb_eq].
    destruct p as [p0 p1 p2], q as [q0 q1 q2]; cbn [pos_initial pos_inner pos_moves]. split; [intros [[-> ->] ->]|intros [= -> -> ->]]; tauto. }
  split; [|split; [|split; [|split; [|split; [|split; [|split]]]]]].
  - apply tells_of; [apply hand_good| |apply hand_tree_inj|intros; now apply hand_eqb_eq]. intros h (_ & F & _).
    cbn [hand_debug tuple numbers_fit fold_right snd]. split; [|easy]. apply (list_fit DNum). eapply Forall_impl; [|exact F]. cbv beta. apply T.
  - apply tells_of; [reflexivity|intros x [H H']; now repeat split|apply bb_tree_inj|intros; apply bb_eqb_eq].
  - apply tells_of; [reflexivity|intros x [H H']; now repeat split| |].
    + intros x y E. unfold bs_debug in E. apply tuple_inj in E. apply list_tree_inj in E; [|apply num_inj]. destruct x, y. cbn in E. now injection E as -> ->.
    + intros [x0 x1] [y0 y1] _ _. unfold bs_eqb. cbn [bs0 bs1]. rewrite andb_true_iff, !N.eqb_eq. split; [intros [-> ->]|intros [= -> ->]]; easy.
  - apply tells_of; [apply move_good|apply move_fit|apply move_tree_inj|intros; apply LMove.move_eqb_eq].
  - apply tells_of; [apply pp_good|intros s R; now apply pp_fit, wf_sized, (reachable_wf P)|apply pp_tree_inj|].
    intros s t R R'. apply pp_eqb_eq; now apply (reachable_wf P).
  - apply tells_of; [apply pos_good|intros p H; now apply pos_fit, SZ|apply pos_tree_inj|exact PE].
  - apply tells_of; [apply game_good|intros g (A & B & C & D); apply game_fit; [now apply SZ|now apply T]|apply game_tree_inj|].
    intros g h (A & B & C & _) (A' & B' & C' & _). unfold game_eqb. rewrite andb_true_iff, PE by auto. unfold ogr_eqb. rewrite N.eqb_eq.
    destruct g as [x [r]], h as [y [r']]. cbn [g_inner g_resolution ogr_repr]. split; [intros [-> ->]|intros [= -> ->]]; easy.
  - apply tells_of; [apply partial_game_good|intros g (A & D); apply partial_game_fit; [now apply wf_sized, (reachable_wf P)|now apply T]|apply partial_game_tree_inj|].
    intros g h (A & _) (A' & _). unfold game_eqb. rewrite andb_true_iff, pp_eqb_eq by now apply (reachable_wf P). unfold ogr_eqb. rewrite N.eqb_eq.
    destruct g as [x [r]], h as [y [r']]. cbn [g_inner g_resolution ogr_repr]. split; [intros [-> ->]|intros [= -> ->]]; easy.
Qed.
Lemma gist_of {A} (ok : A -> Prop) (f : A -> debug_tree) : (forall x, good (f x) = true) -> (forall x, ok x -> numbers_fit (f x)) ->
  same_gist ok (fun b x => fmt_debug b (f x)).
Proof.
  intros G N x X. destruct (shown true (f x) _ (G x) (N x X) eq_refl) as (_ & _ & F). destruct (shown false (f x) _ (G x) (N x X) eq_refl) as (_ & _ & F').
  exists (tree_text true (f x)), (tree_text false (f x)). split; [exact F|]. split; [exact F'|]. now apply gist_pretty.
Qed.
(** C76: ["{:?}"] and ["{:#?}"] differ in blanks, line ends and the comma before a closing bracket only. *)
Lemma c76_formats_pf :
  same_gist (fun s => word64 (sq_repr s)) (fun b s => fmt_debug b (sq_debug s)) /\
  same_gist (fun p => word64 (piece_repr p)) (fun b p => fmt_debug b (piece_debug p)) /\
  same_gist (fun h => Forall word64 (hand_bytes h)) (fun b h => fmt_debug b (hand_debug h)) /\
  same_gist (fun x => u64_pair (bb0 x) (bb1 x)) (fun b x => fmt_debug b (bb_debug x)) /\
  same_gist move_sized (fun b m => fmt_debug b (move_debug m)) /\
  same_gist partial_sized (fun b s => fmt_debug b (pp_debug s)) /\
  same_gist position_sized (fun b p => fmt_debug b (pos_debug p)) /\
  same_gist (fun g => position_sized (g_inner g) /\ word64 (ogr_repr (g_resolution g))) (fun b g => fmt_debug b (game_debug g)) /\
  same_gist (fun g => partial_sized (g_inner g) /\ word64 (ogr_repr (g_resolution g))) (fun b g => fmt_debug b (partial_game_debug g)).
Proof.
  split; [|split; [|split; [|split; [|split; [|split; [|split; [|split]]]]]]]; apply gist_of.
  - reflexivity.
  - intros s H. now split.
  - reflexivity.
  - intros s H. now split.
  - apply hand_good.
  - intros h H. cbn [hand_debug tuple numbers_fit fold_right snd]. split; [|easy]. now apply (list_fit DNum).
  - reflexivity.
  - intros x [H H']. now repeat split.
  - apply move_good.
  - apply move_fit.
  - apply pp_good.
  - apply pp_fit.
  - apply pos_good.
  - apply pos_fit.
  - apply game_good.
  - intros g [H H']. now apply game_fit.
  - apply partial_game_good.
  - intros g [H H']. now apply partial_game_fit.
Qed.
