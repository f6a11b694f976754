(** Property theorems C87: values of the crate as keys of the standard maps *)
From Verif Require Import TCollections.
From Verif Require Import LSample TOrd TRepeat.

(** C87: values of every type but positions and games are good keys of a [HashMap], whatever its hasher and the number of its buckets: after any calls [get], [insert] and [remove] answer with what was inserted last under this very value, and [keys] lists each key that has a value once. *)
Theorem c87_hash_values :
  good_hash_key any color_eqb color_hash /\ good_hash_key any pk_eqb pk_hash /\ good_hash_key any gr_eqb gr_hash /\
  good_hash_key any imk_eqb imk_hash /\ good_hash_key any ps_eqb ps_hash /\ good_hash_key any sq_eqb sq_hash /\ good_hash_key any os_eqb os_hash /\
  good_hash_key any piece_eqb piece_hash /\ good_hash_key any op_eqb op_hash /\ good_hash_key any cm_eqb cm_hash /\ good_hash_key any ocm_eqb ocm_hash /\
  good_hash_key any ogr_eqb ogr_hash /\ good_hash_key any rui_eqb rui_hash /\ good_hash_key valid_hand hand_eqb hand_hash /\
  good_hash_key any bb_eqb bb_hash /\ good_hash_key any bs_eqb bs_hash /\ good_hash_key any move_eqb move_hash.
Proof. exact c87_hash_values_pf. Qed.
Print Assumptions c87_hash_values.
Example c87_hash_values_ex :
  let a := Normal (Square 1) (Square 2) false in let b := Normal (Square 1) (Square 2) true in
  Forall (valid_key any) [MInsert a 1; MInsert b 2; MInsert a 3; MRemove b; MGet b; MGet a; MKeys] /\
  (* all keys in one bucket *)
  hash_session move_eqb move_hash (fun _ => 0) (fun _ _ => 1%nat) [MInsert a 1; MInsert b 2; MInsert a 3; MRemove b; MGet b; MGet a; MKeys] =
    [AValue None; AValue None; AValue (Some 1); AValue (Some 2); AValue None; AValue (Some 3); AKeys [a]] /\
  (* a table that grows *)
  hash_session sq_eqb sq_hash (fun l => match l with [HInt _ n] => n | _ => 0 end) (fun n _ => (2 * n + 1)%nat)
    [MInsert (Square 4) 1; MInsert (Square 9) 2; MInsert (Square 5) 3; MGet (Square 9); MKeys] =
    [AValue None; AValue None; AValue None; AValue (Some 2); AKeys [Square 5; Square 4; Square 9]].
Proof. split; [repeat constructor|]. vm_compute. auto. Qed.

(** C87: so are positions and games with any history. *)
Theorem c87_hash_positions : forall P,
  good_hash_key (reachable P) pp_eqb pp_hash /\
  good_hash_key (fun p => reachable P (initial_position p) /\ reachable P (inner p)) pos_eqb pos_hash /\
  good_hash_key (fun g => reachable P (game_position g)) (game_eqb pp_eqb) (game_hash pp_hash) /\
  good_hash_key (fun g => reachable P (initial_position (game_position g)) /\ reachable P (inner (game_position g))) (game_eqb pos_eqb) (game_hash pos_hash).
Proof. exact c87_hash_positions_pf. Qed.
Print Assumptions c87_hash_positions.
Example c87_hash_positions_ex : forall P, reachable P pp_empty /\ reachable P ghost_pos /\
  hash_session pp_eqb pp_hash (fun _ => 0) (fun _ _ => 1%nat) [MInsert pp_empty 1; MInsert ghost_pos 2; MGet pp_empty; MGet ghost_pos] =
    [AValue None; AValue None; AValue (Some 1); AValue (Some 2)].
Proof. intros P. split; [exists pp_empty, [], []; split; [now left|split; auto]|]. split; [apply ghost_reachable|]. vm_compute. reflexivity. Qed.

(** C87: the same for a [BTreeMap] of any shape, and [keys] lists the keys in the order of [cmp]. *)
Theorem c87_tree_values :
  good_tree_key any color_cmp /\ good_tree_key any pk_cmp /\ good_tree_key any gr_cmp /\ good_tree_key any imk_cmp /\ good_tree_key any ps_cmp /\
  good_tree_key any sq_cmp /\ good_tree_key any os_cmp /\ good_tree_key any piece_cmp /\ good_tree_key any op_cmp /\ good_tree_key any cm_cmp /\
  good_tree_key any ocm_cmp /\ good_tree_key any ogr_cmp /\ good_tree_key any rui_cmp /\ good_tree_key valid_hand hand_cmp /\
  good_tree_key any bb_cmp /\ good_tree_key any bs_cmp /\ good_tree_key any move_cmp.
Proof. exact c87_tree_values_pf. Qed.
Print Assumptions c87_tree_values.
Example c87_tree_values_ex :
  tree_session sq_cmp (fun t => t) [MInsert (Square 4) 1; MInsert (Square 9) 2; MInsert (Square 2) 3; MInsert (Square 4) 5; MRemove (Square 9); MGet (Square 4); MKeys] =
    [AValue None; AValue None; AValue None; AValue (Some 1); AValue (Some 2); AValue (Some 5); AKeys [Square 2; Square 4]].
Proof. reflexivity. Qed.

(** C87: positions and games reached by play from the starting position are good keys of a [BTreeMap]. *)
Theorem c87_tree_played : forall P,
  good_tree_key (played P) pp_cmp /\
  good_tree_key (fun p => played P (initial_position p) /\ played P (inner p)) pos_cmp /\
  good_tree_key (fun g => played P (game_position g)) (game_cmp pp_cmp) /\
  good_tree_key (fun g => played P (initial_position (game_position g)) /\ played P (inner (game_position g))) (game_cmp pos_cmp).
Proof. exact c87_tree_played_pf. Qed.
Print Assumptions c87_tree_played.
Example c87_tree_played_ex : forall P, played P pos1 /\ played P the_startpos /\
  tree_session pp_cmp (fun t => t) [MInsert pos1 1; MInsert the_startpos 2; MGet pos1; MGet the_startpos] =
    [AValue None; AValue None; AValue (Some 1); AValue (Some 2)].
Proof. intros P. split; [apply pos1_played|]. split; [apply start_played|]. vm_compute. reflexivity. Qed.

(** C87: with any history, a [BTreeMap] takes positions for one another exactly if they show the same but for the king positions. *)
Theorem c87_tree_positions : forall P, tree_key (reachable P) (alike P) pp_cmp.
Proof. exact c87_tree_positions_pf. Qed.
Print Assumptions c87_tree_positions.
Example c87_tree_positions_ex : forall P, reachable P pp_empty /\ reachable P ghost_pos /\ pp_empty <> ghost_pos /\
  tree_session pp_cmp (fun t => t) [MInsert pp_empty 1; MInsert ghost_pos 2; MGet pp_empty; MInsert pos2 3; MGet pos2] =
    [AValue None; AValue (Some 1); AValue (Some 2); AValue None; AValue (Some 3)].
Proof.
  intros P. split; [exists pp_empty, [], []; split; [now left|split; auto]|]. split; [apply ghost_reachable|]. split; [discriminate|]. vm_compute. reflexivity.
Qed.

(** C87 (full statement refuted): positions and games with any history are not good keys of a [BTreeMap]. *)
Theorem c87_tree_positions_refuted : forall P,
  ~ good_tree_key (reachable P) pp_cmp /\
  ~ good_tree_key (fun p => reachable P (initial_position p) /\ reachable P (inner p)) pos_cmp /\
  ~ good_tree_key (fun g => reachable P (game_position g)) (game_cmp pp_cmp) /\
  ~ good_tree_key (fun g => reachable P (initial_position (game_position g)) /\ reachable P (inner (game_position g))) (game_cmp pos_cmp).
Proof. exact c87_tree_positions_refuted_pf. Qed.
Print Assumptions c87_tree_positions_refuted.
(* an empty board, and one from which a king was taken: one key of a tree, two keys of a table *)
Example c87_tree_positions_refuted_ex :
  tree_session pp_cmp (fun t => t) [MInsert pp_empty 1; MInsert ghost_pos 2; MKeys] = [AValue None; AValue (Some 1); AKeys [pp_empty]] /\
  hash_session pp_eqb pp_hash (fun _ => 0) (fun _ _ => 1%nat) [MInsert pp_empty 1; MInsert ghost_pos 2; MKeys] = [AValue None; AValue None; AKeys [ghost_pos; pp_empty]].
Proof. vm_compute. auto. Qed.

(** C87: counting with a [HashMap], as in [*map.entry(k).or_insert(0) += 1], counts how often each key came, for every type whose [==] is identity. *)
Theorem c87_tally : forall K (valid : K -> Prop) eqb hash H grow ks k n, is_equality valid eqb -> Forall valid ks -> valid k -> times k ks n ->
  hm_get K N eqb hash H k (hm_tally eqb hash H grow hm_new ks) = if n =? 0 then None else Some n.
Proof. exact c87_tally_pf. Qed.
Print Assumptions c87_tally.
Example c87_tally_ex :
  is_equality any sq_eqb /\ times (Square 4) [Square 4; Square 9; Square 4] 2 /\
  hm_get square N sq_eqb sq_hash (fun _ => 7) (Square 4) (hm_tally sq_eqb sq_hash (fun _ => 7) (fun n _ => n) hm_new [Square 4; Square 9; Square 4]) = Some 2.
Proof.
  split; [intros [a] [b] _ _; unfold sq_eqb; cbn; rewrite N.eqb_eq; split; congruence|]. split; [|reflexivity].
  apply (times_same _ _ 1). apply times_other; [discriminate|]. apply (times_same _ _ 0). constructor.
Qed.

(** C87: a [HashMap] of positions does not find repetitions: in a game of fewer than 65536 moves every position is counted once. *)
Theorem c87_positions_once : forall P H grow s ms ss x, reachable P s -> line P s ms ss -> N.of_nat (length ms) < 65536 -> In x ss ->
  hm_get partial_position N pp_eqb pp_hash H x (hm_tally pp_eqb pp_hash H grow hm_new ss) = Some 1.
Proof. exact c87_positions_once_pf. Qed.
Print Assumptions c87_positions_once.
(* rooks go to and fro: the board of the start comes three times, but no position twice *)
Example c87_positions_once_ex :
  let rooks := [Normal (square_at 2 8) (square_at 3 8) false; Normal (square_at 8 2) (square_at 7 2) false; Normal (square_at 3 8) (square_at 2 8) false; Normal (square_at 7 2) (square_at 8 2) false] in
  exists ss, line Debug the_startpos (rooks ++ rooks) ss /\ length ss = 9%nat /\
    map (fun x => hm_get partial_position N pp_eqb pp_hash (fun _ => 0) x (hm_tally pp_eqb pp_hash (fun _ => 0) (fun _ _ => 1%nat) hm_new ss)) ss = repeat (Some 1) 9.
Proof.
  eexists. split.
  - repeat (eapply line_move; [repeat split; vm_compute; auto; discriminate|vm_compute; reflexivity|]). apply line_end.
  - vm_compute. auto.
Qed.

(** C87: a [HashMap] of the SFEN texts with the number of the move set to one counts for any list of positions, those of a game for example, how often the same board, hands and side to move came. *)
Theorem c87_texts : forall P hash H grow ss bs ts s a t,
  Forall2 (fun s a => reachable P s /\ sees P s a) ss bs -> Forall2 (fun s t => setting_text P s = Ret t) ss ts ->
  reachable P s -> sees P s a -> setting_text P s = Ret t ->
  let n := N.of_nat (length (filter (same_setting a) bs)) in
  hm_get (list N) N (list_eqb N.eqb) hash H t (hm_tally (list_eqb N.eqb) hash H grow hm_new ts) = if n =? 0 then None else Some n.
Proof. exact c87_texts_pf. Qed.
Print Assumptions c87_texts.
(* the same game: the text of the start is counted three times *)
Example c87_texts_ex :
  let rooks := [Normal (square_at 2 8) (square_at 3 8) false; Normal (square_at 8 2) (square_at 7 2) false; Normal (square_at 3 8) (square_at 2 8) false; Normal (square_at 7 2) (square_at 8 2) false] in
  exists ss ts, line Debug the_startpos (rooks ++ rooks) ss /\ Forall2 (fun s t => setting_text Debug s = Ret t) ss ts /\
    map (fun t => hm_get (list N) N (list_eqb N.eqb) (fun t => [HSlice 8 t]) (fun _ => 0) t (hm_tally (list_eqb N.eqb) (fun t => [HSlice 8 t]) (fun _ => 0) (fun _ _ => 1%nat) hm_new ts)) ts =
      [Some 3; Some 2; Some 2; Some 2; Some 3; Some 2; Some 2; Some 2; Some 3].
Proof.
  eexists _, _. split; [|split].
  - repeat (eapply line_move; [repeat split; vm_compute; auto; discriminate|vm_compute; reflexivity|]). apply line_end.
  - repeat (constructor; [vm_compute; reflexivity|]). constructor.
  - vm_compute. reflexivity.
Qed.
