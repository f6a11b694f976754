(** A concrete no-std program used in the examples beside the theorems. *)
From Verif Require Export LSampleC SpecArena.

(** the arena at 64 KiB, four bytes to a move *)
Definition code1 (mv : move) : list N :=
  match mv with
  | Normal f t p => [0; sq_repr f; sq_repr t; if p then 1 else 0]
  | Drop p t => [1; piece_repr p; sq_repr t; 0]
  end.
Definition build1 : n_build := NBuild 65536 box1 8 4 code1 vec_grow.
Lemma vec_grow_more c : c < vec_grow c.
Proof. unfold vec_grow. lia. Qed.
Lemma build1_ok : build_ok 64 8 build1.
Proof.
  split; [apply box1_ok|]. split; [exists 3; split; reflexivity|]. split; [exists 1; reflexivity|]. split; [reflexivity|].
  split; [intros []; reflexivity|]. split; [reflexivity|apply vec_grow_more].
Qed.
Lemma arena1_free : arena_free build1 ram1.
Proof. intros y [Y _]. cbn [build1 nb_base] in Y. unfold ram1. destruct (N.ltb_spec y 4096); [lia|reflexivity]. Qed.
(** five moves in one game, so that its list grows once, and a second position in between *)
Definition program2 : list h_op :=
  [HNew 0; HMove 0 (cmove (nm 7 7 7 6 false)); HMove 0 (cmove (nm 3 3 3 4 false)); HNew 1; HMove 1 (cmove (nm 2 7 2 6 false)); HMove 0 (cmove (nm 2 7 2 6 false));
   HMove 0 (cmove (nm 5 5 5 4 false)); HMove 0 (cmove (nm 8 3 8 4 false)); HMove 0 (cmove (nm 2 6 2 5 false)); HFree 1; HInner 0 0; HText 0 0; HAsk 0 HPly].
Definition agree2 (a : outcome (hclient * list c_result)) (b : res (n_world * list c_result)) : Prop :=
  match a with
  | Fine (st, rs) =>
      match b with
      | Ret (nw, rs') =>
          rs = rs' /\ nth 6 rs CNothing = CBool false /\ nth 12 rs CNothing = CNumber 6 /\
          w_live (nw_world nw) 0 = Some (195848, [nm 7 7 7 6 false; nm 3 3 3 4 false; nm 2 7 2 6 false; nm 8 3 8 4 false; nm 2 6 2 5 false]) /\
          w_live (nw_world nw) 1 = None /\ nw_rem nw = 129488 /\ nw_vec nw 0 = (195024, 8) /\
          map (w_mem (nw_world nw)) [195024; 195025; 195026; 195027; 195040; 195041; 195042; 195043] = map Some [0; 61; 60; 0; 0; 15; 14; 0] /\
          (w_mem (nw_world nw) 195056, w_mem (nw_world nw) 195072) = (None, None)
      | _ => False
      end
  | _ => False
  end.
(** a much larger [Position] *)
Definition build2 : n_build := NBuild 65536 (BoxLayout 60000 24 392) 8 4 code1 vec_grow.
Lemma box2_ok : box_ok 8 (nb_box build2).
Proof. split; [exists 3; reflexivity|]. split; [exists 49; reflexivity|]. vm_compute. repeat split; try discriminate. left. discriminate. Qed.
Lemma build2_ok : build_ok 64 8 build2.
Proof.
  split; [apply box2_ok|]. split; [exists 3; split; reflexivity|]. split; [exists 1; reflexivity|]. split; [reflexivity|].
  split; [intros []; reflexivity|]. split; [reflexivity|apply vec_grow_more].
Qed.
Lemma arena2_free : arena_free build2 ram1.
Proof. exact arena1_free. Qed.
