(** Concrete C programs used in the examples beside the theorems. *)
From Verif Require Export LSample SpecHeap.

(** a block holds the move list, then both positions; the allocator knows two places *)
Definition box1 : box_layout := BoxLayout 760 24 392.
Definition is_free (m : mem) (a : N) : bool := forallb (fun i => match m (a + i) with None => true | Some _ => false end) (range 0 760).
Definition alloc1 (m : mem) : option N := find (is_free m) [8192; 16384].
Definition env1 : c_env := CEnv (fun i => 512 * N.of_nat i) (fun t => 2048 + 256 * N.of_nat t).
Definition ram1 : mem := fun a => if a <? 4096 then Some 255 else None.
Definition cmove (mv : move) : compact_move := CompactMove (packed mv).
Lemma box1_ok : box_ok 8 box1.
Proof. split; [exists 3; reflexivity|]. split; [exists 49; reflexivity|]. vm_compute. repeat split; try discriminate. left. discriminate. Qed.
Lemma alloc1_fresh : fresh_blocks 8 box1 alloc1.
Proof.
  intros m a H. unfold alloc1 in H. apply find_some in H. destruct H as [I F]. split.
  - destruct I as [<-|[<-|[]]]; [exists 1024|exists 2048]; reflexivity.
  - intros x [X Y]. unfold is_free in F. rewrite forallb_forall in F. cbn [box1 bx_size] in Y. specialize (F (x - a)).
    replace (a + (x - a)) with x in F by lia. destruct (m x); auto. discriminate F. unfold range. apply in_map_iff. exists (N.to_nat (x - a)). split; [lia|]. apply in_seq. lia.
Qed.
Lemma ram1_placed : placed 8 env1 2 2 ram1.
Proof.
  split; [intros i _; exists (64 * N.of_nat i); unfold env1; cbn [at_pos]; change (position_align 8) with 8; lia|]. split.
  - intros [i|t] V j L; exists 255; cbn [variable region fst snd env1 at_pos at_text] in *; change (position_size 8) with 368 in *;
      unfold ram1; match goal with |- (if ?a <? ?b then _ else _) = _ => destruct (N.ltb_spec a b); [reflexivity|lia] end.
  - intros [i|t] [j|u] x V W D; unfold in_variable, in_region; cbn [variable region fst snd env1 at_pos at_text] in *; change (position_size 8) with 368; intros X Y;
      try (assert (i <> j) by congruence); try (assert (t <> u) by congruence); lia.
Qed.
(** two objects, one destructed and its place used again *)
Definition program1 : list h_op :=
  [HNew 0; HMove 0 (cmove (nm 7 7 7 6 false)); HNew 1; HMove 1 (cmove (nm 2 7 2 6 false)); HAlias 2 0; HMove 2 (cmove (nm 3 3 3 4 false)); HMove 0 (cmove (nm 8 8 2 2 true));
   HInner 0 0; HInitial 1 0; HFree 1; HNew 1; HText 2 0; HText 1 1; HAsk 0 HPly; HAsk 1 HPly; HAsk 2 (HHand Black); HLocal (CPly 0); HFree 2].
Definition agree1 (a : outcome (hclient * list c_result)) (b : res (world * list c_result)) : Prop :=
  match a with
  | Fine (st, rs) =>
      match b with
      | Ret (w, rs') =>
          rs = rs' /\ skipn 13 rs = [CNumber 4; CNumber 1; CHandOf (Hand [0; 0; 0; 0; 0; 1; 0; 0]); CNumber 4; CNothing] /\
          cl_text (hc_local st) 0%nat = Some (bytes "lnsgkgsnl/1r5+B1/pppppp1pp/6p2/9/2P6/PP1PPPPPP/7R1/LNSGKGSNL w B 4") /\
          (hc_object st 0, hc_object st 1, hc_next st) = (None, None, 3) /\ (w_live w 0, w_live w 1, w_live w 2) = (None, None, Some (16384, [])) /\
          (w_mem w 8192, w_mem w 16384, w_mem w 17144) = (None, Some 0, None)
      | _ => False
      end
  | _ => False
  end.

(** [pos] at 1024, [buf] at 2048, one literal at 3000 for both assertions *)
Definition literal : list N := bytes "lnsgkgsnl/1r5b1/ppppppppp/9/9/9/PPPPPPPPP/1B5R1/LNSGKGSNL b - 1" ++ [0].
Definition ram2 : mem := fun a => if (3000 <=? a) && (a <? 3064) then Some (nth (N.to_nat (a - 3000)) literal 0) else if a <? 4096 then Some 170 else None.

(** the program of C59: two positions, two texts *)
Definition calls1 : list c_op :=
  [CStartpos 0; CMove 0 (cmove (nm 7 7 7 6 false)); CAssign 1 0; CMove 1 (cmove (nm 3 3 3 4 false)); CMove 1 (cmove (nm 8 8 2 2 true));
   CMove 1 (cmove (nm 5 5 5 4 false)); CHand 1 Black; CPieceAt 0 (square_at 2 2); CPieceAt 1 (square_at 2 2); CPly 0; CPly 1; CSideToMove 0;
   CLastMove 1; CBits 1 (CKinds Bishop); CBits 1 (CPieces (piece_of ProBishop Black)); CToSfen 1 1; CAssign 0 0; CToSfen 0 0].
Definition calls1_agree (a : option (client * list c_result)) (b : res (mem * list c_result)) : Prop :=
  match a with
  | Some (st, rs) =>
      match b with
      | Ret (m, rs') =>
          rs = rs' /\ nth 6 rs CNothing = CHandOf (Hand [0; 0; 0; 0; 0; 1; 0; 0]) /\ nth 5 rs CNothing = CBool false /\ nth 8 rs CNothing = CPiece (OptionPiece 13) /\
          cl_text st 1%nat = Some (bytes "lnsgkgsnl/1r5+B1/pppppp1pp/6p2/9/2P6/PP1PPPPPP/7R1/LNSGKGSNL w B 4") /\
          map m (range 2304 2312) = map (fun b => Some b) (bytes "lnsgkgsn")
      | _ => False
      end
  | None => False
  end.
(** the bytes of a position, twice in memory *)
Definition pos1_bytes : list N := Eval vm_compute in
  match store_pp 8 Little (fun _ => 7) (fun a => if a <? 368 then Some 0 else None) 0 pos1 with
  | Ret m => map (fun a => match m a with Some v => v | None => 0 end) (range 0 368)
  | _ => []
  end.
Definition ram4 : mem := fun a => if a <? 800 then Some (nth (N.to_nat (a mod 400)) pos1_bytes 0) else None.
Lemma ram4_bytes : holds_bytes ram4.
Proof.
  intros a v. unfold ram4. destruct (N.ltb_spec a 800); [|discriminate]. intros E. assert (V : v = nth (N.to_nat (a mod 400)) pos1_bytes 0) by congruence. rewrite V. clear E V.
  assert (B : forallb (fun v => v <? 256) pos1_bytes = true) by (vm_compute; reflexivity). rewrite forallb_forall in B.
  destruct (Nat.ltb_spec (N.to_nat (a mod 400)) (length pos1_bytes)); [pose proof (B _ (List.nth_In pos1_bytes 0 H0)) as X; apply N.ltb_lt in X; exact X|rewrite nth_overflow by assumption; reflexivity].
Qed.
Lemma ram4_accessible a : a + 368 <= 800 -> accessible ram4 a (position_size 8).
Proof. intros H i I. change (position_size 8) with 368 in I. eexists. unfold ram4. destruct (N.ltb_spec (a + i) 800); [reflexivity|lia]. Qed.
(** ... and once, after other bytes *)
Definition ram5 : mem := fun a => if a <? 400 then Some 9 else ram4 a.
Lemma ram5_accessible a : a + 368 <= 800 -> accessible ram5 a (position_size 8).
Proof.
  intros H i I. unfold ram5. destruct (N.ltb_spec (a + i) 400); [now exists 9|]. apply ram4_accessible; assumption.
Qed.
Lemma apart_0_400 : apart 0 400 (position_size 8).
Proof. intros x. unfold in_region. change (position_size 8) with 368. lia. Qed.
Lemma aligned_400 : aligned 8 400.
Proof. now exists 50. Qed.
Lemma ram2_accessible a n : a + n <= 4096 -> accessible ram2 a n.
Proof.
  intros H i I. unfold ram2. destruct ((3000 <=? a + i) && (a + i <? 3064)); [eexists; reflexivity|]. destruct (N.ltb_spec (a + i) 4096); [now exists 170|lia].
Qed.
