(** Basic lemmas: sweeps over the finite types, machine arithmetic, lists. *)
From Coq Require Import FinFun.
From Coq Require Export Lia ZifyN ZifyNat ZifyBool.
From Verif Require Export Machine MColor MPieceKind MPiece MSquare MMove MHand SpecBase.

Global Arguments N.add : simpl never.
Global Arguments N.sub : simpl never.
Global Arguments N.mul : simpl never.
Global Arguments N.div : simpl never.
Global Arguments N.modulo : simpl never.
Global Arguments N.pow : simpl never.
Global Arguments N.shiftl : simpl never.
Global Arguments N.shiftr : simpl never.
Global Arguments N.land : simpl never.
Global Arguments N.lor : simpl never.
Global Arguments N.lxor : simpl never.
Global Arguments N.ldiff : simpl never.
Global Arguments N.testbit : simpl never.
Global Arguments N.leb : simpl never.
Global Arguments N.ltb : simpl never.
Global Arguments N.eqb : simpl never.
Global Arguments N.to_nat : simpl never.
Global Arguments N.of_nat : simpl never.

Ltac Zify.zify_post_hook ::= Z.to_euclidean_division_equations.

(** ** Monad *)
Lemma bind_ret {A B} (a : A) (f : A -> res B) : bind (Ret a) f = f a.
Proof. reflexivity. Qed.

Lemma bind_ret_inv {A B} (m : res A) (f : A -> res B) b :
  bind m f = Ret b -> exists a, m = Ret a /\ f a = Ret b.
Proof. destruct m; simpl; intros H; try discriminate. eauto. Qed.

Lemma bind_assoc {A B C} (m : res A) (f : A -> res B) (g : B -> res C) :
  bind (bind m f) g = bind m (fun a => bind (f a) g).
Proof. destruct m; reflexivity. Qed.

(** ** Arithmetic *)
Lemma add_w_ok P w a b : a + b < 2 ^ w -> add_w P w a b = Ret (a + b).
Proof. intros H. unfold add_w, modulus. apply N.ltb_lt in H. now rewrite H. Qed.
Lemma sub_w_ok P w a b : b <= a -> sub_w P w a b = Ret (a - b).
Proof. intros H. unfold sub_w. apply N.leb_le in H. now rewrite H. Qed.
Lemma mul_w_ok P w a b : a * b < 2 ^ w -> mul_w P w a b = Ret (a * b).
Proof. intros H. unfold mul_w, modulus. apply N.ltb_lt in H. now rewrite H. Qed.
Lemma shl_w_ok P w a n : n < w -> shl_w P w a n = Ret (N.shiftl a n mod 2 ^ w).
Proof. intros H. unfold shl_w, modulus. apply N.ltb_lt in H. now rewrite H. Qed.
Lemma shr_w_ok P w a n : n < w -> shr_w P w a n = Ret (N.shiftr a n).
Proof. intros H. unfold shr_w. apply N.ltb_lt in H. now rewrite H. Qed.

Lemma debug_assert_true P b : b = true -> debug_assert P b = Ret tt.
Proof. intros ->. now destruct P. Qed.

(** ** Ranges *)
Lemma in_range_iff lo hi a : in_range lo hi a = true <-> lo <= a <= hi.
Proof. unfold in_range. rewrite andb_true_iff, !N.leb_le. tauto. Qed.

Lemma range_In lo hi x : In x (range lo hi) <-> lo <= x < hi.
Proof.
  unfold range. rewrite in_map_iff. split.
  - intros (k & <- & H). apply in_seq in H. lia.
  - intros H. exists (N.to_nat (x - lo)). split; [lia|]. apply in_seq. lia.
Qed.

Lemma range_length lo hi : length (range lo hi) = N.to_nat (hi - lo).
Proof. unfold range. now rewrite map_length, seq_length. Qed.

(** ** Sweeps *)
Definition all_squares : list square := Eval vm_compute in map Square (range 1 82).
Definition all_pieces : list piece := Eval vm_compute in map Piece (range 1 15 ++ range 17 31).
Definition all_kinds : list piece_kind :=
  [Pawn; Lance; Knight; Silver; Gold; Bishop; Rook; King;
   ProPawn; ProLance; ProKnight; ProSilver; ProBishop; ProRook].

Lemma all_squares_eq : all_squares = map Square (range 1 82).
Proof. vm_compute. reflexivity. Qed.
Lemma all_pieces_eq : all_pieces = map Piece (range 1 15 ++ range 17 31).
Proof. vm_compute. reflexivity. Qed.

Lemma range_NoDup lo hi : NoDup (range lo hi).
Proof. unfold range. apply FinFun.Injective_map_NoDup; [intros a b; lia|]. apply seq_NoDup. Qed.
Lemma all_squares_NoDup : NoDup all_squares.
Proof.
  rewrite all_squares_eq. apply FinFun.Injective_map_NoDup; [intros a b [=]; auto|apply range_NoDup].
Qed.
Lemma valid_square_In s : valid_square s <-> In s all_squares.
Proof.
  rewrite all_squares_eq, in_map_iff. unfold valid_square. split.
  - intros H. exists (sq_repr s). split; [now destruct s|]. apply range_In. lia.
  - intros (x & <- & H). apply range_In in H. simpl. lia.
Qed.
Lemma valid_piece_In p : valid_piece p <-> In p all_pieces.
Proof.
  rewrite all_pieces_eq, in_map_iff. unfold valid_piece. split.
  - intros H. exists (piece_repr p). split; [now destruct p|]. apply in_or_app. rewrite !range_In. lia.
  - intros (x & <- & H). apply in_app_or in H. rewrite !range_In in H. simpl. lia.
Qed.
Lemma all_kinds_In k : In k all_kinds.
Proof. destruct k; simpl; tauto. Qed.

Lemma sq_cases (Q : square -> Prop) : Forall Q all_squares -> forall s, valid_square s -> Q s.
Proof. intros H s Hs. apply valid_square_In in Hs. rewrite Forall_forall in H. auto. Qed.
Lemma piece_cases (Q : piece -> Prop) : Forall Q all_pieces -> forall p, valid_piece p -> Q p.
Proof. intros H p Hp. apply valid_piece_In in Hp. rewrite Forall_forall in H. auto. Qed.

Lemma sq_sweep (f : square -> bool) :
  forallb f all_squares = true -> forall s, valid_square s -> f s = true.
Proof. intros H s Hs. apply valid_square_In in Hs. rewrite forallb_forall in H. auto. Qed.
Lemma sq_sweep2 (f : square -> square -> bool) :
  forallb (fun s => forallb (f s) all_squares) all_squares = true ->
  forall s t, valid_square s -> valid_square t -> f s t = true.
Proof.
  intros H s t Hs Ht. apply valid_square_In in Hs, Ht. rewrite forallb_forall in H.
  specialize (H s Hs). rewrite forallb_forall in H. auto.
Qed.
Lemma piece_sweep (f : piece -> bool) :
  forallb f all_pieces = true -> forall p, valid_piece p -> f p = true.
Proof. intros H p Hp. apply valid_piece_In in Hp. rewrite forallb_forall in H. auto. Qed.

(** prove [Forall Q l] for a literal list [l] by a tactic *)
Ltac each tac := repeat (apply Forall_cons; [tac | ]); apply Forall_nil.
Ltac sweep_square s := revert s; refine (sq_cases _ _); each ltac:(vm_compute; auto).
Ltac sweep_piece p := revert p; refine (piece_cases _ _); each ltac:(vm_compute; auto).

(** ** Lists *)
Lemma list_set_length {A} (l : list A) i x : length (list_set l i x) = length l.
Proof. revert i. induction l; destruct i; simpl; auto. Qed.
Lemma list_set_nth_same {A} (l : list A) i x d : (i < length l)%nat -> nth i (list_set l i x) d = x.
Proof. revert i. induction l; destruct i; simpl; intros; try lia; auto. apply IHl. lia. Qed.
Lemma list_set_nth_other {A} (l : list A) i j x d : i <> j -> nth j (list_set l i x) d = nth j l d.
Proof. revert i j. induction l; destruct i, j; simpl; intros; auto; try lia. Qed.
Lemma list_set_Forall {A} (Q : A -> Prop) l i x : Forall Q l -> Q x -> Forall Q (list_set l i x).
Proof.
  intros H Hx. revert i. induction H; destruct i; simpl; auto.
Qed.
Lemma arr_index_ok {A} (l : list A) i d :
  (N.to_nat i < length l)%nat -> arr_index l i = Ret (nth (N.to_nat i) l d).
Proof. intros H. unfold arr_index. now rewrite (nth_error_nth' l d H). Qed.
Lemma arr_get_ok {A} (l : list A) i d :
  (N.to_nat i < length l)%nat -> arr_get_unchecked l i = Ret (nth (N.to_nat i) l d).
Proof. intros H. unfold arr_get_unchecked. now rewrite (nth_error_nth' l d H). Qed.
Lemma arr_store_ok {A} (l : list A) i x :
  (N.to_nat i < length l)%nat -> arr_store l i x = Ret (list_set l (N.to_nat i) x).
Proof. intros H. unfold arr_store. apply Nat.ltb_lt in H. now rewrite H. Qed.
Lemma arr_store_unchecked_ok {A} (l : list A) i x :
  (N.to_nat i < length l)%nat -> arr_store_unchecked l i x = Ret (list_set l (N.to_nat i) x).
Proof. intros H. unfold arr_store_unchecked. apply Nat.ltb_lt in H. now rewrite H. Qed.

Lemma nth_Forall {A} (Q : A -> Prop) l i d : Forall Q l -> Q d -> Q (nth i l d).
Proof. intros H Hd. revert i. induction H; destruct i; simpl; auto. Qed.

(** A list of length [n] is determined by its elements *)
Lemma nth_ext_eq {A} (a b : list A) d :
  length a = length b -> (forall i, (i < length a)%nat -> nth i a d = nth i b d) -> a = b.
Proof. intros H1 H2. apply (nth_ext a b d d H1 H2). Qed.
