(** Setting up positions, taking moves back. *)
From Verif Require Export LRead SpecEdit.

Definition mk_hand (f : piece_kind -> N) : hand := Hand [f Pawn; f Lance; f Knight; f Silver; f Gold; f Bishop; f Rook; 0].
Lemma mk_hand_valid f : (forall k, In k hand_kinds -> f k < 256) -> valid_hand (mk_hand f).
Proof.
  intros H. unfold valid_hand, mk_hand. cbn [hand_bytes]. split; [reflexivity|]. split; [|reflexivity].
  repeat constructor; try (apply H; cbn; tauto).
Qed.
Lemma mk_hand_count f k : In k hand_kinds -> in_hand (mk_hand f) k = f k.
Proof. cbn. intros H. repeat destruct H as [<-|H]; [..|tauto]; reflexivity. Qed.

Definition puts (f : square -> option (piece_kind * color)) (l : list square) : list op :=
  map (fun sq => OpPieceSet sq (option_map the_piece (f sq))) l.
Definition setup_ops (r : sfen) : list op :=
  puts (f_board r) squares ++ [OpHand Black (mk_hand (f_hand r Black)); OpHand White (mk_hand (f_hand r White)); OpSide (f_side r); OpPly (f_ply r)].

Lemma a_ops_app a os os' :
  a_ops a (os ++ os') = (let (a1, b1) := a_ops a os in let (a2, b2) := a_ops a1 os' in (a2, b1 ++ b2)).
Proof.
  revert a. induction os as [|o os IH]; intros a; cbn [app a_ops]; [now destruct (a_ops a os')|].
  destruct (a_op a o) as [a1 b]. rewrite IH. destruct (a_ops a1 os) as [a2 bs]. now destruct (a_ops a2 os').
Qed.
Lemma parts_option x : option_map parts_of (option_map the_piece x) = x.
Proof. destruct x as [x|]; cbn [option_map]; auto. now rewrite parts_of_the. Qed.
Definition put_all (f : square -> option (piece_kind * color)) (l : list square) (a : apos) : apos :=
  fold_left (fun a sq => a_put a sq (f sq)) l a.
Lemma a_ops_puts f l : forall a, a_ops a (puts f l) = (put_all f l a, repeat true (length l)).
Proof.
  induction l as [|q l IH]; intros a; auto. unfold puts, put_all. cbn [map a_ops a_op fold_left]. fold (puts f l). rewrite parts_option, IH. reflexivity.
Qed.
Lemma put_all_same f l : forall a, a_side (put_all f l a) = a_side a /\ a_ply (put_all f l a) = a_ply a /\
  a_hand (put_all f l a) = a_hand a /\ a_last (put_all f l a) = a_last a.
Proof.
  induction l as [|q l IH]; intros a; [auto|]. unfold put_all. cbn [fold_left]. fold (put_all f l (a_put a q (f q))).
  destruct (IH (a_put a q (f q))) as (A & B & C & D). rewrite A, B, C, D. auto.
Qed.
Lemma put_all_board f l : forall a t, (In t l \/ a_board a t = f t) -> a_board (put_all f l a) t = f t.
Proof.
  induction l as [|q l IH]; intros a t H; [destruct H as [[]|H]; auto|]. unfold put_all. cbn [fold_left]. fold (put_all f l (a_put a q (f q))).
  apply IH. destruct (same_square_spec t q) as [->|Nq]; [right; apply a_put_same|].
  destruct H as [[->|H]|H]; [easy|now left|right]. now rewrite a_put_other.
Qed.
Lemma put_all_king f c l : forall a,
  ((forall t, In t l -> f t <> Some (King, c)) /\ a_king (put_all f l a) c = a_king a c) \/
  (exists t, In t l /\ f t = Some (King, c) /\ a_king (put_all f l a) c = Some t).
Proof.
  induction l as [|q l IH]; intros a; [left; split; auto|]. unfold put_all. cbn [fold_left]. fold (put_all f l (a_put a q (f q))).
  destruct (IH (a_put a q (f q))) as [[N E]|(t & I & F & E)].
  - rewrite E. cbn [a_put a_king].
    assert (D : f q = Some (King, c) \/ f q <> Some (King, c) /\
      match f q with Some (King, d) => if same_color c d then Some q else a_king a c | _ => a_king a c end = a_king a c).
    { destruct (f q) as [[[] d]|]; try (right; split; [discriminate|reflexivity]).
      destruct (same_color_spec c d) as [->|Nc]; [now left|right]. split; congruence. }
    destruct D as [D|[D D']].
    + right. exists q. split; [now left|]. split; auto. rewrite D. now rewrite same_color_refl.
    + left. split; auto. intros t [->|I]; auto.
  - right. exists t. split; [now right|]. auto.
Qed.
Lemma In_squares t : In t squares <-> valid_square t.
Proof. rewrite squares_eq. symmetry. apply valid_square_In. Qed.

Lemma puts_valid f l : (forall t, In t l -> valid_square t) -> Forall valid_op (puts f l).
Proof.
  intros H. unfold puts. apply Forall_map, Forall_forall. intros t I. split; auto. destruct (f t) as [[k c]|]; cbn [option_map]; auto. apply piece_of_valid.
Qed.
Lemma setup_valid r : storable r -> Forall valid_op (setup_ops r).
Proof.
  intros [H1 H2]. unfold setup_ops. apply Forall_app. split; [apply puts_valid; intros; now apply In_squares|].
  repeat apply Forall_cons; try apply Forall_nil; cbn [valid_op]; auto; apply mk_hand_valid; auto.
Qed.
(** the abstract position after setting up [r] in [a] *)
Definition set_up (r : sfen) (a : apos) : apos := fst (a_ops a (setup_ops r)).
Definition after_puts (r : sfen) (a : apos) : apos :=
  a_set_ply (a_set_side (a_set_hands (a_set_hands a Black (in_hand (mk_hand (f_hand r Black)))) White (in_hand (mk_hand (f_hand r White)))) (f_side r)) (f_ply r).
Lemma setup_gen r l a : f_ply r <> 0 ->
  a_ops a (puts (f_board r) l ++ [OpHand Black (mk_hand (f_hand r Black)); OpHand White (mk_hand (f_hand r White)); OpSide (f_side r); OpPly (f_ply r)]) =
  (after_puts r (put_all (f_board r) l a), repeat true (length l + 4)).
Proof.
  intros H. rewrite a_ops_app, a_ops_puts. cbn [a_ops a_op]. apply N.eqb_neq in H. rewrite H. rewrite repeat_app. reflexivity.
Qed.
Lemma setup_ops_ok r a : f_ply r <> 0 -> a_ops a (setup_ops r) = (after_puts r (put_all (f_board r) squares a), repeat true (length (setup_ops r))).
Proof.
  intros H. unfold setup_ops. rewrite setup_gen by auto. rewrite app_length. unfold puts. rewrite map_length. reflexivity.
Qed.
Lemma setup_flags r a : f_ply r <> 0 -> snd (a_ops a (setup_ops r)) = repeat true (length (setup_ops r)).
Proof. intros H. now rewrite setup_ops_ok. Qed.
Lemma after_puts_is r a : 
  a_side (after_puts r a) = f_side r /\ a_ply (after_puts r a) = f_ply r /\ a_last (after_puts r a) = a_last a /\
  a_board (after_puts r a) = a_board a /\
  (forall c k, In k hand_kinds -> a_hand (after_puts r a) c k = f_hand r c k) /\
  a_king (after_puts r a) = a_king a.
Proof.
  unfold after_puts. cbn [a_set_ply a_set_side a_set_hands a_side a_ply a_last a_board a_hand a_king]. repeat (split; [reflexivity|]). split; [|reflexivity].
  intros c k K. destruct c; cbn [same_color]; now apply mk_hand_count.
Qed.
Lemma set_up_is r a : f_ply r <> 0 ->
  a_side (set_up r a) = f_side r /\ a_ply (set_up r a) = f_ply r /\ a_last (set_up r a) = a_last a /\
  (forall sq, valid_square sq -> a_board (set_up r a) sq = f_board r sq) /\
  (forall c k, In k hand_kinds -> a_hand (set_up r a) c k = f_hand r c k) /\
  (forall c, a_king (set_up r a) c = a_king (put_all (f_board r) squares a) c).
Proof.
  intros H. unfold set_up. rewrite setup_ops_ok by auto. unfold fst.
  destruct (put_all_same (f_board r) squares a) as (_ & _ & _ & D). 
  assert (B : forall sq, valid_square sq -> a_board (put_all (f_board r) squares a) sq = f_board r sq).
  { intros sq V. apply put_all_board. left. now apply In_squares. }
  revert B D. generalize (put_all (f_board r) squares a). intros x B D. destruct (after_puts_is r x) as (X1 & X2 & X3 & X4 & X5 & X6).
  rewrite X1, X2, X3, X4, X6. repeat split; auto.
Qed.
Lemma set_up_king r a c : f_ply r <> 0 ->
  (forall sq, only_king (f_board r) c sq -> a_king (set_up r a) c = Some sq) /\
  (no_king (f_board r) c -> a_king (set_up r a) c = a_king a c).
Proof.
  intros H. destruct (set_up_is r a H) as (_ & _ & _ & _ & _ & K). rewrite K. split.
  - intros sq [V O]. destruct (put_all_king (f_board r) c squares a) as [[Nk _]|(t & I & F & E)].
    + exfalso. apply (Nk sq); [now apply In_squares|]. now apply O.
    + rewrite E. f_equal. apply O; auto. now apply In_squares.
  - intros O. destruct (put_all_king (f_board r) c squares a) as [[_ E]|(t & I & F & E)]; auto. exfalso. apply (O t); auto. now apply In_squares.
Qed.

(** ** [shows] *)
Lemma shows_sees P s a r : wf s -> aeq (abs s) a -> a_side a = f_side r -> a_ply a = f_ply r ->
  (forall sq, valid_square sq -> a_board a sq = f_board r sq) -> (forall c k, In k hand_kinds -> a_hand a c k = f_hand r c k) -> shows P s r.
Proof.
  intros W Q A B C D. pose proof Q as (Q1 & Q2 & Q3 & Q4 & _ & _). split; [rewrite <- A, <- Q1; reflexivity|]. split; [rewrite <- B, <- Q2; reflexivity|]. split.
  - intros sq V. rewrite <- C, <- Q3 by auto. now apply (sees_abs P s W).
  - intros c k K. rewrite pp_hand_ok by (auto; apply piece_of_valid). rewrite kind_of_of, color_of_of. apply is_hand_piece_ok in K as K'. rewrite K'.
    rewrite <- D, <- Q4 by auto. reflexivity.
Qed.
Lemma setup_run P s r : wf s -> storable r -> f_ply r <> 0 ->
  exists s', run_ops P s (setup_ops r) = Ret (s', repeat true (length (setup_ops r))) /\ wf s' /\ aeq (abs s') (set_up r (abs s)).
Proof.
  intros W S H. pose proof (setup_valid r S) as V. rewrite run_ops_ok by auto.
  destruct (do_ops_abs s (abs s) (setup_ops r) W V (aeq_refl _)) as [A B]. rewrite setup_flags in B by auto.
  pose proof (do_ops_wf s (setup_ops r) W V) as W'. destruct (do_ops s (setup_ops r)) as [s' bs]. cbn [fst snd] in *. subst bs. exists s'. auto.
Qed.

(** ** Taking moves back *)
Lemma a_eta_put a sq t : valid_square sq -> valid_square t -> a_board (a_put a sq None) t = if same_square t sq then None else a_board a t.
Proof. reflexivity. Qed.
Definition right_king (a : apos) (m : move) : Prop :=
  match m with
  | Normal from _ _ => a_board a from = Some (King, a_side a) -> a_king a (a_side a) = Some from
  | Drop _ _ => True
  end.
Lemma take_back_abs a m a' h : a_move a m = Some a' -> a_ply a <> 0 -> right_king a m ->
  (forall k, In k hand_kinds -> in_hand h k = a_hand a (a_side a) k) ->
  a_ops a' (take_back a m h) = (fst (a_ops a' (take_back a m h)), repeat true (length (take_back a m h))) /\
  aeq (fst (a_ops a' (take_back a m h))) (but_last a m).
Proof.
  intros E Hp RK Hh. pose proof (a_move_effect a m a' E) as (E1 & E2 & E3 & EF). apply N.eqb_neq in Hp.
  destruct m as [f t pr|p t]; cbn [take_back app].
  - destruct EF as (NE & k & k' & Bf & Pk & Bf' & Bt' & Bo & Hd & Kg). cbn [a_ops a_op]. rewrite Hp, !parts_option. cbn [fst snd repeat length]. split; [reflexivity|].
    unfold aeq, but_last. cbn [a_set_ply a_set_side a_set_hands a_put a_side a_ply a_board a_hand a_last a_king].
    split; [reflexivity|]. split; [reflexivity|]. split; [|split; [|split]].
    + intros sq V. destruct (same_square_spec sq f) as [->|N1]; [reflexivity|]. destruct (same_square_spec sq t) as [->|N2]; auto.
    + intros c j K. destruct (same_color_spec c (a_side a)) as [->|Nc]; [now apply Hh|]. rewrite Hd.
      assert (X : same_color c (a_side a) = false) by (destruct (same_color_spec c (a_side a)); congruence). rewrite X. cbn [andb].
      now destruct (a_board a t) as [[? ?]|].
    + exact E3.
    + intros c. rewrite Bf. assert (MS : makes_sense a (Normal f t pr)) by (apply a_move_accepts; eauto). destruct MS as [_ MS].
      assert (T : match a_board a t with Some (King, d) => if same_color c d then Some t else a_king a' c | _ => a_king a' c end = a_king a' c).
      { destruct (a_board a t) as [[[] d]|]; auto. destruct MS as [_ MS]. now contradiction MS. }
      rewrite T, Kg. destruct k; try (destruct (same_color c (a_side a)); reflexivity).
      destruct (same_color_spec c (a_side a)) as [->|Nc]; [symmetry; now apply RK|]. reflexivity.
  - destruct EF as (Bt' & Bo & Hd & Kg). cbn [a_ops a_op]. rewrite Hp. cbn [option_map fst snd repeat length]. split; [reflexivity|].
    unfold aeq, but_last. cbn [a_set_ply a_set_side a_set_hands a_put a_side a_ply a_board a_hand a_last a_king].
    split; [reflexivity|]. split; [reflexivity|]. split; [|split; [|split]].
    + intros sq V. assert (MS : makes_sense a (Drop p t)) by (apply a_move_accepts; eauto). destruct MS as (_ & _ & _ & MS).
      destruct (same_square_spec sq t) as [->|N2]; auto.
    + intros c j K. destruct (same_color_spec c (a_side a)) as [->|Nc]; [now apply Hh|]. rewrite Hd.
      assert (X : same_color c (a_side a) = false) by (destruct (same_color_spec c (a_side a)); congruence). now rewrite X.
    + exact E3.
    + intros c. apply Kg.
Qed.
Lemma take_back_valid a m h : valid_move m -> valid_hand h -> a_ply a < 65536 -> Forall valid_op (take_back a m h).
Proof.
  intros V Vh Hp. destruct m as [f t pr|p t]; destruct V as [V1 V2]; cbn [take_back app].
  - repeat apply Forall_cons; try apply Forall_nil; cbn [valid_op]; auto; try (split; auto).
    + destruct (a_board a t) as [[? ?]|]; cbn [option_map]; auto. apply piece_of_valid.
    + destruct (a_board a f) as [[? ?]|]; cbn [option_map]; auto. apply piece_of_valid.
  - repeat apply Forall_cons; try apply Forall_nil; cbn [valid_op]; auto.
Qed.
