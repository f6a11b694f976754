(** Lemmas on the abstract game: acceptance, effect, conservation, kings, symmetry. *)
From Verif Require Export LRefine.

Lemma promoted_spec k l : promoted k = Some l <-> promotes_to k l.
Proof. rewrite promoted_eq. apply pk_promote_spec. Qed.
Lemma base_hand k : can_be_in_hand (base_kind k) = negb (same_kind k King).
Proof. now destruct k. Qed.
Lemma base_promoted k l : promoted k = Some l -> base_kind l = base_kind k.
Proof. destruct k; intros [= <-]; reflexivity. Qed.
Lemma promoted_not_king k l : promoted k = Some l -> k <> King /\ l <> King.
Proof. destruct k; intros [= <-]; split; discriminate. Qed.
Lemma same_color_refl c : same_color c c = true.
Proof. now destruct c. Qed.
Lemma same_color_opp c d : same_color d (opponent c) = true <-> d = opponent c.
Proof. apply same_color_eq. Qed.

Lemma a_move_accepts a m : (exists a', a_move a m = Some a') <-> makes_sense a m.
Proof.
  destruct m as [f t pr|p t]; cbn [a_move makes_sense].
  - split.
    + intros (a' & E). destruct (a_board a f) as [[k c]|]; [|discriminate].
      destruct (same_color_spec c (a_side a)) as [EC|]; [|discriminate]. subst c.
      destruct (if pr then promoted k else Some k) as [k'|] eqn:Q; [|discriminate]. split.
      { exists k. split; auto. intros ->. exists k'. now apply promoted_spec. }
      destruct (a_board a t) as [[e d]|]; auto. destruct (same_color_spec d (opponent (a_side a))) as [ED|]; [|discriminate]. subst d.
      cbn [andb] in E. rewrite base_hand in E. destruct (same_kind_spec e King) as [EQ|?NN]; [subst; discriminate|]. auto.
    + intros ((k & -> & Hp) & T). rewrite same_color_refl.
      assert (exists k', (if pr then promoted k else Some k) = Some k') as (k' & ->).
      { destruct pr; eauto. destruct (Hp eq_refl) as (l & H). exists l. now apply promoted_spec. }
      destruct (a_board a t) as [[e d]|]; [|eauto]. destruct T as [-> NK].
      rewrite base_hand. destruct (same_kind_spec e King) as [EQ|?NN]; [contradiction|]. rewrite same_color_refl. cbn [negb andb]. eauto.
  - split.
    + intros (a' & E). destruct (_ && _) eqn:C; [|discriminate]. apply andb_prop in C as [C Z]. apply andb_prop in C as [C H].
      apply same_color_eq in C. apply can_be_in_hand_iff in H. apply N.ltb_lt in Z. destruct (a_board a t); [discriminate|]. auto.
    + intros (C & H & Z & T). apply same_color_eq in C. apply can_be_in_hand_iff in H. apply N.ltb_lt in Z. rewrite C, H, Z, T. cbn [andb]. eauto.
Qed.

Lemma same_square_neq s t : s <> t -> same_square s t = false.
Proof. intros N. destruct (same_square_spec s t); congruence. Qed.

Lemma a_move_effect a m a' : a_move a m = Some a' -> effect a m a'.
Proof.
  unfold effect. destruct m as [f t pr|p t]; cbn [a_move].
  - intros E. destruct (a_board a f) as [[k c]|] eqn:F; [|discriminate].
    destruct (same_color_spec c (a_side a)) as [EC|]; [|discriminate]. subst c.
    destruct (if pr then promoted k else Some k) as [k'|] eqn:Q; [|discriminate].
    assert (NT : f <> t).
    { intros ->. rewrite F in E. destruct (same_color_spec (a_side a) (opponent (a_side a))) as [X|]; [|discriminate].
      exfalso. symmetry in X. now apply opponent_neq in X. }
    assert (Hp : if pr then promotes_to k k' else k' = k) by (destruct pr; [now apply promoted_spec|congruence]).
    assert (KK : forall b : apos, forall c, (match Some (k', a_side a) with
         | Some (King, d) => if same_color c d then Some t else a_king b c | _ => a_king b c end) =
         if same_color c (a_side a) && same_kind k King then Some t else a_king b c).
    { intros b c. destruct pr.
      - apply promoted_spec in Hp. apply promoted_not_king in Hp as [N1 N2].
        destruct (same_kind_spec k King); [contradiction|]. rewrite andb_false_r. destruct k'; auto; contradiction.
      - subst k'. destruct k; rewrite ?andb_false_r; auto. now rewrite andb_true_r. }
    destruct (a_board a t) as [[e d]|] eqn:T.
    + destruct (same_color_spec d (opponent (a_side a))) as [ED|]; [|discriminate]. subst d. cbn [andb] in E.
      destruct (can_be_in_hand (base_kind e)); [|discriminate]. injection E as <-.
      do 3 (split; [reflexivity|]). split; auto. exists k, k'. do 2 (split; auto). cbn [a_pass a_put a_set_hand a_board a_hand a_king a_side].
      rewrite same_square_refl, (same_square_neq f t), same_square_refl by auto.
      do 2 (split; [reflexivity|]). split; [|split].
      * intros sq N1 N2. now rewrite !same_square_neq.
      * intros c j. destruct (same_color_spec c (a_side a)) as [->|?NN]; auto. destruct (same_kind_spec j (base_kind e)) as [->|?NN]; auto.
      * apply (KK a).
    + injection E as <-. do 3 (split; [reflexivity|]). split; auto. exists k, k'. do 2 (split; auto).
      cbn [a_pass a_put a_set_hand a_board a_hand a_king a_side].
      rewrite same_square_refl, (same_square_neq f t), same_square_refl by auto.
      do 2 (split; [reflexivity|]). split; [|split; [reflexivity|apply (KK a)]].
      intros sq N1 N2. now rewrite !same_square_neq.
  - intros E. destruct (_ && _) eqn:C; [|discriminate]. apply andb_prop in C as [C Z]. apply andb_prop in C as [C H].
    apply same_color_eq in C. destruct (a_board a t); [discriminate|]. injection E as <-.
    do 3 (split; [reflexivity|]). cbn [a_pass a_put a_set_hand a_board a_hand a_king a_side].
    rewrite same_square_refl. split; [unfold parts_of; congruence|]. split; [|split].
    + intros sq N. now rewrite same_square_neq.
    + intros c j. destruct (same_color_spec c (a_side a)) as [->|?NN]; auto. destruct (same_kind_spec j (kind_of p)) as [->|?NN]; auto.
    + intros c. unfold parts_of. apply can_be_in_hand_iff in H. destruct (kind_of p); auto. simpl in H. intuition discriminate.
Qed.

(** ** Counting *)
Lemma squares_eq : squares = all_squares.
Proof. vm_compute. reflexivity. Qed.
Definition b2n (b : bool) : nat := if b then 1%nat else 0%nat.
Definition hit (f : piece_kind * color -> bool) (o : option (piece_kind * color)) : bool :=
  match o with Some x => f x | None => false end.
Definition cnt (f : piece_kind * color -> bool) (b : square -> option (piece_kind * color)) : nat :=
  length (filter (fun sq => hit f (b sq)) squares).
Lemma on_board_cnt a k : on_board_count a k = N.of_nat (cnt (fun x => same_kind (base_kind (fst x)) k) (a_board a)).
Proof. unfold on_board_count, count_squares, cnt, hit. exact eq_refl. Qed.
Lemma cnt_kings b : (cnt (fun x => same_kind (base_kind (fst x)) King) b =
  cnt (fun x => same_kind (fst x) King && same_color (snd x) Black) b + cnt (fun x => same_kind (fst x) King && same_color (snd x) White) b)%nat.
Proof.
  unfold cnt. generalize squares. induction l as [|q l IH]; [exact eq_refl|]. cbn [filter].
  destruct (b q) as [[k c]|]; cbn [hit fst snd]; [|exact IH].
  replace (same_kind (base_kind k) King) with (same_kind k King) by now destruct k.
  destruct (same_kind k King), c; cbn [andb same_color length]; rewrite ?IH; lia.
Qed.
Lemma cnt_found f b : cnt f b <> 0%nat -> exists q, In q squares /\ hit f (b q) = true.
Proof.
  unfold cnt. generalize squares. intros l H. destruct (filter (fun sq => hit f (b sq)) l) as [|q r] eqn:F; [now contradiction H|].
  exists q. apply (proj1 (filter_In (fun sq => hit f (b sq)) q l)). rewrite F. now left.
Qed.
Lemma count_update l g h (sq : square) : NoDup l -> In sq l -> (forall t, t <> sq -> In t l -> g t = h t) ->
  (length (filter g l) + b2n (h sq) = length (filter h l) + b2n (g sq))%nat.
Proof.
  assert (Same : forall l g h, (forall t, In t l -> g t = h t) -> length (@filter square g l) = length (filter h l)).
  { clear. induction l as [|x l IH]; intros g h H; simpl; auto. rewrite (H x) by now left.
    destruct (h x); simpl; rewrite (IH g h); auto; intros; apply H; now right. }
  intros ND. revert sq. induction ND as [|x l NI ND IH]; intros sq [].
  - subst x. intros H. simpl.
    assert (E : length (filter g l) = length (filter h l)).
    { apply Same. intros t Ht. apply H; [congruence|now right]. }
    destruct (g sq), (h sq); simpl; lia.
  - intros H0. simpl. assert (x <> sq) by congruence. rewrite (H0 x) by (auto; now left).
    assert (G := IH sq H (fun t Ht It => H0 t Ht (or_intror It))). destruct (h x); simpl; lia.
Qed.
Lemma a_put_same a sq x : a_board (a_put a sq x) sq = x.
Proof. cbn [a_put a_board]. now rewrite same_square_refl. Qed.
Lemma a_put_other a sq x t : t <> sq -> a_board (a_put a sq x) t = a_board a t.
Proof. intros N. cbn [a_put a_board]. now rewrite same_square_neq. Qed.
Lemma cnt_put f a sq x : valid_square sq ->
  (cnt f (a_board (a_put a sq x)) + b2n (hit f (a_board a sq)) = cnt f (a_board a) + b2n (hit f x))%nat.
Proof.
  intros V. unfold cnt. rewrite squares_eq.
  pose proof (count_update all_squares (fun t => hit f (a_board (a_put a sq x) t)) (fun t => hit f (a_board a t)) sq
    all_squares_NoDup) as H. cbv beta in H. rewrite a_put_same in H. apply H.
  - now apply valid_square_In.
  - intros t N _. now rewrite a_put_other.
Qed.
Lemma cnt_ext f b b' : (forall sq, valid_square sq -> b sq = b' sq) -> cnt f b = cnt f b'.
Proof.
  intros H. unfold cnt. rewrite squares_eq. f_equal. apply filter_ext_in. intros sq I. apply valid_square_In in I. now rewrite H.
Qed.

Global Opaque cnt.

(** what a move does to the number of pieces *)
Lemma cnt_move a m a' f : valid_move m -> a_move a m = Some a' ->
  (forall k l c, base_kind k = base_kind l -> f (k, c) = f (l, c)) ->
  match m with
  | Normal _ t _ => (cnt f (a_board a') + b2n (hit f (a_board a t)) = cnt f (a_board a))%nat
  | Drop p _ => (cnt f (a_board a') = cnt f (a_board a) + b2n (f (parts_of p)))%nat
  end.
Proof.
  intros V E Hf. destruct m as [fr t pr|p t]; destruct V as [V1 V2]; cbn [a_move] in E.
  - destruct (a_board a fr) as [[k c]|] eqn:F; [|discriminate].
    destruct (same_color_spec c (a_side a)) as [EC|]; [|discriminate]. subst c.
    destruct (if pr then promoted k else Some k) as [k'|] eqn:Q; [|discriminate].
    assert (NT : fr <> t).
    { intros ->. rewrite F in E. destruct (same_color_spec (a_side a) (opponent (a_side a))) as [X|]; [|discriminate].
      exfalso. symmetry in X. now apply opponent_neq in X. }
    assert (BK : base_kind k' = base_kind k) by (destruct pr; [now apply base_promoted|congruence]).
    assert (G : forall b, a_board b = a_board a ->
      (cnt f (a_board (a_put (a_put b fr None) t (Some (k', a_side a)))) + b2n (hit f (a_board a t)) = cnt f (a_board a))%nat).
    { intros b Eb. pose proof (cnt_put f (a_put b fr None) t (Some (k', a_side a)) V2) as C1.
      pose proof (cnt_put f b fr None V1) as C2. rewrite Eb in C2. rewrite F in C2. cbn [hit b2n] in C1, C2.
      rewrite (Hf k' k) in C1 by auto.
      assert (a_board (a_put b fr None) t = a_board a t) as X by (simpl; rewrite same_square_neq by congruence; now rewrite Eb).
      rewrite X in C1. lia. }
    destruct (a_board a t) as [[e d]|] eqn:T.
    + destruct (_ && _); [|discriminate]. injection E as <-. cbn [a_pass a_board]. match goal with |- context [a_put (a_put ?b fr None)] => exact (G b eq_refl) end.
    + injection E as <-. now apply G.
  - destruct (_ && _); [|discriminate]. destruct (a_board a t) eqn:T; [discriminate|]. injection E as <-.
    set (b := a_set_hand _ _ _ _). pose proof (cnt_put f b t (Some (parts_of p)) V2) as C1. change (a_board b) with (a_board a) in C1.
    rewrite T in C1. cbn [hit b2n] in C1. cbn [a_pass a_board]. lia.
Qed.

Definition total (a : apos) (k : piece_kind) : nat :=
  (cnt (fun x => same_kind (base_kind (fst x)) k) (a_board a) + N.to_nat (a_hand a Black k) + N.to_nat (a_hand a White k))%nat.
Definition conserved (a : apos) : Prop :=
  (forall k, In k hand_kinds -> total a k = N.to_nat (full_set k)) /\
  (forall c, cnt (fun x => same_kind (fst x) King && same_color (snd x) c) (a_board a) = 1%nat).
Lemma base_king k : same_kind (base_kind k) King = same_kind k King.
Proof. now destruct k. Qed.
Lemma hand_not_king k : In k hand_kinds -> k <> King.
Proof. simpl. intros H E. subst. intuition discriminate. Qed.
Lemma base_of_hand k : In k hand_kinds -> base_kind k = k.
Proof. simpl. intuition; subst; reflexivity. Qed.

Lemma conserved_move a m a' : valid_move m -> conserved a -> a_move a m = Some a' -> conserved a'.
Proof.
  intros V [C1 C2] E. assert (MS : makes_sense a m) by (apply a_move_accepts; eauto).
  pose proof (a_move_effect a m a' E) as (_ & _ & _ & EF). split.
  - intros k Hk. pose proof (cnt_move a m a' (fun x => same_kind (base_kind (fst x)) k) V E) as CM.
    assert (X : forall k0 l (c : color), base_kind k0 = base_kind l -> same_kind (base_kind (fst (k0, c))) k = same_kind (base_kind (fst (l, c))) k)
      by (intros; simpl; congruence). specialize (CM X). clear X.
    specialize (C1 k Hk). unfold total in *. assert (FS : full_set k <= 18) by (destruct k; simpl; lia).
    destruct m as [f t pr|p t].
    + destruct EF as (_ & k0 & k' & _ & _ & _ & _ & _ & H & _). rewrite !H. clear H.
      destruct (a_board a t) as [[e d]|] eqn:T; cbn [hit b2n fst] in CM; [|lia].
      assert (SK : same_kind k (base_kind e) = same_kind (base_kind e) k) by apply N.eqb_sym. rewrite SK.
      destruct (same_kind (base_kind e) k); rewrite ?andb_false_r; [|cbn [b2n] in CM; lia]. rewrite !andb_true_r. cbn [b2n] in CM.
      destruct (a_side a); cbn [same_color]; rewrite N.mod_small; lia.
    + destruct EF as (_ & _ & H & _). rewrite !H. clear H. destruct MS as (Cp & Hp & Z & _).
      assert (CM' : (cnt (fun x => same_kind (base_kind (fst x)) k) (a_board a') =
        cnt (fun x => same_kind (base_kind (fst x)) k) (a_board a) + b2n (same_kind (kind_of p) k))%nat).
      { rewrite CM. unfold parts_of. cbn [fst]. now rewrite (base_of_hand (kind_of p)). }
      clear CM. destruct (same_kind_spec (kind_of p) k) as [EK|NK]; cbn [b2n] in CM'.
      * rewrite EK in *. rewrite same_kind_refl. rewrite !andb_true_r. destruct (a_side a); cbn [same_color]; lia.
      * assert (same_kind k (kind_of p) = false) as -> by (destruct (same_kind_spec k (kind_of p)); congruence).
        rewrite !andb_false_r. lia.
  - intros c. pose proof (cnt_move a m a' (fun x => same_kind (fst x) King && same_color (snd x) c) V E) as CM.
    assert (X : forall k0 l (d : color), base_kind k0 = base_kind l -> same_kind (fst (k0, d)) King && same_color (snd (k0, d)) c = same_kind (fst (l, d)) King && same_color (snd (l, d)) c).
    { intros k0 l d H. simpl. now rewrite <- (base_king k0), <- (base_king l), H. } specialize (CM X). clear X.
    specialize (C2 c). destruct m as [f t pr|p t]; cbn [makes_sense] in MS.
    + destruct MS as [_ MS]. destruct (a_board a t) as [[e d]|]; cbn [hit fst snd] in CM; [|cbn [b2n] in CM; lia].
      destruct MS as [_ NK]. destruct (same_kind_spec e King); [contradiction|]. cbn [andb b2n] in CM. lia.
    + destruct MS as (_ & Hp & _ & _). apply hand_not_king in Hp. unfold parts_of in CM. cbn [fst snd] in CM.
      destruct (same_kind_spec (kind_of p) King); [contradiction|]. cbn [andb b2n] in CM. lia.
Qed.
Lemma conserved_aeq a b : aeq a b -> conserved a -> conserved b.
Proof.
  intros (A & B & C & D & _) [C1 C2]. split.
  - intros k Hk. rewrite <- (C1 k Hk). unfold total. rewrite !D by auto. now rewrite (cnt_ext _ _ _ C).
  - intros c. rewrite <- (C2 c). symmetry. now apply cnt_ext.
Qed.
Lemma conserved_opening : conserved a_opening.
Proof.
  split; [|intros []; vm_compute; reflexivity].
  intros k Hk. simpl in Hk. repeat (destruct Hk as [<-|Hk]; [vm_compute; reflexivity|]). destruct Hk.
Qed.

(** ** Kings *)
Lemma kings_right_aeq a b : aeq a b -> kings_right a -> kings_right b.
Proof.
  intros (_ & _ & C & _ & _ & F) H c. destruct (H c) as [H1 H2]. rewrite <- F. split; auto. intros sq V. rewrite <- C by auto. auto.
Qed.
Lemma kings_right_move a m a' : valid_move m -> kings_right a -> a_move a m = Some a' -> kings_right a'.
Proof.
  intros V H E c. assert (MS : makes_sense a m) by (apply a_move_accepts; eauto).
  pose proof (a_move_effect a m a' E) as (_ & _ & _ & EF). destruct (H c) as [H1 H2].
  destruct m as [f t pr|p t]; destruct V as [V1 V2].
  - destruct EF as (NT & k & k' & F & Q & B1 & B2 & B3 & _ & K). rewrite K. destruct MS as [_ MS].
    assert (KK : k = King <-> k' = King).
    { destruct pr; [|split; congruence]. apply promoted_spec in Q. apply promoted_not_king in Q. tauto. }
    destruct (same_color_spec c (a_side a)) as [->|NC]; cbn [andb].
    + destruct (same_kind_spec k King) as [->|NK].
      * split; [intros sq [= <-]; auto|]. intros sq Vs. split.
        -- intros [= <-]. rewrite B2. now replace k' with King by (symmetry; now apply KK).
        -- intros X. destruct (same_square_spec sq t) as [->|N1]; auto. exfalso.
           destruct (same_square_spec sq f) as [->|N2]; [congruence|]. rewrite B3 in X by auto.
           apply H2 in X; auto. apply H2 in F; auto. congruence.
      * split; auto. intros sq Vs. rewrite H2 by auto.
        destruct (same_square_spec sq t) as [->|N1].
        { rewrite B2. split; [intros X; rewrite X in MS; destruct MS as [MS _]; symmetry in MS; now apply opponent_neq in MS|].
          intros [= X]. exfalso. tauto. }
        destruct (same_square_spec sq f) as [->|N2]; [rewrite F, B1; split; congruence|]. now rewrite B3.
    + split; auto. intros sq Vs. rewrite H2 by auto.
      destruct (same_square_spec sq t) as [->|N1].
      { rewrite B2. split; [intros X; rewrite X in MS; tauto|congruence]. }
      destruct (same_square_spec sq f) as [->|N2]; [rewrite F, B1; split; congruence|]. now rewrite B3.
  - destruct EF as (B1 & B2 & _ & K). rewrite K. split; auto. intros sq Vs. rewrite H2 by auto.
    destruct MS as (_ & Hp & _ & T). apply hand_not_king in Hp.
    destruct (same_square_spec sq t) as [->|N1]; [|now rewrite B2]. rewrite T, B1. split; congruence.
Qed.
Lemma kings_right_try a m : valid_move m -> kings_right a -> kings_right (fst (a_try a m)).
Proof. intros V H. unfold a_try. destruct (a_move a m) eqn:E; auto. eapply kings_right_move; eauto. Qed.
Lemma kings_right_op a o : valid_op o -> tidy a o -> kings_right a -> kings_right (fst (a_op a o)).
Proof.
  intros V T H. destruct o; cbn [a_op tidy valid_op fst] in *; auto.
  - destruct V as [V Vx], T as [T1 T2]. intros c. destruct (H c) as [H1 H2]. cbn [a_put a_king a_board].
    destruct x as [p|]; cbn [option_map].
    + unfold parts_of. destruct (pk_dec (kind_of p) King) as [EK|NK].
      * rewrite EK. specialize (T2 EK). destruct (same_color_spec c (color_of p)) as [->|NC].
        -- split; [intros s [= <-]; auto|]. intros s Vs. split; [intros [= <-]; now rewrite same_square_refl|].
           destruct (same_square_spec s sq) as [->|N]; auto. intros X. now apply T2 in X.
        -- split; auto. intros s Vs. rewrite H2 by auto. destruct (same_square_spec s sq) as [->|N]; [|tauto].
           split; [intros X; now apply T1 in X|congruence].
      * assert (X : match kind_of p with King => if same_color c (color_of p) then Some sq else a_king a c | _ => a_king a c end = a_king a c)
          by (destruct (kind_of p); auto; contradiction). rewrite X.
        split; auto. intros s Vs. rewrite H2 by auto. destruct (same_square_spec s sq) as [->|N]; [|tauto].
        split; [intros Y; now apply T1 in Y|congruence].
    + split; auto. intros s Vs. rewrite H2 by auto. destruct (same_square_spec s sq) as [->|N]; [|tauto].
      split; [intros Y; now apply T1 in Y|congruence].
  - now apply kings_right_try.
  - apply kings_right_try; auto. now apply valid_compact_unpack.
  - now destruct (n =? 0).
Qed.
Lemma kings_right_ops a os : Forall valid_op os -> tidy_history a os -> kings_right a -> kings_right (fst (a_ops a os)).
Proof.
  intros V. revert a. induction V as [|o os Vo V IH]; intros a T H; simpl; auto. destruct T as [T1 T2].
  pose proof (kings_right_op a o Vo T1 H) as K. destruct (a_op a o) as [a1 b]. specialize (IH a1 T2 K). destruct (a_ops a1 os). auto.
Qed.
Lemma tidy_moves a ms : tidy_history a (map OpMove ms).
Proof. revert a. induction ms; simpl; auto. Qed.
Lemma kings_right_empty : kings_right a_empty.
Proof. intros c. split; simpl; [discriminate|]. split; discriminate. Qed.
Lemma kings_right_opening : kings_right a_opening.
Proof.
  intros c. split.
  - intros sq [= <-]. destruct c; split; discriminate.
  - intros sq. destruct c; simpl; revert sq; refine (sq_cases _ _); each ltac:(vm_compute; split; intros X; (reflexivity || discriminate X)).
Qed.
