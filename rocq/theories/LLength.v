(** Lengths of SFEN texts. *)
From Verif Require Export LRead.

Notation len t := (N.of_nat (length t)).
Fixpoint sum {A} (f : A -> N) (l : list A) : N := match l with [] => 0 | x :: r => f x + sum f r end.
Lemma sum_app {A} (f : A -> N) l m : sum f (l ++ m) = sum f l + sum f m.
Proof. induction l; cbn [app sum]; lia. Qed.
Lemma sum_le {A} (f g : A -> N) l : (forall x, In x l -> f x <= g x) -> sum f l <= sum g l.
Proof. induction l as [|x l IH]; intros H; cbn [sum]; [lia|]. pose proof (H x (or_introl eq_refl)). specialize (IH (fun y I => H y (or_intror I))). lia. Qed.
Lemma sum_add {A} (f g : A -> N) l : sum (fun x => f x + g x) l = sum f l + sum g l.
Proof. induction l; cbn [sum]; lia. Qed.
Lemma sum_const {A} c (l : list A) : sum (fun _ => c) l = c * len l.
Proof. induction l; cbn [sum length]; lia. Qed.
Lemma sum_filter {A} (p : A -> bool) l : len (filter p l) = sum (fun x => if p x then 1 else 0) l.
Proof. induction l as [|x l IH]; cbn [filter sum]; auto. destruct (p x); cbn [length]; lia. Qed.
Lemma len_app {A} (l m : list A) : len (l ++ m) = len l + len m.
Proof. rewrite app_length. lia. Qed.

Lemma value_ge ds : forall n, n * 10 ^ len ds <= fold_left (fun n c => 10 * n + (c - 48)) ds n.
Proof.
  induction ds as [|c ds IH]; intros n; cbn [fold_left length]; [lia|].
  etransitivity; [|apply IH]. rewrite Nat2N.inj_succ, N.pow_succ_r'. nia.
Qed.
Lemma decimal_len n k : n < 10 ^ k -> 1 <= k -> len (decimal n) <= k.
Proof.
  intros H K. pose proof (decimal_value n) as V. destruct (decimal_cons n) as (c & ds & E & D & F & Z). rewrite E in *. cbn [length].
  unfold digits_value in V. cbn [fold_left] in V. pose proof (value_ge ds (10 * 0 + (c - 48))) as G. rewrite V in G.
  unfold is_digit in D. rewrite andb_true_iff, !N.leb_le in D. destruct (N.eq_dec c 48) as [->|C].
  - pose proof (Z eq_refl) as ->. destruct ds as [|d ds]; [cbn; lia|]. pose proof (decimal_canonical 0) as (_ & _ & _ & Q). rewrite E in Q.
    discriminate (Q eq_refl).
  - destruct (N.le_gt_cases k (len ds)) as [L|L]; [|lia]. exfalso.
    pose proof (N.pow_le_mono_r 10 k (len ds) ltac:(lia) L). nia.
Qed.

Definition cell_len (o : board_cell) : N := match o with Some x => len (piece_text x) | None => 1 end.
Lemma vacancies_len v : v <= 9 -> len (vacancies v) <= (if v =? 0 then 0 else 1).
Proof. intros H. unfold vacancies. destruct (v =? 0); [reflexivity|]. apply decimal_len; [change (10 ^ 1) with 10|]; lia. Qed.
Lemma row_len cells : forall v, v + len cells <= 9 -> len (row_text v cells) <= (if v =? 0 then 0 else 1) + sum cell_len cells.
Proof.
  induction cells as [|o cells IH]; intros v B; cbn [row_text sum length] in *.
  - pose proof (vacancies_len v ltac:(lia)). lia.
  - destruct o as [x|]; cbn [cell_len].
    + rewrite !len_app. pose proof (vacancies_len v ltac:(lia)). specialize (IH 0 ltac:(lia)). change (0 =? 0) with true in IH. cbv iota in IH. destruct (v =? 0); lia.
    + specialize (IH (v + 1) ltac:(lia)). replace (v + 1 =? 0) with false in IH by (symmetry; apply N.eqb_neq; lia). destruct (v =? 0); lia.
Qed.
Definition board_order : list square := flat_map (fun r => map (fun f => square_at f r) files) ranks.
Lemma board_order_sum F : sum F board_order = sum F squares.
Proof.
  let l := eval vm_compute in board_order in change board_order with l.
  let l := eval vm_compute in squares in change squares with l.
  cbn [sum]. ring.
Qed.
Lemma sum_map {A B} (f : B -> N) (g : A -> B) l : sum f (map g l) = sum (fun x => f (g x)) l.
Proof. induction l; cbn [map sum]; congruence. Qed.
Lemma board_len b : len (board_text b) <= 8 + sum (fun sq => cell_len (b sq)) squares.
Proof.
  rewrite <- board_order_sum. unfold board_text, board_order, ranks. cbn [flat_map map join]. rewrite !len_app, !sum_app.
  change (len (bytes "/")) with 1. change (sum _ []) with 0.
  assert (R : forall r, len (row_text 0 (row b r)) <= sum (fun sq => cell_len (b sq)) (map (fun f => square_at f r) files)).
  { intros r. pose proof (row_len (row b r) 0) as H. change (0 =? 0) with true in H. unfold row in *. rewrite sum_map in H.
    rewrite sum_map. apply H. cbn. lia. }
  pose proof (R 1). pose proof (R 2). pose proof (R 3). pose proof (R 4). pose proof (R 5). pose proof (R 6). pose proof (R 7). pose proof (R 8). pose proof (R 9). lia.
Qed.
Lemma piece_text_len x : len (piece_text x) = 1 + (if same_kind (base_kind (fst x)) (fst x) then 0 else 1).
Proof. destruct x as [k c]. destruct k, c; reflexivity. Qed.
Lemma squares_len : len squares = 81.
Proof. reflexivity. Qed.
Definition counts (f : piece_kind * color -> bool) (o : board_cell) : N := match o with Some x => if f x then 1 else 0 | None => 0 end.
Lemma count_sum a f : count_squares a f = sum (fun sq => counts f (a_board a sq)) squares.
Proof.
  unfold count_squares. rewrite sum_filter. generalize squares. induction l as [|q l IH]; cbn [sum]; auto. rewrite IH. f_equal.
  unfold counts. now destruct (a_board a q).
Qed.
Lemma board_len_promoted a :
  len (board_text (a_board a)) <= 89 + (on_board_count a Pawn + on_board_count a Lance + on_board_count a Knight +
    on_board_count a Silver + on_board_count a Bishop + on_board_count a Rook).
Proof.
  pose proof (board_len (a_board a)) as H. etransitivity; [exact H|]. clear H. unfold on_board_count. rewrite !count_sum.
  rewrite <- !sum_add. replace 89 with (8 + 1 * len squares) by reflexivity. rewrite <- sum_const, <- N.add_assoc, <- sum_add.
  apply N.add_le_mono_l. apply sum_le. intros sq _. unfold cell_len, counts. destruct (a_board a sq) as [[k c]|]; [|lia].
  rewrite piece_text_len. destruct k; vm_compute; discriminate.
Qed.
Lemma board_len_any a : len (board_text (a_board a)) <= 170.
Proof.
  pose proof (board_len (a_board a)) as H. etransitivity; [exact H|]. clear H. replace 170 with (8 + 2 * len squares) by reflexivity.
  rewrite <- sum_const. apply N.add_le_mono_l. apply sum_le. intros sq _. unfold cell_len. destruct (a_board a sq) as [x|]; [|lia].
  rewrite piece_text_len. destruct (same_kind _ _); lia.
Qed.

Lemma entry_len_small h x : h (fst x) (snd x) <= 18 -> In (snd x) hand_kinds -> len (hand_entry h x) <= h (fst x) (snd x).
Proof.
  intros H K. unfold hand_entry. cbv zeta. destruct (N.eqb_spec (h (fst x) (snd x)) 0) as [E|N0]; [cbn; lia|].
  rewrite len_app, piece_text_len. cbn [fst]. replace (same_kind (base_kind (snd x)) (snd x)) with true
    by (symmetry; cbn in K; repeat destruct K as [<-|K]; [..|tauto]; reflexivity).
  destruct (N.eqb_spec (h (fst x) (snd x)) 1) as [E|N1]; [cbn; lia|].
  destruct (N.le_gt_cases (h (fst x) (snd x)) 9) as [L|L].
  - pose proof (decimal_len (h (fst x) (snd x)) 1). change (10 ^ 1) with 10 in *. lia.
  - pose proof (decimal_len (h (fst x) (snd x)) 2). change (10 ^ 2) with 100 in *. lia.
Qed.
Lemma entry_len_any h x : h (fst x) (snd x) < 256 -> In (snd x) hand_kinds -> len (hand_entry h x) <= 4.
Proof.
  intros H K. unfold hand_entry. cbv zeta. destruct (N.eqb_spec (h (fst x) (snd x)) 0) as [E|N0]; [cbn; lia|].
  rewrite len_app, piece_text_len. cbn [fst]. replace (same_kind (base_kind (snd x)) (snd x)) with true
    by (symmetry; cbn in K; repeat destruct K as [<-|K]; [..|tauto]; reflexivity).
  pose proof (decimal_len (h (fst x) (snd x)) 3). change (10 ^ 3) with 1000 in *. destruct (_ =? 1); cbn [length]; lia.
Qed.
Lemma flat_map_len {A} (f : A -> list N) g l : (forall x, In x l -> len (f x) <= g x) -> len (flat_map f l) <= sum g l.
Proof.
  induction l as [|x l IH]; intros H; cbn [flat_map sum]; [reflexivity|]. rewrite len_app.
  pose proof (H x (or_introl eq_refl)). specialize (IH (fun y I => H y (or_intror I))). lia.
Qed.
Definition small (h : color -> piece_kind -> N) : Prop := forall c k, In k hand_kinds -> h c k <= 18.
Lemma hands_len_small h : small h -> len (hands_text h) <= N.max 1 (sum (fun k => h Black k + h White k) hand_kinds).
Proof.
  intros S. unfold hands_text. destruct (forallb _ hand_order); [cbn; lia|].
  pose proof (flat_map_len (hand_entry h) (fun x => h (fst x) (snd x)) hand_order) as H.
  assert (E : sum (fun x => h (fst x) (snd x)) hand_order = sum (fun k => h Black k + h White k) hand_kinds).
  { unfold hand_order, hand_kinds. cbn [map app sum fst snd]. lia. }
  rewrite <- E. etransitivity; [apply H|lia]. intros [c k] I. apply hand_order_kinds in I. apply entry_len_small; cbn [fst snd]; auto.
Qed.
Lemma hands_len_any h : (forall c k, In k hand_kinds -> h c k < 256) -> len (hands_text h) <= 56.
Proof.
  intros S. unfold hands_text. destruct (forallb _ hand_order); [cbn; lia|].
  pose proof (flat_map_len (hand_entry h) (fun _ => 4) hand_order) as H. rewrite sum_const in H. apply H.
  intros [c k] I. apply hand_order_kinds in I. apply entry_len_any; cbn [fst snd]; auto.
Qed.
Lemma sfen_len a : len (sfen_text a) = len (board_text (a_board a)) + len (hands_text (a_hand a)) + len (decimal (a_ply a)) + 4.
Proof. unfold sfen_text. rewrite !len_app. change (len (bytes " ")) with 1. destruct (a_side a); cbn [color_text]; [change (len (bytes "b")) with 1|change (len (bytes "w")) with 1]; lia. Qed.
Lemma sfen_len_set a : within_a_set a -> a_ply a < 65536 -> len (sfen_text a) <= 136.
Proof.
  intros S Y. rewrite sfen_len. pose proof (board_len_promoted a) as B.
  assert (D : len (decimal (a_ply a)) <= 5) by (apply decimal_len; [change (10 ^ 5) with 100000|]; lia).
  assert (H : len (hands_text (a_hand a)) <= N.max 1 (sum (fun k => a_hand a Black k + a_hand a White k) hand_kinds)).
  { apply hands_len_small. intros c k K. specialize (S k K). assert (full_set k <= 18) by (destruct k; vm_compute; discriminate). destruct c; lia. }
  unfold hand_kinds in H. cbn [sum] in H.
  pose proof (S Pawn ltac:(cbn; tauto)) as S1. pose proof (S Lance ltac:(cbn; tauto)) as S2. pose proof (S Knight ltac:(cbn; tauto)) as S3.
  pose proof (S Silver ltac:(cbn; tauto)) as S4. pose proof (S Gold ltac:(cbn; tauto)) as S5. pose proof (S Bishop ltac:(cbn; tauto)) as S6.
  pose proof (S Rook ltac:(cbn; tauto)) as S7. cbn [full_set] in *. lia.
Qed.
Lemma sfen_len_any a : (forall c k, In k hand_kinds -> a_hand a c k < 256) -> a_ply a < 65536 -> len (sfen_text a) <= 235.
Proof.
  intros S Y. rewrite sfen_len. pose proof (board_len_any a). pose proof (hands_len_any (a_hand a) S).
  assert (D : len (decimal (a_ply a)) <= 5) by (apply decimal_len; [change (10 ^ 5) with 100000|]; lia). lia.
Qed.
