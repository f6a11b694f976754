(** Writers: every printing function offers a fixed list of strings to its sink. *)
From Verif Require Export LSquare LPiece LMove LHand SpecSfen.

Definition does {W} (K : sink W) (f : writer W) (chunks : list (list N)) : Prop := forall w, f w = Ret (feed K chunks w).
Lemma feed_app {W} (K : sink W) a b w :
  feed K (a ++ b) w = (let (w', ok) := feed K a w in if ok then feed K b w' else (w', false)).
Proof.
  revert w. induction a as [|c a IH]; intros w; simpl; auto. destruct (write_str K w c) as [w' []]; auto.
Qed.
Lemma does_ok {W} (K : sink W) : does K wok [].
Proof. intros w. reflexivity. Qed.
Lemma does_str {W} (K : sink W) s : does K (wstr K s) [s].
Proof. intros w. unfold wstr. simpl. destruct (write_str K w s) as [w' []]; reflexivity. Qed.
Lemma does_seq {W} (K : sink W) e k a b : does K e a -> does K k b -> does K (e ?; k) (a ++ b).
Proof.
  intros He Hk w. unfold wseq. rewrite He, feed_app. destruct (feed K a w) as [w' []]; auto.
Qed.
Lemma does_bind {A W} (K : sink W) (m : res A) a f l : m = Ret a -> does K (f a) l -> does K (wbind m f) l.
Proof. intros -> H w. exact (H w). Qed.
Lemma does_ascii {W} (K : sink W) b : b < 128 -> does K (write_ascii_byte K b) [[b]].
Proof. intros H. unfold write_ascii_byte. apply N.ltb_lt in H. rewrite H. apply does_str. Qed.
Lemma does_if {W} (K : sink W) (b : bool) f g l l' : does K f l -> does K g l' -> does K (if b then f else g) (if b then l else l').
Proof. destruct b; auto. Qed.

(** ** Recorded calls *)
Fixpoint calls {W} (K : sink W) (chunks : list (list N)) (w : W) : list (list N * bool) :=
  match chunks with
  | [] => []
  | c :: rest => let (w', ok) := write_str K w c in (c, ok) :: if ok then calls K rest w' else []
  end.
Lemma feed_recording {W} (K : sink W) chunks w l :
  feed (recording K) chunks (w, l) = ((fst (feed K chunks w), l ++ calls K chunks w), snd (feed K chunks w)).
Proof.
  revert w l. induction chunks as [|c chunks IH]; intros w l; simpl; [now rewrite app_nil_r|].
  destruct (write_str K w c) as [w' []]; simpl; [|reflexivity]. rewrite IH, <- app_assoc. reflexivity.
Qed.
Lemma calls_failed {W} (K : sink W) chunks w : snd (feed K chunks w) = false <-> exists s, In (s, false) (calls K chunks w).
Proof.
  revert w. induction chunks as [|c chunks IH]; intros w; simpl; [split; [discriminate|intros [? []]]|].
  destruct (write_str K w c) as [w' []]; simpl.
  - rewrite IH. split; intros [s H]; exists s; [auto|]. destruct H; [discriminate|auto].
  - split; eauto.
Qed.
Lemma calls_last {W} (K : sink W) chunks w before s after : calls K chunks w = before ++ (s, false) :: after -> after = [].
Proof.
  revert w before. induction chunks as [|c chunks IH]; intros w before; simpl; [destruct before; discriminate|].
  destruct (write_str K w c) as [w' []]; destruct before as [|x before]; simpl.
  - discriminate.
  - intros [= _ E]. eapply IH; eauto.
  - now intros [= _ <-].
  - intros [= _ E]. destruct before; discriminate.
Qed.
Lemma calls_prefix {W} (K : sink W) chunks w : exists rest, map fst (calls K chunks w) ++ rest = chunks /\
  (snd (feed K chunks w) = true -> rest = []).
Proof.
  revert w. induction chunks as [|c chunks IH]; intros w; simpl; [exists []; auto|].
  destruct (write_str K w c) as [w' []]; simpl.
  - destruct (IH w') as (r & E & F). exists r. split; [now rewrite E|auto].
  - exists chunks. split; auto. discriminate.
Qed.
Lemma prints_honest f text : prints f text -> honest_printer f text.
Proof.
  intros (chunks & <- & H) W K w. exists (fst (feed K chunks w)), (snd (feed K chunks w)), (calls K chunks w).
  rewrite !H, feed_recording. cbn [app]. split; [now destruct (feed K chunks w)|]. split; [reflexivity|].
  split; [apply calls_failed|]. split; [intros; eapply calls_last; eauto|].
  destruct (calls_prefix K chunks w) as (rest & E & F). split.
  - exists (concat rest). now rewrite <- concat_app, E.
  - intros O. rewrite (F O), app_nil_r in E. now rewrite E.
Qed.
Lemma feed_string chunks : forall w, feed (Sink (fun (w : list N) s => (w ++ s, true))) chunks w = (w ++ concat chunks, true).
Proof. induction chunks as [|c chunks IH]; intros w; simpl; [now rewrite app_nil_r|]. rewrite IH, <- app_assoc. reflexivity. Qed.
Lemma prints_string f text : prints f text -> f _ (Sink (fun w s => (w ++ s, true))) [] = Ret (text, true).
Proof. intros (chunks & <- & H). rewrite H, feed_string. reflexivity. Qed.

(** ** Numbers *)
Definition digit_chunks (ds : list N) : list (list N) := map (fun d => [48 + d]) ds.
Lemma does_digit {W} P (K : sink W) v : v <= 9 -> does K (write_digit P K v) (digit_chunks [v]).
Proof.
  intros H. unfold write_digit. change (byte "0") with 48. eapply does_bind; [apply add_w_ok; change (2^8) with 256; lia|].
  replace (v + 48) with (48 + v) by lia. apply does_ascii. lia.
Qed.
Definition u8_digits (v : N) : list N :=
  if v <=? 9 then [v] else if v <=? 99 then [v / 10; v mod 10] else [v / 100; (v / 10) mod 10; v mod 10].
Lemma does_u8 {W} P (K : sink W) v : v < 256 -> does K (write_u8 P K v) (digit_chunks (u8_digits v)).
Proof.
  intros H. unfold write_u8, u8_digits. destruct (N.leb_spec v 9); [now apply does_digit|].
  destruct (N.leb_spec v 99).
  - apply (does_seq K _ _ (digit_chunks [v / 10])); apply does_digit; lia.
  - apply (does_seq K _ _ (digit_chunks [v / 100])); [apply does_digit; lia|].
    apply (does_seq K _ _ (digit_chunks [(v / 10) mod 10])); apply does_digit; lia.
Qed.
Fixpoint u16_digits (bases : list N) (displayed : bool) (value : N) : list N :=
  match bases with
  | [] => []
  | base :: rest =>
      let digit := value / base in
      if displayed || negb (digit =? 0) then digit :: u16_digits rest true (value - digit * base)
      else u16_digits rest displayed (value - digit * base)
  end.
Lemma does_u16_loop {W} P (K : sink W) bases : forall d v, v < 65536 ->
  Forall (fun b => b <> 0) bases -> match bases with b :: _ => v / b <= 9 | [] => True end ->
  (forall b b' bs1 bs2, bases = bs1 ++ b :: b' :: bs2 -> b = 10 * b') ->
  does K (write_u16_loop P K bases d v) (digit_chunks (u16_digits bases d v)).
Proof.
  induction bases as [|b bases IH]; intros d v Hv NZ H9 H10; cbn [write_u16_loop u16_digits]; [apply does_ok|].
  inversion_clear NZ as [|? ? NZ1 NZ2].
  assert (B : v / b * b <= v). { rewrite N.mul_comm. now apply N.mul_div_le. }
  assert (C : forall d', does K (wbind (mul_w P 16 (v / b) b) (fun m => wbind (sub_w P 16 v m) (fun value' => write_u16_loop P K bases d' value')))
     (digit_chunks (u16_digits bases d' (v - v / b * b)))).
  { intros d'. eapply does_bind; [apply mul_w_ok; change (2^16) with 65536; eapply N.le_lt_trans; [exact B|exact Hv]|]. eapply does_bind; [now apply sub_w_ok|].
    apply IH; auto; [eapply N.le_lt_trans; [apply N.le_sub_l|exact Hv]| |].
    - destruct bases as [|b' bases]; auto. pose proof (H10 b b' [] bases eq_refl) as E. subst b. inversion_clear NZ2.
      assert (v - v / (10 * b') * (10 * b') < 10 * b').
      { rewrite (N.mul_comm (v / _)). rewrite <- N.mod_eq by lia. apply N.mod_lt. lia. }
      apply N.lt_succ_r. change (N.succ 9) with 10. apply N.div_lt_upper_bound; lia.
    - intros b1 b2 bs1 bs2 E. apply (H10 b1 b2 (b :: bs1) bs2). now rewrite E. }
  destruct (d || negb (v / b =? 0)); [|apply C].
  unfold digit_chunks. cbn [map]. apply (does_seq K _ _ [[48 + v / b]]); [|apply C].
  change (byte "0") with 48. unfold cast_w, modulus. change (2 ^ 8) with 256.
  rewrite (N.mod_small (v / b) 256) by lia.
  eapply does_bind; [apply add_w_ok; change (2 ^ 8) with 256; lia|].
  replace (v / b + 48) with (48 + v / b) by lia. apply does_ascii. lia.
Qed.
Definition u16_all (v : N) : list N := if v =? 0 then [0] else u16_digits [10000; 1000; 100; 10; 1] false v.
Lemma does_u16 {W} P (K : sink W) v : v < 65536 -> does K (write_u16 P K v) (digit_chunks (u16_all v)).
Proof.
  intros H. unfold write_u16, u16_all. destruct (v =? 0); [apply does_ascii; reflexivity|].
  change (rev [1; 10; 100; 1000; 10000]) with [10000; 1000; 100; 10; 1]. apply does_u16_loop; auto.
  - repeat constructor; discriminate.
  - lia.
  - intros b b' bs1 bs2 E. do 5 (destruct bs1 as [|? bs1]; [injection E; intros; subst; try discriminate; reflexivity|injection E as _ E]).
    destruct bs1; discriminate.
Qed.
Lemma concat_digits ds : concat (digit_chunks ds) = map (fun d => 48 + d) ds.
Proof. induction ds; simpl; congruence. Qed.
Fixpoint same_bytes (a b : list N) : bool :=
  match a, b with [], [] => true | x :: a, y :: b => (x =? y) && same_bytes a b | _, _ => false end.
Lemma same_bytes_eq a : forall b, same_bytes a b = true -> a = b.
Proof. induction a; intros [|y b]; simpl; try discriminate; auto. rewrite andb_true_iff, N.eqb_eq. intros [-> E]. now rewrite (IHa b E). Qed.
Lemma range_sweep (f : N -> bool) n : forallb f (range 0 n) = true -> forall v, v < n -> f v = true.
Proof. intros H v Hv. rewrite forallb_forall in H. apply H. apply range_In. lia. Qed.
Lemma u8_text v : v < 256 -> map (fun d => 48 + d) (u8_digits v) = decimal v.
Proof. intros H. apply same_bytes_eq. revert v H. apply range_sweep. vm_compute. reflexivity. Qed.
Lemma range_sweep2 (f : N -> bool) :
  forallb (fun h => forallb (fun l => f (256 * h + l)) (range 0 256)) (range 0 256) = true -> forall v, v < 65536 -> f v = true.
Proof.
  intros H v Hv. pose proof (range_sweep _ _ H (v / 256)) as H1. cbv beta in H1. specialize (H1 ltac:(lia)).
  pose proof (range_sweep _ _ H1 (v mod 256)) as H2. cbv beta in H2. specialize (H2 ltac:(lia)).
  assert (E : 256 * (v / 256) + v mod 256 = v) by (symmetry; apply N.div_mod; discriminate). rewrite E in H2. exact H2.
Qed.
Lemma u16_text v : v < 65536 -> map (fun d => 48 + d) (u16_all v) = decimal v.
Proof. intros H. apply same_bytes_eq. revert v H. apply range_sweep2. vm_compute. reflexivity. Qed.
