(** What the reader of SFEN texts accepts is what the writer writes, up to the order of the hands. *)
From Verif Require Export LEdit.

(** ** Letters *)
Lemma letter_cases n (c : color) (x : piece_kind * color) : (match n with
  | 80 => Some (Pawn, c) | 76 => Some (Lance, c) | 78 => Some (Knight, c) | 83 => Some (Silver, c) | 71 => Some (Gold, c)
  | 66 => Some (Bishop, c) | 82 => Some (Rook, c) | 75 => Some (King, c) | _ => None end) = Some x ->
  snd x = c /\ kind_text (fst x) = [n] /\ 66 <= n <= 83.
Proof.
  destruct n as [|p]; [discriminate|]. repeat (destruct p as [p|p|]; try discriminate); intros [= <-]; cbn [fst snd]; (split; [reflexivity|]; split; [reflexivity|lia]).
Qed.
Lemma read_letter_inv b x : read_letter b = Some x -> piece_text x = [b].
Proof.
  unfold read_letter. intros H. apply letter_cases in H as (A & B & C). unfold piece_text. rewrite A, B. destruct (97 <=? b) eqn:E.
  - apply N.leb_le in E. cbn [map]. unfold lower. replace (_ && _) with true by (symmetry; apply andb_true_iff; rewrite !N.leb_le; lia). f_equal. lia.
  - reflexivity.
Qed.
Lemma read_promoted_inv b x : read_promoted b = Some x -> piece_text x = [43; b].
Proof.
  unfold read_promoted. destruct (read_letter b) as [[k c]|] eqn:E; [|discriminate]. apply read_letter_inv in E.
  destruct (promoted k) as [l|] eqn:F; [|discriminate]. intros [= <-].
  destruct k; try discriminate; injection F as <-; destruct c; injection E as <-; reflexivity.
Qed.
Lemma letter_not_space b x : read_letter b = Some x -> b <> 32 /\ b <> 47 /\ b <> 45 /\ is_digit b = false.
Proof.
  unfold read_letter. intros H. apply letter_cases in H as (_ & _ & C). unfold is_digit.
  destruct (97 <=? b) eqn:E; rewrite andb_false_iff, !N.leb_gt; lia.
Qed.

(** ** Rows *)
Lemma row_text_run r d : forall v, row_text v (repeat None d ++ r) = row_text (v + N.of_nat d) r.
Proof.
  induction d as [|d IH]; intros v; cbn [repeat app row_text]; [f_equal; lia|]. rewrite IH. f_equal. lia.
Qed.
Definition not_vacant (r : list board_cell) : Prop := match r with None :: _ => False | _ => True end.
Lemma row_text_pending r v : not_vacant r -> row_text v r = vacancies v ++ row_text 0 r.
Proof. destruct r as [|[x|] r]; cbn [row_text not_vacant]; intros H; [now rewrite app_nil_r|reflexivity|contradiction]. Qed.
Definition rows_text (rs : list (list board_cell)) : list N := flat_map (fun r => 47 :: row_text 0 r) rs.
Lemma one_digit c : 49 <= c <= 57 -> vacancies (c - 48) = [c].
Proof.
  intros H. assert (C : c = 49 \/ c = 50 \/ c = 51 \/ c = 52 \/ c = 53 \/ c = 54 \/ c = 55 \/ c = 56 \/ c = 57) by lia.
  repeat destruct C as [->|C]; try subst c; reflexivity.
Qed.
Lemma read_rows_inv t : forall rows cur ad plus R rest, read_rows t rows cur ad plus = Some (R, rest) ->
  exists c1 rs, R = rows ++ (cur ++ c1) :: rs /\
    (if plus then [43] else []) ++ t = row_text 0 c1 ++ rows_text rs ++ 32 :: rest /\ (ad || plus = true -> not_vacant c1).
Proof.
  induction t as [|c t IH]; intros rows cur ad plus R rest H; [discriminate|]. cbn [read_rows] in H. destruct plus.
  - destruct (read_promoted c) as [x|] eqn:E; [|discriminate]. apply IH in H as (c1 & rs & -> & T & _). apply read_promoted_inv in E.
    exists (Some x :: c1), rs. split; [now rewrite <- app_assoc|]. split; [|easy]. cbn [row_text]. change (vacancies 0) with (@nil N).
    rewrite E. cbn [app] in *. now rewrite T.
  - cbn [app]. destruct (N.eqb_spec c 47) as [->|N47].
    { apply IH in H as (c1 & rs & -> & T & _). exists [], (c1 :: rs). split; [rewrite app_nil_r, <- app_assoc; reflexivity|]. split; [|easy].
      cbn [row_text app]. change (vacancies 0) with (@nil N). cbn [app rows_text flat_map]. rewrite <- app_assoc. cbn [app] in T. now rewrite T. }
    destruct (N.eqb_spec c 32) as [->|N32].
    { injection H as <- <-. exists [], []. rewrite app_nil_r. repeat split. }
    destruct (N.eqb_spec c 43) as [->|N43].
    { apply IH in H as (c1 & rs & -> & T & A). exists c1, rs. split; [reflexivity|]. split; [exact T|]. intros _. now apply A. }
    destruct ((49 <=? c) && (c <=? 57)) eqn:D.
    { destruct ad; [discriminate|]. apply IH in H as (c1 & rs & -> & T & A). apply andb_true_iff in D. rewrite !N.leb_le in D.
      exists (repeat None (N.to_nat (c - 48)) ++ c1), rs. split; [now rewrite <- app_assoc|]. split; [|easy].
      rewrite row_text_run, row_text_pending by auto. replace (0 + N.of_nat (N.to_nat (c - 48))) with (c - 48) by lia.
      rewrite one_digit by auto. cbn [app] in *. now rewrite T. }
    destruct (read_letter c) as [x|] eqn:E; [|discriminate]. apply IH in H as (c1 & rs & -> & T & _). apply read_letter_inv in E.
    exists (Some x :: c1), rs. split; [now rewrite <- app_assoc|]. split; [|easy]. cbn [row_text]. change (vacancies 0) with (@nil N).
    rewrite E. cbn [app] in *. now rewrite T.
Qed.

Lemma nine {A} (l : list A) : length l = 9%nat -> exists a b c d e f g h i, l = [a; b; c; d; e; f; g; h; i].
Proof.
  intros H. do 9 (destruct l as [|? l]; [discriminate|]). destruct l; [|discriminate]. repeat eexists.
Qed.
Lemma row_of_cells (l : list board_cell) : length l = 9%nat -> map (fun f => nth (N.to_nat (9 - f)) l None) files = l.
Proof. intros H. destruct (nine l H) as (a & b & c & d & e & f & g & h & i & ->). reflexivity. Qed.
Lemma row_board_of rows r : 1 <= r <= 9 -> row (board_of_rows rows) r = map (fun f => nth (N.to_nat (9 - f)) (nth (N.to_nat (r - 1)) rows []) None) files.
Proof.
  intros H. unfold row. apply map_ext_in. intros f I.
  assert (F : 1 <= f <= 9) by (cbn in I; repeat destruct I as [<-|I]; [..|destruct I]; lia).
  unfold board_of_rows. rewrite file_of_at, rank_of_at by (split; auto). reflexivity.
Qed.
Lemma rows_of_board rows : length rows = 9%nat -> (forall r, In r rows -> length r = 9%nat) -> map (row (board_of_rows rows)) ranks = rows.
Proof.
  intros L H. transitivity (map (fun r => nth (N.to_nat (r - 1)) rows []) ranks).
  - apply map_ext_in. intros r I. assert (R : 1 <= r <= 9) by (cbn in I; repeat destruct I as [<-|I]; [..|destruct I]; lia).
    rewrite row_board_of by auto. apply row_of_cells, H, nth_In. lia.
  - destruct (nine rows L) as (a & b & c & d & e & f & g & h & i & ->). reflexivity.
Qed.
Lemma join_rows r rs : join [47] (map (row_text 0) (r :: rs)) = row_text 0 r ++ rows_text rs.
Proof.
  revert r. induction rs as [|q rs IH]; intros r; [cbn; now rewrite app_nil_r|].
  change (join [47] (map (row_text 0) (r :: q :: rs))) with (row_text 0 r ++ [47] ++ join [47] (map (row_text 0) (q :: rs))).
  rewrite IH. reflexivity.
Qed.
Lemma board_text_of rows : length rows = 9%nat -> (forall r, In r rows -> length r = 9%nat) ->
  board_text (board_of_rows rows) = join [47] (map (row_text 0) rows).
Proof.
  intros L H. unfold board_text. change (bytes "/") with [47]. f_equal. rewrite <- (map_map (row (board_of_rows rows)) (row_text 0)). now rewrite rows_of_board.
Qed.
Lemma read_board_inv t rows rest : read_rows t [] [] false false = Some (rows, rest) -> length rows = 9%nat ->
  (forall r, In r rows -> length r = 9%nat) -> t = board_text (board_of_rows rows) ++ 32 :: rest.
Proof.
  intros H L F. apply read_rows_inv in H as (c1 & rs & -> & T & _). cbn [app] in *. rewrite board_text_of, join_rows by auto.
  now rewrite <- app_assoc.
Qed.

(** ** Hands *)
Definition letter (x : color * piece_kind) : N := hd 0 (piece_text (snd x, fst x)).
Definition letters (t : list N) : list N := filter (fun c => negb (is_digit c)) t.
Lemma forward_split l : forall ord c t, forward (map letter ord) (c :: t) = true ->
  l = ord -> exists o1 x o2, ord = o1 ++ x :: o2 /\ letter x = c /\ forward (map letter o2) t = true.
Proof.
  intros ord. revert l. induction ord as [|x ord IH]; intros l c t H _; [discriminate|]. cbn [map forward] in H.
  destruct (N.eqb_spec c (letter x)) as [->|Ne].
  - exists [], x, ord. auto.
  - destruct (IH ord c t H eq_refl) as (o1 & y & o2 & -> & A & B). exists (x :: o1), y, o2. auto.
Qed.
Definition pre (n : N) : list N := if n =? 0 then [] else decimal n.
Lemma pre_digit n c : is_digit c = true -> (n =? 0) && (c =? 48) = false -> pre (10 * n + (c - 48)) = pre n ++ [c] /\ 10 * n + (c - 48) <> 0.
Proof.
  intros D Z. pose proof D as D'. unfold is_digit in D'. apply andb_true_iff in D'. rewrite !N.leb_le in D'. apply andb_false_iff in Z. rewrite !N.eqb_neq in Z.
  assert (NZ : 10 * n + (c - 48) <> 0) by lia. split; auto. unfold pre. apply N.eqb_neq in NZ as NZ'. rewrite NZ'. symmetry. apply canonical_unique.
  destruct (N.eqb_spec n 0) as [->|N0].
  - cbn [app]. split; [discriminate|]. split; [auto|]. split; [unfold digits_value; cbn [fold_left]; lia|]. cbn [hd]. intros. lia.
  - destruct (decimal_canonical n) as (NE & F & V & H). split; [destruct (decimal n); discriminate|]. split; [apply Forall_app; auto|].
    split; [unfold digits_value in *; rewrite fold_left_app; cbn [fold_left]; lia|].
    destruct (decimal n) as [|d ds] eqn:E; [easy|]. cbn [hd app] in *. intros ->. specialize (H eq_refl). injection H as ->.
    exfalso. apply N0. rewrite <- V. reflexivity.
Qed.
Lemma hand_letter c k : In k hand_kinds -> piece_text (k, c) = [letter (c, k)] /\ read_letter (letter (c, k)) = Some (k, c).
Proof. cbn. intros H. repeat destruct H as [<-|H]; [..|tauto]; destruct c; split; reflexivity. Qed.
Lemma zero_entries h l : (forall c k, In (c, k) l -> h c k = 0) -> flat_map (hand_entry h) l = [].
Proof.
  induction l as [|[c k] l IH]; intros H; auto. cbn [flat_map]. unfold hand_entry at 1. cbn [fst snd]. rewrite (H c k) by now left. cbn. apply IH. intros. apply H. now right.
Qed.
Lemma read_hands_inv t : forall n h h' rest, read_hands t n h = Some (h', rest) ->
  exists field, t = field ++ 32 :: rest /\ ~ In 32 field /\
    forall ord, forward (map letter ord) (letters field) = true -> NoDup ord ->
      (forall c k, In (c, k) ord -> In k hand_kinds /\ h c k = 0) ->
      pre n ++ field = flat_map (hand_entry h') ord /\ (forall c k, ~ In (c, k) ord -> h' c k = h c k).
Proof.
  induction t as [|c t IH]; intros n h h' rest H; [discriminate|]. cbn [read_hands] in H. destruct (N.eqb_spec c 32) as [->|N32].
  { destruct (N.eqb_spec n 0) as [->|]; [|discriminate]. injection H as <- <-. exists []. split; [reflexivity|]. split; [easy|]. intros ord _ _ Z. split; auto.
    rewrite zero_entries; auto. intros c k I. now apply Z. }
  destruct (is_digit c) eqn:D.
  { destruct ((n =? 0) && (c =? 48)) eqn:Z0; [discriminate|]. apply IH in H as (field & -> & NI & F). exists (c :: field). split; [reflexivity|].
    split; [intros [->|I]; auto|]. intros ord FW ND Z. unfold letters in FW. cbn [filter] in FW. rewrite D in FW. cbn [negb] in FW.
    destruct (F ord FW ND Z) as [A B]. split; auto. destruct (pre_digit n c D Z0) as [E _]. rewrite E, <- app_assoc in A. exact A. }
  destruct (read_letter c) as [[k col]|] eqn:E; [|discriminate].
  destruct (can_be_in_hand k && (h col k =? 0) && negb (n =? 1)) eqn:C; [|discriminate]. apply andb_true_iff in C as [C C3]. apply andb_true_iff in C as [C1 C2].
  apply can_be_in_hand_iff in C1. apply N.eqb_eq in C2. apply negb_true_iff, N.eqb_neq in C3.
  apply IH in H as (field & -> & NI & F). exists (c :: field). split; [reflexivity|]. split; [intros [->|I]; auto|].
  intros ord FW ND Z. unfold letters in FW. cbn [filter] in FW. rewrite D in FW. cbn [negb] in FW.
  destruct (forward_split ord ord c _ FW eq_refl) as (o1 & [d l] & o2 & -> & L & FW2).
  assert (Hd : In (d, l) (o1 ++ (d, l) :: o2)) by (apply in_app_iff; right; now left). destruct (Z d l Hd) as [Kl Hl].
  destruct (hand_letter d l Kl) as [T1 T2]. rewrite L in *. rewrite T2 in E. injection E as <- <-.
  pose proof (NoDup_remove _ _ _ ND) as [ND2 NI2]. rewrite in_app_iff in NI2.
  assert (NDo2 : NoDup o2) by (clear - ND2; induction o1 as [|y o1 IH]; auto; cbn [app] in ND2; apply NoDup_cons_iff in ND2 as [_ ND2]; auto).
  assert (H1 : forall c0 k0, (c0, k0) <> (d, l) -> (if same_color c0 d && same_kind k0 l then if n =? 0 then 1 else n else h c0 k0) = h c0 k0).
  { intros c0 k0 NE. destruct (same_color_spec c0 d) as [->|]; auto. destruct (same_kind_spec k0 l) as [->|]; auto. congruence. }
  destruct (F o2 FW2 NDo2) as [A B].
  { intros c0 k0 I. destruct (Z c0 k0) as [Z1 Z2]; [apply in_app_iff; right; now right|]. split; auto. rewrite H1; auto. intros [= -> ->]. tauto. }
  assert (V : h' d l = if n =? 0 then 1 else n).
  { rewrite B by tauto. rewrite same_color_refl, same_kind_refl. reflexivity. }
  split.
  - rewrite flat_map_app. cbn [flat_map]. rewrite (zero_entries h' o1).
    + cbn [app]. change (pre 0 ++ field) with field in A. rewrite <- A. unfold hand_entry. cbn [fst snd]. rewrite V, T1. unfold pre.
      destruct (N.eqb_spec n 0) as [->|N0]; [reflexivity|]. apply N.eqb_neq in N0. rewrite N0. apply N.eqb_neq in C3. rewrite C3.
      now rewrite <- app_assoc.
    + intros c0 k0 I. destruct (Z c0 k0) as [Z1 Z2]; [apply in_app_iff; now left|].
      assert (NE : (c0, k0) <> (d, l)) by (intros [= -> ->]; tauto). rewrite B, H1; auto.
      intros I2. assert (X : ~ In (c0, k0) o2).
      { clear - ND2 I. induction o1 as [|y o1 IH]; [destruct I|]. cbn [app] in ND2. apply NoDup_cons_iff in ND2 as [N1 N2]. destruct I as [->|I]; auto.
        rewrite in_app_iff in N1. tauto. }
      contradiction.
  - intros c0 k0 NI0. rewrite B; [|intros I; apply NI0, in_app_iff; right; now right]. apply H1. intros [= -> ->]. contradiction.
Qed.
Lemma letter_order : bytes "RBGSNLPrbgsnlp" = map letter hand_order.
Proof. reflexivity. Qed.

(** ** Numbers *)
Lemma read_number_inv t n : read_number t = Some n -> t = decimal n.
Proof.
  unfold read_number. destruct (forallb is_digit t) eqn:F; cbn [andb]; [|discriminate]. intros H. apply canonical_unique.
  destruct t as [|c [|d t]]; cbn [negb] in H; [discriminate| |].
  - injection H as <-. split; [discriminate|]. split; [apply Forall_forall, forallb_forall, F|]. split; auto. cbn [hd]. now intros ->.
  - destruct (N.eqb_spec c 48); cbn [negb] in H; [discriminate|]. injection H as <-. split; [discriminate|]. split; [apply Forall_forall, forallb_forall, F|]. split; auto.
    cbn [hd]. easy.
Qed.
Lemma read_color_inv c s : read_color [c] = Some s -> [c] = color_text s.
Proof. unfold read_color. destruct c as [|p]; [discriminate|]. repeat (destruct p as [p|p|]; try discriminate); intros [= <-]; reflexivity. Qed.

(** ** SFEN *)
Lemma dash_split {A} (t : list N) (x : list N -> A) y :
  (exists t', t = 45 :: 32 :: t' /\ match t with 45 :: 32 :: t' => x t' | _ => y end = x t') \/
  match t with 45 :: 32 :: t' => x t' | _ => y end = y.
Proof.
  destruct t as [|c t]; auto. destruct c as [|p]; auto. do 6 (destruct p as [p|p|]; auto). destruct t as [|c t]; auto. destruct c as [|p]; auto.
  do 6 (destruct p as [p|p|]; auto). left. eauto.
Qed.
Lemma space_split {A} (t : list N) (x : N -> list N -> A) y :
  (exists c t', t = c :: 32 :: t' /\ match t with c :: 32 :: t' => x c t' | _ => y end = x c t') \/
  match t with c :: 32 :: t' => x c t' | _ => y end = y.
Proof.
  destruct t as [|c t]; auto. destruct t as [|d t]; auto. destruct d as [|p]; auto. do 6 (destruct p as [p|p|]; auto). left. eauto.
Qed.
Lemma hands_text_order h : hands_text h = bytes "-" /\ (forall c k, In k hand_kinds -> h c k = 0) \/
  hands_text h = flat_map (hand_entry h) hand_order /\ exists c k, In k hand_kinds /\ h c k <> 0.
Proof.
  unfold hands_text. destruct (forallb (fun x => h (fst x) (snd x) =? 0) hand_order) eqn:E; [left|right]; split; auto.
  - rewrite forallb_forall in E. intros c k K. apply (hand_order_kinds c) in K. apply E in K. now apply N.eqb_eq in K.
  - assert (X : existsb (fun x => negb (h (fst x) (snd x) =? 0)) hand_order = true).
    { revert E. generalize hand_order. induction l as [|x l IH]; [discriminate|]. cbn. destruct (h (fst x) (snd x) =? 0); auto. }
    apply existsb_exists in X as ([c k] & I & X). exists c, k. split; [now apply (hand_order_kinds c)|]. cbn [fst snd] in X. now apply negb_true_iff, N.eqb_neq in X.
Qed.
(** a text the reader accepts has four fields; all but the hands are what the writer writes, and the hands too if in order *)
Lemma read_sfen_inv t r : read_sfen t = Some r -> exists field,
  t = board_text (f_board r) ++ [32] ++ color_text (f_side r) ++ [32] ++ field ++ [32] ++ decimal (f_ply r) /\ ~ In 32 field /\
  (in_order field -> field = hands_text (f_hand r)).
Proof.
  unfold read_sfen. destruct (read_rows t [] [] false false) as [[rows rest]|] eqn:E; [|discriminate].
  match goal with |- ?m = _ -> _ => pose proof (space_split rest (fun c t => if (length rows =? 9)%nat && forallb (fun r => length r =? 9)%nat rows then
        match read_color [c],
              (match t with
               | 45 :: 32 :: t' => Some (fun _ _ => 0, t')
               | _ => read_hands t 0 (fun _ _ => 0)
               end) with
        | Some side, Some (h, t) =>
            match read_number t with Some n => Some (Sfen (board_of_rows rows) side h n) | None => None end
        | _, _ => None
        end
      else None) None) as S end.
  destruct S as [(c & t1 & -> & _)|S]; [|rewrite S; discriminate]. cbv iota.
  destruct ((length rows =? 9)%nat && forallb (fun r => length r =? 9)%nat rows) eqn:L; [|discriminate]. apply andb_true_iff in L as [L1 L2].
  apply Nat.eqb_eq in L1. assert (L3 : forall r, In r rows -> length r = 9%nat) by (intros q I; rewrite forallb_forall in L2; apply L2 in I; now apply Nat.eqb_eq).
  destruct (read_color [c]) as [side|] eqn:Ec; [|discriminate]. apply read_color_inv in Ec.
  pose proof (read_board_inv t rows _ E L1 L3) as T.
  destruct (dash_split t1 (fun t' => Some (fun (_ : color) (_ : piece_kind) => 0, t')) (read_hands t1 0 (fun _ _ => 0))) as [(t2 & -> & _)|S]; [cbv iota|rewrite S; clear S].
  - destruct (read_number t2) as [n|] eqn:En; [|discriminate]. intros [= <-]. apply read_number_inv in En. subst t2. exists (bytes "-").
    cbn [f_board f_side f_ply f_hand]. rewrite <- Ec. split; [exact T|]. split; [vm_compute; intuition discriminate|]. reflexivity.
  - destruct (read_hands t1 0 (fun _ _ => 0)) as [[h t2]|] eqn:Eh; [|discriminate]. destruct (read_number t2) as [n|] eqn:En; [|discriminate].
    intros [= <-]. apply read_number_inv in En. subst t2. pose proof Eh as Eh'. apply read_hands_inv in Eh as (field & -> & NI & F). exists field.
    cbn [f_board f_side f_ply f_hand]. rewrite <- Ec. split; [exact T|]. split; auto. intros O.
    assert (FW : field <> [] /\ forward (map letter hand_order) (letters field) = true \/ field = bytes "-") by (rewrite <- letter_order; destruct O; auto).
    destruct FW as [[NE FW]|FW].
    + destruct (F hand_order FW hand_order_nodup) as [A B]. { intros c0 k I. split; auto. now apply (hand_order_kinds c0). }
      change (pre 0 ++ field) with field in A. destruct (hands_text_order h) as [[HT Z]|[HT _]]; [|congruence].
      exfalso. apply NE. rewrite A. apply zero_entries. intros c0 k I. apply Z. now apply (hand_order_kinds c0).
    + subst field. exfalso. clear - Eh'. cbn in Eh'. discriminate.
Qed.
