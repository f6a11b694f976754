(** The texts of the [Debug] implementations: what the builders and the adapter write, and why texts tell values apart. *)
From Verif Require Export MDebug SpecDebug LSfen.
Local Open Scope list_scope.

(** ** Trees *)
Fixpoint tree_ind2 (Q : debug_tree -> Prop) (Hn : forall n, Q (DNum n)) (Hu : forall w, Q (DUnit w))
  (Hd : forall k items, Forall (fun x => Q (snd x)) items -> Q (DNode k items)) (d : debug_tree) : Q d :=
  match d with
  | DNum n => Hn n
  | DUnit w => Hu w
  | DNode k items => Hd k items
      ((fix go (l : list (list N * debug_tree)) : Forall (fun x => Q (snd x)) l :=
          match l with [] => Forall_nil _ | x :: rest => Forall_cons x (tree_ind2 Q Hn Hu Hd (snd x)) (go rest) end) items)
  end.
Definition node_text (b : bool) (k : debug_kind) (its : list (text * text)) : text :=
  match k with
  | DTuple n => tuple_text b n (map snd its)
  | DStruct n => struct_text b n its
  | DList => list_text b (map snd its)
  end.
Fixpoint tree_text (b : bool) (d : debug_tree) : text :=
  match d with
  | DNum n => decimal n
  | DUnit w => w
  | DNode k items => node_text b k (map (fun x => (fst x, tree_text b (snd x))) items)
  end.

(** ** Numbers *)
Lemma fold_value l : forall a, fold_left (fun n c => 10 * n + (c - 48)) l a = a * 10 ^ N.of_nat (List.length l) + digits_value l.
Proof.
  unfold digits_value. induction l as [|c l IH]; intros a; cbn [fold_left List.length]; [cbn; lia|].
  rewrite IH, (IH (10 * 0 + (c - 48))), Nat2N.inj_succ, N.pow_succ_r'. nia.
Qed.
Lemma digits_before_ok fuel : forall n acc, n < 10 ^ N.of_nat fuel -> (0 < fuel)%nat ->
  exists ds, digits_before fuel n acc = ds ++ acc /\ canonical_decimal ds n.
Proof.
  induction fuel as [|fuel IH]; intros n acc H F; [lia|]. cbn [digits_before].
  assert (D : n mod 10 < 10) by now apply N.mod_lt.
  assert (G : is_digit (48 + n mod 10) = true) by (unfold is_digit; apply andb_true_intro; split; apply N.leb_le; lia).
  assert (Z : n = 10 * (n / 10) + n mod 10) by now apply N.div_mod.
  destruct (n / 10 =? 0) eqn:E.
  - apply N.eqb_eq in E. exists [48 + n mod 10]. split; [easy|]. unfold canonical_decimal. repeat split; [easy|now constructor| |].
    + cbn [digits_value fold_left]. unfold digits_value. cbn [fold_left]. rewrite Z at 2. rewrite E. lia.
    + cbn [hd]. intros X. now rewrite X.
  - apply N.eqb_neq in E. rewrite Nat2N.inj_succ, N.pow_succ_r' in H.
    destruct fuel as [|fuel]; [cbn in H; assert (n / 10 = 0) by (apply N.div_small; lia); lia|].
    destruct (IH (n / 10) ((48 + n mod 10) :: acc)) as (ds & -> & (NE & FD & V & Y)); [apply N.div_lt_upper_bound; lia|lia|].
    exists (ds ++ [48 + n mod 10]). split; [now rewrite <- app_assoc|]. unfold canonical_decimal. split; [now destruct ds|].
    split; [apply Forall_app; split; [easy|now constructor]|]. split.
    + unfold digits_value. rewrite fold_left_app. fold (digits_value ds). rewrite V. cbn [fold_left]. rewrite Z at 3. lia.
    + destruct ds as [|d ds]; [easy|]. cbn [hd app] in *. intros X. specialize (Y X). injection Y as -> ->.
      cbn in V. subst. lia.
Qed.
Lemma num_text_ok n : n < 2 ^ 64 -> num_text n = decimal n.
Proof.
  intros H. unfold num_text. destruct (digits_before_ok 20 n []) as (ds & -> & C); [|lia|].
  - eapply N.lt_trans; [exact H|]. vm_compute. reflexivity.
  - rewrite app_nil_r. now apply canonical_unique.
Qed.

(** ** The adapter *)
Definition four : text := bytes "    ".
Fixpoint pad_text (nl : bool) (t : text) : text :=
  match t with [] => [] | c :: rest => (if nl then four else []) ++ c :: pad_text (c =? 10) rest end.
Fixpoint line_end (nl : bool) (t : text) : bool := match t with [] => nl | c :: rest => line_end (c =? 10) rest end.
Fixpoint pieces (nl : bool) (ls : list text) : list text :=
  match ls with [] => [] | l :: rest => (if nl then [four] else []) ++ l :: pieces (ends_line l) rest end.
Definition lines_end (nl : bool) (ls : list text) : bool := fold_left (fun _ l => ends_line l) ls nl.
Lemma ends_cons c l : l <> [] -> ends_line (c :: l) = ends_line l.
Proof. unfold ends_line. now destruct l. Qed.
Lemma split_nonempty t : Forall (fun l => l <> []) (split_inclusive t).
Proof.
  induction t as [|c t IH]; cbn [split_inclusive]; [constructor|]. destruct (c =? 10); [now constructor|].
  destruct (split_inclusive t) as [|l ls]; [now repeat constructor|]. inversion_clear IH. now constructor.
Qed.
Lemma pieces_split t : forall nl, concat (pieces nl (split_inclusive t)) = pad_text nl t /\ lines_end nl (split_inclusive t) = line_end nl t.
Proof.
  induction t as [|c t IH]; intros nl; cbn [split_inclusive pad_text line_end]; [easy|].
  destruct (c =? 10) eqn:E.
  - cbn [pieces lines_end fold_left]. replace (ends_line [c]) with true by (unfold ends_line; cbn; now rewrite E).
    destruct (IH true) as [I J]. split; [|exact J]. destruct nl; cbn [app concat]; now rewrite I.
  - destruct (IH false) as [I J]. pose proof (split_nonempty t) as NE. destruct (split_inclusive t) as [|l ls].
    + cbn [pieces lines_end fold_left concat] in *. rewrite <- I, <- J. unfold ends_line. cbn [List.last]. rewrite E.
      split; [|easy]. now destruct nl.
    + inversion_clear NE. cbn [pieces lines_end fold_left concat] in *. rewrite ends_cons by easy. rewrite <- I.
      split; [|exact J]. destruct nl; cbn [app concat]; reflexivity.
Qed.
Lemma feed_app {W} (K : sink W) a : forall b w, feed K (a ++ b) w = let (w', ok) := feed K a w in if ok then feed K b w' else (w', false).
Proof. induction a as [|c a IH]; intros b w; cbn [feed app]; [easy|]. destruct (write_str K w c) as [w' []]; [apply IH|easy]. Qed.
Lemma pad_lines_ok {W} (K : sink W) ls : forall w nl, exists nl',
  pad_lines K ls (w, nl) = ((fst (feed K (pieces nl ls) w), nl'), snd (feed K (pieces nl ls) w)) /\
  (snd (feed K (pieces nl ls) w) = true -> nl' = lines_end nl ls).
Proof.
  induction ls as [|l ls IH]; intros w nl; cbn [pad_lines pieces]; [now exists nl|]. cbn [fst snd].
  rewrite feed_app. destruct nl.
  - cbn [feed]. fold four. destruct (write_str K w four) as [w1 []]; [|now exists true].
    destruct (write_str K w1 l) as [w2 []]; [apply IH|now exists (ends_line l)].
  - cbn [feed]. destruct (write_str K w l) as [w2 []]; [apply IH|now exists (ends_line l)].
Qed.
Fixpoint pad_chunks (nl : bool) (cs : list text) : list text :=
  match cs with [] => [] | c :: rest => pieces nl (split_inclusive c) ++ pad_chunks (line_end nl c) rest end.
Lemma feed_pad {W} (K : sink W) cs : forall w nl, exists nl',
  feed (pad K) cs (w, nl) = ((fst (feed K (pad_chunks nl cs) w), nl'), snd (feed K (pad_chunks nl cs) w)).
Proof.
  induction cs as [|c cs IH]; intros w nl; cbn [feed pad_chunks]; [now exists nl|]. cbn [pad write_str].
  destruct (pad_lines_ok K (split_inclusive c) w nl) as (nl' & -> & H). rewrite feed_app.
  destruct (feed K (pieces nl (split_inclusive c)) w) as [w' []]; cbn [fst snd] in *; [|now exists nl'].
  rewrite (H eq_refl). destruct (pieces_split c nl) as [_ ->]. apply IH.
Qed.
Lemma pad_text_app a : forall nl b, pad_text nl (a ++ b) = pad_text nl a ++ pad_text (line_end nl a) b.
Proof.
  induction a as [|c a IH]; intros nl b; cbn [pad_text line_end app]; [easy|]. rewrite IH. destruct nl; now rewrite <- ?app_assoc.
Qed.
Lemma concat_pad_chunks cs : forall nl, concat (pad_chunks nl cs) = pad_text nl (concat cs).
Proof.
  induction cs as [|c cs IH]; intros nl; cbn [pad_chunks concat]; [easy|]. rewrite concat_app, IH, pad_text_app. f_equal.
  apply (pieces_split c nl).
Qed.
Lemma prints_padded (f : printer) t : prints f t -> prints (fun W K => padded (f _ (pad K))) (pad_text true t).
Proof.
  intros (cs & <- & H). exists (pad_chunks true cs). split; [apply concat_pad_chunks|]. intros W K w. unfold padded. rewrite H.
  destruct (feed_pad K cs w true) as (nl & ->). now destruct (feed K (pad_chunks true cs) w).
Qed.
Definition inside (t : text) : text := flat_map (fun c => if c =? 10 then line_feed ++ bytes "    " else [c]) t.
Lemma pad_item t : forall nl, pad_text nl (t ++ bytes "," ++ line_feed) = (if nl then four else []) ++ inside t ++ bytes "," ++ line_feed.
Proof.
  induction t as [|c t IH]; intros nl; [now destruct nl|]. cbn [app pad_text inside flat_map]. fold (inside t). rewrite IH.
  destruct (c =? 10) eqn:E; [apply N.eqb_eq in E; subst c|]; destruct nl; rewrite <- ?app_assoc; reflexivity.
Qed.
Lemma pad_item_indent t : pad_text true (t ++ bytes "," ++ line_feed) = indent t ++ bytes "," ++ line_feed.
Proof. rewrite pad_item. unfold indent. fold (inside t). now rewrite <- !app_assoc. Qed.

(** ** The builders *)
Fixpoint numbers_fit (d : debug_tree) : Prop :=
  match d with
  | DNum n => n < 2 ^ 64
  | DUnit _ => True
  | DNode _ items => fold_right (fun x Q => numbers_fit (snd x) /\ Q) True items
  end.
(** tuples and structs have fields *)
Definition kind_ok (k : debug_kind) (items : list (list N * debug_tree)) : bool :=
  match k, items with DTuple _, [] | DStruct _, [] => false | _, _ => true end.
Fixpoint has_fields (d : debug_tree) : bool :=
  match d with DNode k items => kind_ok k items && forallb (fun x => has_fields (snd x)) items | _ => true end.
Definition labelled (k : debug_kind) (x : text * text) : text :=
  match k with DStruct _ => fst x ++ bytes ": " ++ snd x | _ => snd x end.
Lemma prints_label k (name : list N) (f : printer) t : prints f t -> prints (fun W K => label K k name ?; f W K) (labelled k (name, t)).
Proof.
  intros H. unfold labelled, label. destruct k; cbn [fst snd].
  - apply (prints_seq (fun W K => wok) f [] t); [apply prints_ok|easy].
  - eapply prints_eq; [apply (prints_seq (fun W K => wstr K name ?; wstr K (bytes ": ")) f (name ++ bytes ": ") t); [|easy]|now rewrite <- app_assoc].
    apply prints_seq; apply prints_str.
  - apply (prints_seq (fun W K => wok) f [] t); [apply prints_ok|easy].
Qed.
Lemma prints_wopt s : prints (fun W K => wopt K s) s.
Proof. unfold wopt. destruct s; [apply prints_ok|apply prints_str]. Qed.
Lemma prints_if (c : bool) (f g : printer) a b : prints f a -> prints g b -> prints (fun W K => if c then f W K else g W K) (if c then a else b).
Proof. now destruct c. Qed.
Definition rest_text (b : bool) (k : debug_kind) (its : list (text * text)) : text :=
  (if b then item_lines (map (labelled k) its) else flat_map (fun x => bytes ", " ++ labelled k x) its) ++ closing k b.
Lemma prints_rest b k items : Forall (fun x => prints (fmt_debug b (snd x)) (tree_text b (snd x))) items ->
  prints (fun W K => fmt_fields (fmt_debug b) b k K false items) (rest_text b k (map (fun x => (fst x, tree_text b (snd x))) items)).
Proof.
  intros F. induction F as [|[name x] items H F IH].
  - unfold rest_text. cbn [map item_lines flat_map fmt_fields]. eapply prints_eq; [apply prints_str|]. now destruct b.
  - cbn [fst snd] in H. cbn [map fst snd]. destruct b.
    + eapply prints_eq.
      * refine (prints_seq (fun W K => wok ?; padded ((label (pad K) k name ?; fmt_debug true x _ (pad K) ?; wstr (pad K) (bytes "," ++ [10])))) _ _ _ _ IH).
        refine (prints_seq (fun W K => wok) _ [] _ prints_ok _).
        apply (prints_padded (fun W K => label K k name ?; fmt_debug true x W K ?; wstr K (bytes "," ++ [10]))).
        apply (prints_label k name). apply prints_seq; [exact H|apply prints_str].
      * unfold rest_text. cbn [map item_lines flat_map]. cbn [app]. rewrite <- app_assoc. f_equal.
        rewrite <- pad_item_indent. f_equal. unfold labelled. destruct k; cbn [fst snd]; now rewrite <- ?app_assoc.
    + eapply prints_eq.
      * refine (prints_seq (fun W K => wstr K (bytes ", ") ?; label K k name ?; fmt_debug false x W K) _ _ _ _ IH).
        apply (prints_seq (fun W K => wstr K (bytes ", "))); [apply prints_str|]. apply prints_label. exact H.
      * unfold rest_text. cbn [map flat_map]. now rewrite <- !app_assoc.
Qed.
Lemma commas_cons t ts : commas (t :: ts) = t ++ flat_map (fun x => bytes ", " ++ x) ts.
Proof.
  revert t. induction ts as [|u ts IH]; intros t; [cbn; now rewrite app_nil_r|].
  change (commas (t :: u :: ts)) with (t ++ bytes ", " ++ commas (u :: ts)). rewrite IH. cbn [flat_map]. now rewrite <- app_assoc.
Qed.
Lemma flat_map_map {A B C} (f : A -> B) (g : B -> list C) l : flat_map g (map f l) = flat_map (fun x => g (f x)) l.
Proof. induction l as [|a l IH]; [easy|]. cbn. now rewrite IH. Qed.
Lemma node_text_cons b k x its : node_text b k (x :: its) =
  heading k ++ opening k b ++ (if b then indent (labelled k x) ++ bytes "," ++ line_feed else labelled k x) ++ rest_text b k its.
Proof.
  unfold node_text, rest_text, tuple_text, struct_text, list_text, item_lines. destruct k as [n|n|]; cbn [map heading opening closing].
  - assert (L : map (labelled (DTuple n)) its = map snd its) by (apply map_ext; easy). rewrite L. destruct b.
    + cbn [flat_map]. unfold labelled. f_equal. rewrite <- !app_assoc. reflexivity.
    + rewrite commas_cons, flat_map_map. unfold labelled. f_equal. now rewrite <- !app_assoc.
  - destruct b.
    + cbn [flat_map]. unfold labelled. f_equal. rewrite <- !app_assoc. reflexivity.
    + rewrite commas_cons, flat_map_map. unfold labelled. f_equal. now rewrite <- !app_assoc.
  - assert (L : map (labelled DList) its = map snd its) by (apply map_ext; easy). rewrite L. destruct b.
    + cbn [flat_map]. unfold labelled. rewrite <- !app_assoc. reflexivity.
    + rewrite commas_cons, flat_map_map. unfold labelled. now rewrite <- !app_assoc.
Qed.
Lemma fit_forall items : fold_right (fun (x : list N * debug_tree) Q => numbers_fit (snd x) /\ Q) True items -> Forall (fun x => numbers_fit (snd x)) items.
Proof. induction items as [|x items IH]; cbn; [constructor|]. intros [A B]. constructor; auto. Qed.
Lemma prints_debug b d : numbers_fit d -> has_fields d = true -> prints (fmt_debug b d) (tree_text b d).
Proof.
  induction d as [n|w|k items IH] using tree_ind2; intros N H.
  - cbn [numbers_fit] in N. cbn [tree_text]. eapply prints_eq.
    + apply (prints_seq (fun W K => if b then wstr K [] else wok) (fun W K => wstr K (num_text n)) []); [|apply prints_str].
      destruct b; [apply prints_str|apply prints_ok].
    + now rewrite num_text_ok.
  - apply prints_str.
  - cbn [numbers_fit has_fields] in N, H. apply fit_forall in N. apply andb_prop in H as [KO HF]. rewrite forallb_forall in HF.
    assert (F : Forall (fun x => prints (fmt_debug b (snd x)) (tree_text b (snd x))) items).
    { rewrite Forall_forall in *. intros x I. apply IH; auto. }
    clear IH N HF. destruct F as [|[name x] items Hx F].
    + destruct k; try discriminate. cbn [map tree_text node_text list_text].
      apply (prints_eq _ (bytes "[" ++ closing DList b)); [|reflexivity].
      apply (prints_seq (fun W K => wstr K (bytes "["))); apply prints_str.
    + cbn [tree_text map fst snd]. rewrite node_text_cons. cbn [snd] in Hx.
      apply (prints_seq (fun W K => wstr K (heading k))); [apply prints_str|]. clear KO.
      pose proof (prints_rest b k items F) as R. cbn [fmt_fields]. rewrite app_assoc.
      refine (prints_seq _ _ _ _ _ R). destruct b.
      * apply (prints_seq (fun W K => wstr K (opening k true))); [apply prints_str|].
        eapply prints_eq;
          [apply (prints_padded (fun W K => label K k name ?; fmt_debug true x W K ?; wstr K (bytes "," ++ [10])));
           apply (prints_label k name); apply prints_seq; [exact Hx|apply prints_str]|].
        rewrite <- pad_item_indent. f_equal. unfold labelled. destruct k; cbn [fst snd]; now rewrite <- ?app_assoc.
      * apply (prints_seq (fun W K => wopt K (opening k false))); [apply prints_wopt|]. now apply prints_label.
Qed.
