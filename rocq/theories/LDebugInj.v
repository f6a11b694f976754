(** The text of a tree determines the tree; the two formats differ in blanks and trailing commas only. *)
From Verif Require Export LDebug.
Local Open Scope list_scope.

Definition wchar (c : N) : bool := is_digit c || ((65 <=? c) && (c <=? 90)) || ((97 <=? c) && (c <=? 122)) || (c =? 95).
Definition word (w : text) : bool := match w with [] => false | c :: _ => negb (is_digit c) && forallb wchar w end.
Definition kname (k : debug_kind) : text := match k with DTuple n | DStruct n => n | DList => [] end.
Definition kopen (k : debug_kind) : N := match k with DTuple _ => 40 | DStruct _ => 123 | DList => 91 end.
Definition kclose (k : debug_kind) : N := match k with DTuple _ => 41 | DStruct _ => 125 | DList => 93 end.
Definition kname_ok (k : debug_kind) : bool := match k with DTuple n | DStruct n => word n | DList => true end.
Definition label_ok (k : debug_kind) (l : text) : bool := match k with DStruct _ => word l | _ => match l with [] => true | _ => false end end.
Fixpoint good (d : debug_tree) : bool :=
  match d with
  | DNum _ => true
  | DUnit w => word w
  | DNode k items => kname_ok k && kind_ok k items && forallb (fun x => label_ok k (fst x) && good (snd x)) items
  end.
Lemma good_fields d : good d = true -> has_fields d = true.
Proof.
  induction d as [n|w|k items IH] using tree_ind2; intros G; [easy|easy|]. cbn [good has_fields] in *.
  apply andb_prop in G as [G F]. apply andb_prop in G as [_ ->]. cbn [andb]. apply forallb_forall. intros x I.
  rewrite Forall_forall in IH. rewrite forallb_forall in F. specialize (F x I). apply andb_prop in F as [_ F]. auto.
Qed.

Definition titem (k : debug_kind) (x : text * text) : text := match k with DStruct _ => fst x ++ [58] ++ snd x | _ => snd x end.
Definition tmore (tr : bool) (k : debug_kind) (its : list (text * text)) : text :=
  flat_map (fun x => if tr then titem k x ++ [44] else 44 :: titem k x) its.
Definition tbody (tr : bool) (k : debug_kind) (its : list (text * text)) : text :=
  if tr then tmore true k its else match its with [] => [] | x :: rest => titem k x ++ tmore false k rest end.
Fixpoint tight (tr : bool) (d : debug_tree) : text :=
  match d with
  | DNum n => decimal n
  | DUnit w => w
  | DNode k items => kname k ++ kopen k :: tbody tr k (map (fun x => (fst x, tight tr (snd x))) items) ++ [kclose k]
  end.

(** ** Without blanks *)
Definition solid (t : text) : text := filter (fun c => negb (blank c)) t.
Lemma solid_app a b : solid (a ++ b) = solid a ++ solid b.
Proof. apply filter_app. Qed.
Lemma wchar_solid c : wchar c = true -> blank c = false.
Proof.
  unfold wchar, blank, is_digit. intros H. apply orb_false_intro; apply N.eqb_neq; intros ->; discriminate H.
Qed.
Lemma solid_words w : forallb wchar w = true -> solid w = w.
Proof.
  unfold solid. induction w as [|c w IH]; [easy|]. cbn [forallb filter]. intros H. apply andb_prop in H as [H H'].
  rewrite wchar_solid by easy. cbn [negb]. now rewrite IH.
Qed.
Lemma word_chars w : word w = true -> forallb wchar w = true.
Proof. destruct w as [|c w]; [easy|]. unfold word. intros H. now apply andb_prop in H as [_ H]. Qed.
Lemma decimal_chars n : forallb wchar (decimal n) = true.
Proof.
  apply forallb_forall. destruct (decimal_canonical n) as (_ & F & _). rewrite Forall_forall in F. intros c I. unfold wchar. now rewrite F.
Qed.
Lemma solid_inside t : solid (inside t) = solid t.
Proof.
  induction t as [|c t IH]; [easy|]. cbn [inside flat_map]. fold (inside t). rewrite solid_app, IH.
  destruct (c =? 10) eqn:E; [|cbn [solid filter]; now destruct (negb (blank c))]. apply N.eqb_eq in E. now subst c.
Qed.
Lemma solid_indent t : solid (indent t) = solid t.
Proof. unfold indent. rewrite solid_app. fold (inside t). now rewrite solid_inside. Qed.
Lemma solid_labelled k x : label_ok k (fst x) = true -> solid (labelled k x) = titem k (fst x, solid (snd x)).
Proof.
  unfold labelled, titem, label_ok. destruct k; intros L; cbn [fst snd]; try easy. rewrite !solid_app.
  now rewrite (solid_words (fst x)) by now apply word_chars.
Qed.
Lemma solid_rest b k its : Forall (fun x => label_ok k (fst x) = true) its ->
  solid (rest_text b k its) = tmore b k (map (fun x => (fst x, solid (snd x))) its) ++ [kclose k].
Proof.
  intros F. unfold rest_text. rewrite solid_app. f_equal; [|destruct k; now destruct b].
  unfold tmore, item_lines. destruct b; rewrite ?flat_map_map; induction F as [|x its H F IH]; cbn [flat_map map]; try easy;
    rewrite !solid_app, ?solid_indent, IH, solid_labelled by easy; reflexivity.
Qed.
Lemma solid_head b k : kname_ok k = true -> solid (heading k ++ opening k b) = kname k ++ [kopen k].
Proof.
  destruct k as [n|n|]; cbn [kname_ok heading kname kopen opening]; intros H; rewrite solid_app.
  - rewrite (solid_words n) by now apply word_chars. now destruct b.
  - rewrite (solid_words n) by now apply word_chars. now destruct b.
  - now destruct b.
Qed.
Lemma solid_node b k its : kname_ok k = true -> Forall (fun x => label_ok k (fst x) = true) its ->
  (match k, its with DTuple _, [] | DStruct _, [] => false | _, _ => true end = true) ->
  solid (node_text b k its) = kname k ++ kopen k :: tbody b k (map (fun x => (fst x, solid (snd x))) its) ++ [kclose k].
Proof.
  intros N F H. destruct its as [|x its].
  - destruct k; try discriminate. now destruct b.
  - rewrite node_text_cons. inversion_clear F. rewrite app_assoc, solid_app, solid_head by easy. rewrite <- app_assoc. f_equal.
    cbn [app]. f_equal. rewrite solid_app, solid_rest by easy. rewrite app_assoc. f_equal. unfold tbody. destruct b; cbn [map tmore flat_map].
    + fold (tmore true k (map (fun x => (fst x, solid (snd x))) its)). rewrite solid_app, solid_indent, solid_labelled by easy. reflexivity.
    + fold (tmore false k (map (fun x => (fst x, solid (snd x))) its)). now rewrite solid_labelled.
Qed.
Lemma solid_tree b d : good d = true -> solid (tree_text b d) = tight b d.
Proof.
  induction d as [n|w|k items IH] using tree_ind2; intros G.
  - apply solid_words, decimal_chars.
  - cbn [good] in G. now apply solid_words, word_chars.
  - cbn [good] in G. apply andb_prop in G as [G F]. apply andb_prop in G as [N H]. rewrite forallb_forall in F. rewrite Forall_forall in IH.
    cbn [tree_text tight]. rewrite solid_node; [|easy| |].
    + rewrite map_map. cbn [fst snd]. f_equal. f_equal. f_equal. f_equal. apply map_ext_in. intros x I. f_equal. apply IH; [easy|].
      specialize (F x I). now apply andb_prop in F.
    + apply Forall_map. apply Forall_forall. intros x I. cbn [fst]. specialize (F x I). now apply andb_prop in F.
    + destruct k; destruct items; easy.
Qed.

(** ** Reading back *)
Definition starts (r : text) (p : N -> bool) : Prop := match r with [] => True | c :: _ => p c = true end.
Definition stops (r : text) : Prop := starts r (fun c => (c =? 44) || closes c).
Lemma span_inj (a : text) : forall b r s, forallb wchar a = true -> forallb wchar b = true ->
  starts r (fun c => negb (wchar c)) -> starts s (fun c => negb (wchar c)) -> a ++ r = b ++ s -> a = b /\ r = s.
Proof.
  induction a as [|c a IH]; intros [|d b] r s A B R S E; cbn [app] in E.
  - easy.
  - subst r. cbn in R, B. apply andb_prop in B as [B _]. now rewrite B in R.
  - subst s. cbn in S, A. apply andb_prop in A as [A _]. now rewrite A in S.
  - injection E as -> E. cbn in A, B. apply andb_prop in A as [_ A]. apply andb_prop in B as [_ B].
    destruct (IH b r s A B R S E) as [-> ->]. easy.
Qed.
Definition front (d : debug_tree) : text := match d with DNum n => decimal n | DUnit w => w | DNode k _ => kname k end.
Definition back (tr : bool) (d : debug_tree) (r : text) : text :=
  match d with
  | DNode k items => kopen k :: tbody tr k (map (fun x => (fst x, tight tr (snd x))) items) ++ kclose k :: r
  | _ => r
  end.
Lemma tight_parts tr d r : tight tr d ++ r = front d ++ back tr d r.
Proof. destruct d as [n|w|k items]; try easy. cbn [tight front back]. rewrite <- app_assoc. cbn [app]. now rewrite <- app_assoc. Qed.
Lemma front_chars d : good d = true -> forallb wchar (front d) = true.
Proof.
  destruct d as [n|w|k items]; cbn [good front]; intros G; [apply decimal_chars|now apply word_chars|].
  apply andb_prop in G as [G _]. apply andb_prop in G as [G _]. destruct k; cbn [kname kname_ok] in *; [now apply word_chars..|easy].
Qed.
Lemma stops_starts r : stops r -> starts r (fun c => negb (wchar c)).
Proof.
  destruct r as [|c r]; [easy|]. cbn. unfold closes. intros H.
  repeat (apply orb_prop in H as [H|H]); apply N.eqb_eq in H; now subst c.
Qed.
Lemma back_starts tr d r : stops r -> starts (back tr d r) (fun c => negb (wchar c)).
Proof. destruct d as [n|w|k items]; [apply stops_starts..|]. intros _. now destruct k. Qed.
Lemma open_stops k r : ~ stops (kopen k :: r).
Proof. now destruct k. Qed.
Lemma decimal_inj n m : decimal n = decimal m -> n = m.
Proof. intros E. rewrite <- (decimal_value n), <- (decimal_value m). now rewrite E. Qed.
Lemma decimal_front n : exists c r, decimal n = c :: r /\ is_digit c = true.
Proof.
  destruct (decimal_canonical n) as (NE & F & _). destruct (decimal n) as [|c r]; [easy|]. inversion_clear F. now exists c, r.
Qed.
Lemma word_front w : word w = true -> exists c r, w = c :: r /\ is_digit c = false.
Proof. destruct w as [|c w]; [easy|]. cbn. intros H. apply andb_prop in H as [H _]. exists c, w. split; [easy|]. now destruct (is_digit c). Qed.
Lemma kind_inj k l : kopen k = kopen l -> kname k = kname l -> k = l.
Proof. destruct k, l; cbn; intros; try discriminate; now subst. Qed.
(** the first character of an item neither closes nor separates *)
Lemma tight_starts tr d r : good d = true -> exists c s, tight tr d ++ r = c :: s /\ ((c =? 44) || closes c) = false.
Proof.
  intros G. rewrite tight_parts. pose proof (front_chars d G) as F. destruct (front d) as [|c f] eqn:E.
  - destruct d as [n|w|k items]; cbn [front] in E.
    + destruct (decimal_front n) as (c & s & E' & _). now rewrite E in E'.
    + subst w. discriminate.
    + cbn [back app]. eexists _, _. split; [reflexivity|]. now destruct k.
  - cbn [app]. eexists _, _. split; [reflexivity|]. cbn [forallb] in F. apply andb_prop in F as [F _].
    destruct ((c =? 44) || closes c) eqn:X; [|easy]. assert (S : stops [c]) by exact X. apply stops_starts in S. cbn in S. now rewrite F in S.
Qed.
Definition tpair (tr : bool) (x : list N * debug_tree) : text * text := (fst x, tight tr (snd x)).
Lemma titem_starts tr k x r : label_ok k (fst x) = true -> good (snd x) = true ->
  exists c s, titem k (tpair tr x) ++ r = c :: s /\ ((c =? 44) || closes c) = false.
Proof.
  intros L G. unfold titem, tpair. cbn [fst snd]. destruct k; [now apply tight_starts| |now apply tight_starts].
  cbn in L. rewrite <- app_assoc. apply (tight_starts tr (DUnit (fst x))). exact L.
Qed.
Lemma titem_inj tr k x y r s :
  (forall d r s, good d = true -> stops r -> stops s -> tight tr (snd x) ++ r = tight tr d ++ s -> snd x = d /\ r = s) ->
  label_ok k (fst x) = true -> label_ok k (fst y) = true -> good (snd y) = true -> stops r -> stops s ->
  titem k (tpair tr x) ++ r = titem k (tpair tr y) ++ s -> x = y /\ r = s.
Proof.
  intros I LX LY G R S E. destruct x as [lx dx], y as [ly dy]. unfold titem, tpair in *. cbn [fst snd] in *. destruct k; cbn [label_ok] in *.
  - destruct lx, ly; try easy. destruct (I dy r s G R S E) as [-> ->]. easy.
  - rewrite <- !app_assoc in E. apply span_inj in E; [|now apply word_chars|now apply word_chars|easy|easy]. destruct E as [-> E].
    injection E as E. destruct (I dy r s G R S E) as [-> ->]. easy.
  - destruct lx, ly; try easy. destruct (I dy r s G R S E) as [-> ->]. easy.
Qed.
Definition item_good (k : debug_kind) (x : list N * debug_tree) : Prop := label_ok k (fst x) = true /\ good (snd x) = true.
Definition reads (tr : bool) (d1 : debug_tree) : Prop :=
  forall d r s, good d = true -> stops r -> stops s -> tight tr d1 ++ r = tight tr d ++ s -> d1 = d /\ r = s.
Lemma close_stops k r : stops (kclose k :: r).
Proof. now destruct k. Qed.
Lemma close_not_comma k : kclose k <> 44.
Proof. now destruct k. Qed.
(* items after the first in the plain format: each begins with a comma *)
Lemma tmore_stops k its r : stops (tmore false k its ++ kclose k :: r).
Proof. destruct its; [apply close_stops|easy]. Qed.
Lemma tmore_false_inj k l : Forall (fun x => reads false (snd x)) l -> Forall (item_good k) l -> forall m r s, Forall (item_good k) m ->
  tmore false k (map (tpair false) l) ++ kclose k :: r = tmore false k (map (tpair false) m) ++ kclose k :: s -> l = m /\ r = s.
Proof.
  intros I G. induction I as [|x l Ix I IH]; intros [|y m] r s M E; cbn [map tmore flat_map app] in E.
  - now injection E as ->.
  - injection E as E _. now apply close_not_comma in E.
  - injection E as E _. symmetry in E. now apply close_not_comma in E.
  - injection E as E. inversion_clear G as [|? ? [LX GX] G']. inversion_clear M as [|? ? [LY GY] M'].
    fold (tmore false k (map (tpair false) l)) in E. fold (tmore false k (map (tpair false) m)) in E. rewrite <- !app_assoc in E.
    apply titem_inj in E; try easy; try apply tmore_stops. destruct E as [-> E]. destruct (IH G' m r s M' E) as [-> ->]. easy.
Qed.
Lemma tmore_true_inj k l : Forall (fun x => reads true (snd x)) l -> Forall (item_good k) l -> forall m r s, Forall (item_good k) m ->
  tmore true k (map (tpair true) l) ++ kclose k :: r = tmore true k (map (tpair true) m) ++ kclose k :: s -> l = m /\ r = s.
Proof.
  intros I G. assert (X : forall x t u, item_good k x -> kclose k :: t = (titem k (tpair true x) ++ [44]) ++ u -> False).
  { intros x t u [L H] E. rewrite <- app_assoc in E. destruct (titem_starts true k x ([44] ++ u) L H) as (c & v & E' & N).
    pose proof (eq_trans E E') as E2. injection E2 as <- _. now destruct k. }
  induction I as [|x l Ix I IH]; intros [|y m] r s M E; cbn [map tmore flat_map app] in E.
  - now injection E as ->.
  - inversion_clear M. rewrite <- app_assoc in E. exfalso. eapply X; eassumption.
  - inversion_clear G. rewrite <- app_assoc in E. symmetry in E. exfalso. eapply X; eassumption.
  - inversion_clear G as [|? ? [LX GX] G']. inversion_clear M as [|? ? [LY GY] M'].
    fold (tmore true k (map (tpair true) l)) in E. fold (tmore true k (map (tpair true) m)) in E. rewrite <- !app_assoc in E.
    apply titem_inj in E; try easy. destruct E as [-> E]. injection E as E. destruct (IH G' m r s M' E) as [-> ->]. easy.
Qed.
Lemma tbody_inj tr k l m r s : Forall (fun x => reads tr (snd x)) l -> Forall (item_good k) l -> Forall (item_good k) m ->
  tbody tr k (map (tpair tr) l) ++ kclose k :: r = tbody tr k (map (tpair tr) m) ++ kclose k :: s -> l = m /\ r = s.
Proof.
  intros I G M E. destruct tr; cbn [tbody] in E; [eapply tmore_true_inj; eassumption|].
  assert (X : forall x t u, item_good k x -> kclose k :: t = titem k (tpair false x) ++ u -> False).
  { intros x t u [L H] E'. destruct (titem_starts false k x u L H) as (c & v & E2 & N). pose proof (eq_trans E' E2) as E3.
    injection E3 as <- _. now destruct k. }
  destruct I as [|x l Ix I], m as [|y m]; cbn [map] in E.
  - now injection E as ->.
  - inversion_clear M. rewrite <- app_assoc in E. exfalso. eapply X; eassumption.
  - inversion_clear G. rewrite <- app_assoc in E. symmetry in E. exfalso. eapply X; eassumption.
  - inversion_clear G as [|? ? [LX GX] G']. inversion_clear M as [|? ? [LY GY] M']. rewrite <- !app_assoc in E.
    apply titem_inj in E; try easy; try apply tmore_stops. destruct E as [-> E].
    destruct (tmore_false_inj k l I G' m r s M' E) as [-> ->]. easy.
Qed.
Lemma good_items k items : forallb (fun x => label_ok k (fst x) && good (snd x)) items = true -> Forall (item_good k) items.
Proof. intros F. rewrite forallb_forall in F. apply Forall_forall. intros x I. specialize (F x I). now apply andb_prop in F. Qed.
Lemma tight_inj tr d : good d = true -> reads tr d.
Proof.
  induction d as [n|w|k items IH] using tree_ind2; intros G e r s H R S E; rewrite !tight_parts in E;
    apply span_inj in E; try apply front_chars; try easy; try (now apply back_starts); destruct E as [E1 E2].
  - destruct e as [m|w|k items]; cbn [front back] in E1, E2.
    + apply decimal_inj in E1. now subst.
    + destruct (decimal_front n) as (c & t & Ec & D). destruct (word_front w H) as (c' & t' & Ec' & D'). congruence.
    + subst r. now apply open_stops in R.
  - destruct e as [m|v|k items]; cbn [front back] in E1, E2.
    + destruct (decimal_front m) as (c & t & Ec & D). destruct (word_front w G) as (c' & t' & Ec' & D'). congruence.
    + now subst.
    + subst r. now apply open_stops in R.
  - destruct e as [m|v|l m]; cbn [front back] in E1, E2.
    + subst s. now apply open_stops in S.
    + subst s. now apply open_stops in S.
    + injection E2 as EO E2. pose proof (kind_inj k l EO E1) as <-. cbn [good] in G, H.
      apply andb_prop in G as [_ G]. apply andb_prop in H as [_ H]. pose proof (good_items k items G) as GI. pose proof (good_items k m H) as GM.
      assert (RI : Forall (fun x => reads tr (snd x)) items).
      { rewrite Forall_forall in *. intros x I. apply IH; [easy|]. apply (GI x I). }
      destruct (tbody_inj tr k items m r s RI GI GM E2) as [-> ->]. easy.
Qed.
Lemma tree_text_inj b d e : good d = true -> good e = true -> tree_text b d = tree_text b e -> d = e.
Proof.
  intros G H E. apply (f_equal solid) in E. rewrite !solid_tree in E by easy.
  apply (tight_inj b d G e [] []); [easy|easy|easy|]. now rewrite E.
Qed.

(** ** The two formats *)
Lemma no_trailing_plain c r : c <> 44 -> no_trailing (c :: r) = c :: no_trailing r.
Proof. intros H. cbn [no_trailing]. destruct r as [|d r]; [easy|]. apply N.eqb_neq in H. now rewrite H. Qed.
Lemma no_trailing_words w r : forallb wchar w = true -> no_trailing (w ++ r) = w ++ no_trailing r.
Proof.
  induction w as [|c w IH]; [easy|]. cbn [forallb app]. intros H. apply andb_prop in H as [C H].
  rewrite no_trailing_plain by (intros ->; discriminate C). now rewrite IH.
Qed.
Lemma no_trailing_close k r : no_trailing (44 :: kclose k :: r) = no_trailing (kclose k :: r).
Proof. now destruct k. Qed.
Lemma no_trailing_comma c r : ((c =? 44) || closes c) = false -> no_trailing (44 :: c :: r) = 44 :: no_trailing (c :: r).
Proof. intros H. apply orb_false_elim in H as [_ H]. cbn [no_trailing]. rewrite H. now destruct r. Qed.
Definition trims (d : debug_tree) : Prop := forall r, no_trailing (tight true d ++ r) = tight false d ++ no_trailing r.
Lemma trims_item k x r : label_ok k (fst x) = true -> trims (snd x) ->
  no_trailing (titem k (tpair true x) ++ r) = titem k (tpair false x) ++ no_trailing r.
Proof.
  intros L T. unfold titem, tpair. destruct k; cbn [fst snd]; [apply T| |apply T]. rewrite <- !app_assoc.
  rewrite no_trailing_words by now apply word_chars. f_equal. cbn [app]. rewrite no_trailing_plain by easy. f_equal. apply T.
Qed.
(* a comma stands before each of [l] and one after the last *)
Lemma trims_more k l : Forall (fun x => trims (snd x)) l -> Forall (item_good k) l -> forall r,
  no_trailing (44 :: tmore true k (map (tpair true) l) ++ kclose k :: r) =
  tmore false k (map (tpair false) l) ++ kclose k :: no_trailing r.
Proof.
  intros T G. induction T as [|x l Tx T IH]; intros r; cbn [map tmore flat_map app].
  - rewrite no_trailing_close, no_trailing_plain by apply close_not_comma. reflexivity.
  - inversion_clear G as [|? ? [L Gx] G']. fold (tmore true k (map (tpair true) l)). fold (tmore false k (map (tpair false) l)).
    rewrite <- !app_assoc.
    destruct (titem_starts true k x ([44] ++ tmore true k (map (tpair true) l) ++ kclose k :: r) L Gx) as (c & v & E & N).
    rewrite E, no_trailing_comma by easy. f_equal. rewrite <- E, trims_item by easy. f_equal. cbn [app]. now apply IH.
Qed.
Lemma trims_good d : good d = true -> trims d.
Proof.
  induction d as [n|w|k items IH] using tree_ind2; intros G r.
  - apply no_trailing_words, decimal_chars.
  - apply no_trailing_words. now apply word_chars.
  - pose proof (front_chars (DNode k items) G) as FC. cbn [good front] in G, FC. apply andb_prop in G as [_ G]. pose proof (good_items k items G) as GI.
    cbn [tight]. rewrite <- !app_assoc, no_trailing_words by easy. f_equal. cbn [app].
    rewrite no_trailing_plain by now destruct k. f_equal. rewrite <- !app_assoc. cbn [app].
    change (map (fun x => (fst x, tight true (snd x))) items) with (map (tpair true) items).
    change (map (fun x => (fst x, tight false (snd x))) items) with (map (tpair false) items).
    assert (T : Forall (fun x => trims (snd x)) items).
    { rewrite Forall_forall in *. intros x I. apply IH; [easy|]. apply (GI x I). }
    clear IH G. destruct T as [|x l Tx T].
    + cbn [map tbody tmore flat_map app]. rewrite no_trailing_plain by apply close_not_comma. reflexivity.
    + inversion_clear GI as [|? ? [L Gx] G']. cbn [map tbody tmore flat_map]. fold (tmore true k (map (tpair true) l)).
      rewrite <- !app_assoc, trims_item by easy. f_equal. cbn [app]. now apply trims_more.
Qed.
Lemma gist_pretty d : good d = true -> gist (tree_text true d) = gist (tree_text false d).
Proof.
  intros G. unfold gist. fold (solid (tree_text true d)). fold (solid (tree_text false d)). rewrite !solid_tree by easy.
  pose proof (trims_good d G []) as T. cbn [no_trailing] in T. rewrite !app_nil_r in T. rewrite T. clear T. symmetry.
  assert (P : forall d r, good d = true -> no_trailing (tight false d ++ r) = tight false d ++ no_trailing r); [|
    specialize (P d [] G); cbn [no_trailing] in P; now rewrite !app_nil_r in P].
  clear d G. intros d. induction d as [n|w|k items IH] using tree_ind2; intros r G.
  - apply no_trailing_words, decimal_chars.
  - apply no_trailing_words. now apply word_chars.
  - pose proof (front_chars (DNode k items) G) as FC. cbn [good front] in G, FC. apply andb_prop in G as [_ G]. pose proof (good_items k items G) as GI.
    cbn [tight]. rewrite <- !app_assoc, no_trailing_words by easy. f_equal. cbn [app].
    rewrite no_trailing_plain by now destruct k. f_equal. rewrite <- !app_assoc. cbn [app].
    change (map (fun x => (fst x, tight false (snd x))) items) with (map (tpair false) items).
    assert (TI : Forall (fun x => forall r, no_trailing (titem k (tpair false x) ++ r) = titem k (tpair false x) ++ no_trailing r) items).
    { rewrite Forall_forall in *. intros x I s. destruct (GI x I) as [L H]. unfold titem, tpair. destruct k; cbn [fst snd]; [now apply IH| |now apply IH].
      rewrite <- !app_assoc. rewrite no_trailing_words by now apply word_chars. f_equal. cbn [app]. rewrite no_trailing_plain by easy. f_equal. now apply IH. }
    assert (TM : forall l, Forall (fun x => forall r, no_trailing (titem k (tpair false x) ++ r) = titem k (tpair false x) ++ no_trailing r) l ->
      Forall (item_good k) l -> no_trailing (tmore false k (map (tpair false) l) ++ kclose k :: r) =
      tmore false k (map (tpair false) l) ++ kclose k :: no_trailing r).
    { intros l T M. induction T as [|x l Tx T IHl]; cbn [map tmore flat_map app].
      - now rewrite no_trailing_plain by apply close_not_comma.
      - inversion_clear M as [|? ? [L Gx] M']. fold (tmore false k (map (tpair false) l)). rewrite <- !app_assoc.
        destruct (titem_starts false k x (tmore false k (map (tpair false) l) ++ kclose k :: r) L Gx) as (c & v & E & N).
        rewrite E, no_trailing_comma by easy. rewrite <- E, Tx. f_equal. f_equal. now apply IHl. }
    destruct items as [|x l]; cbn [map tbody]; [cbn [app]; now rewrite no_trailing_plain by apply close_not_comma|].
    inversion_clear TI as [|? ? Tx TI']. inversion_clear GI as [|? ? [L Gx] G']. rewrite <- !app_assoc, Tx. f_equal. now apply TM.
Qed.
