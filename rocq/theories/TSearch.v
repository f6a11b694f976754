(** Proofs of the property theorems on searching programs (restated in Prop_Search.v). *)
From Coq Require Import Sorting.Permutation.
From Verif Require Export SpecSearch.
From Verif Require Import LBase LSquare LPiece LBits LBitboard LHand LMove LPosition LRefine LAbstract LExt LEdit TBitboard TPosition TLegal TGame TRules TRepeat TContract.
(*PROPHEAD
Property theorems C88: programs that search with the library
From Verif Require Import LPiece LSample LSampleR LSampleS LRefine LSampleX LSampleSearch.
*)
Local Opaque check.

(** C88: the two checkers of the earlier properties go by the rules. *)
Lemma c88_checkers_pf : forall P, by_the_rules P (rules_checker P) /\ by_the_rules P (full_checker P).
Proof.
  intros P. destruct (c75_rules_pf P) as [K1 K2]. split.
  - split; [eexists; exact K1|]. intros s a m R S V. destruct (c72_checker_pf P s a m R S V) as ((r & E & I) & _). unfold says_legal. rewrite E.
    rewrite <- I. split; [intros H; now injection H|now intros ->].
  - split; [eexists; exact K2|]. intros s a m R S V. destruct (c72_checker_pf P s a m R S V) as ((r & E & I) & _). unfold says_legal.
    change (lc_is_legal_partial (full_checker P) s m) with (lc_is_legal_partial (rules_checker P) s m). rewrite E.
    rewrite <- I. split; [intros H; now injection H|now intros ->].
Qed.

(** ** One step *)
Record here (P : profile) (s : partial_position) (a : apos) : Prop := {
  h_reach : reachable P s; h_sees : sees P s a; h_safe : left_safe a; h_few : few_pieces a }.
Lemma opponent_twice c : opponent (opponent c) = c.
Proof. now destruct c. Qed.
Lemma after_side a m : a_side (after a m) = opponent (a_side a).
Proof. now destruct m. Qed.
Lemma after_left_safe a m : legal a m = true -> left_safe (after a m).
Proof.
  unfold legal, safe, left_safe. intros H. destruct (moves_right a m); [|discriminate]. rewrite after_side, opponent_twice.
  destruct (check (a_board (after a m)) (a_side a)); [discriminate|reflexivity].
Qed.
Lemma go_ok P s a m : here P s a -> legal_move a m -> exists t, go P s m = Ret t /\ here P t (after a m).
Proof.
  intros [R S L F] [V G]. pose proof (proj1 (few_iff a) F) as F'.
  destruct (c72_accepted_pf P s a m R S V L (fun k => few_hands a F' (a_side a) k) (legal_right a m G)) as (t & E & S').
  exists t. split; [unfold go; rewrite E; reflexivity|]. split; auto using after_left_safe.
  - destruct (move_cases P s a m R S V) as (s2 & o & E2 & R2 & _). rewrite E in E2. apply ret_inj in E2. injection E2 as <- _. exact R2.
  - apply few_iff. now apply few_after.
Qed.
Lemma generate_ok P L s a : by_the_rules P L -> here P s a ->
  exists l, generate P L s = Ret l /\ NoDup l /\ forall m, In m l <-> legal_move a m.
Proof.
  intros [(ok & K) B] [R S Ls F]. destruct (c75_generate_pf P L ok s K R) as (l & E & N & I). exists l. split; auto. split; auto.
  intros m. rewrite I. unfold legal_move. split; intros [V H]; (split; [exact V|]); [now apply (B s a m R S V) in H|apply (B s a m R S V); auto].
Qed.

(** ** Counting *)
Lemma modulus_pos : 0 < modulus 64.
Proof. unfold modulus. apply N.neq_0_lt_0, N.pow_nonzero. discriminate. Qed.
Lemma sum_add P n k : (m <- sum_u64 P n;; j <- sum_u64 P k;; add_w P 64 m j) = sum_u64 P (n + k).
Proof.
  pose proof modulus_pos as M. unfold sum_u64, add_w. generalize dependent (modulus 64). intros w M.
  assert (W : w <> 0) by lia.
  destruct (N.ltb_spec n w) as [A|A].
  - destruct (N.ltb_spec k w) as [B|B]; cbn [bind]; [reflexivity|].
    assert ((n + k <? w) = false) as -> by (apply N.ltb_ge; lia). destruct (overflow_checks P); cbn [bind]; [reflexivity|].
    destruct (N.ltb_spec (n + k mod w) w) as [Q|Q].
    + rewrite <- (N.add_mod_idemp_r n k w W). now rewrite (N.mod_small _ _ Q).
    + now rewrite (N.add_mod_idemp_r n k w W).
  - assert ((n + k <? w) = false) as -> by (apply N.ltb_ge; lia). destruct (overflow_checks P) eqn:O; cbn [bind]; [reflexivity|].
    destruct (N.ltb_spec k w) as [B|B]; cbn [bind].
    + destruct (N.ltb_spec (n mod w + k) w) as [Q|Q].
      * rewrite <- (N.add_mod_idemp_l n k w W). now rewrite (N.mod_small _ _ Q).
      * now rewrite (N.add_mod_idemp_l n k w W).
    + destruct (N.ltb_spec (n mod w + k mod w) w) as [Q|Q].
      * rewrite (N.add_mod n k w W). now rewrite (N.mod_small _ _ Q).
      * now rewrite <- (N.add_mod n k w W).
Qed.
Lemma sum_add' P n k m : sum_u64 P n = Ret m -> (j <- sum_u64 P k;; add_w P 64 m j) = sum_u64 P (n + k).
Proof. intros E. rewrite <- sum_add, E. reflexivity. Qed.
Lemma sum_panics P n k : sum_u64 P n = Panic -> sum_u64 P (n + k) = Panic.
Proof. intros E. rewrite <- sum_add, E. reflexivity. Qed.
Definition add_up {A} (g : A -> N) (l : list A) : N := fold_right (fun x n => g x + n) 0 l.
Lemma sum_moves_ok {A} P f (g : A -> N) l : (forall x, In x l -> f x = sum_u64 P (g x)) ->
  forall n m, sum_u64 P n = Ret m -> sum_moves P f m l = sum_u64 P (n + add_up g l).
Proof.
  induction l as [|x l IH]; intros H n m E; cbn [sum_moves add_up fold_right].
  - now rewrite N.add_0_r.
  - rewrite (H x) by now left. pose proof (sum_add' P n (g x) m E) as Q. fold (add_up g l). rewrite N.add_assoc.
    destruct (sum_u64 P (g x)) as [k| |] eqn:Ek; cbn [bind] in Q |- *.
    + destruct (add_w P 64 m k) as [j| |] eqn:Ej; cbn [bind].
      * apply IH; [|now symmetry]. intros y Hy. apply H. now right.
      * symmetry. apply sum_panics. now symmetry.
      * unfold sum_u64 in Q. destruct (n + g x <? modulus 64), (overflow_checks P); discriminate.
    + symmetry. apply sum_panics. now symmetry.
    + unfold sum_u64 in Ek. destruct (g x <? modulus 64), (overflow_checks P); discriminate.
Qed.
(** all legal games of [n] moves *)
Definition legal_list (a : apos) : list move := filter (legal a) (candidates (a_side a)).
Fixpoint games (n : nat) (a : apos) : list (list move) :=
  match n with O => [[]] | S n => flat_map (fun m => map (cons m) (games n (after a m))) (legal_list a) end.
Lemma in_legal_list a m : In m (legal_list a) <-> legal_move a m.
Proof.
  unfold legal_list. rewrite filter_In. split.
  - intros [C G]. split; auto. eapply candidates_valid; eauto.
  - intros [V G]. split; auto. apply in_candidates; auto using legal_right.
Qed.
Lemma in_games n : forall a ms, In ms (games n a) <-> Forall valid_move ms /\ length ms = n /\ legal_game a ms = true.
Proof.
  induction n as [|n IH]; intros a ms; cbn [games].
  - split; [intros [<-|[]]; repeat split; auto|]. intros (_ & H & _). destruct ms; [now left|discriminate].
  - rewrite in_flat_map. split.
    + intros (m & M & H). apply in_legal_list in M as [V1 G1]. apply in_map_iff in H as (rest & <- & H). apply IH in H as (V & Ln & G).
      split; [auto|]. split; [simpl; lia|]. cbn [legal_game]. now rewrite G1.
    + intros (V & Ln & G). destruct ms as [|m rest]; [discriminate|]. inversion_clear V as [|? ? V1 V2]. cbn [legal_game] in G.
      destruct (legal a m) eqn:G1; [|discriminate]. exists m. split; [apply in_legal_list; split; auto|]. apply in_map. injection Ln as Ln. apply IH. auto.
Qed.
Lemma NoDup_two {A} (l l' : list A) : NoDup l -> NoDup l' -> (forall x, In x l -> In x l' -> False) -> NoDup (l ++ l').
Proof.
  intros N N' D. induction N as [|x l Nx N IH]; [exact N'|]. cbn [app]. constructor.
  - rewrite in_app_iff. intros [H|H]; [auto|]. apply (D x); auto. now left.
  - apply IH. intros y H. apply D. now right.
Qed.
Lemma games_NoDup n : forall a, NoDup (games n a).
Proof.
  induction n as [|n IH]; intros a; cbn [games]; [repeat constructor; auto|].
  assert (N : NoDup (legal_list a)) by apply NoDup_filter, candidates_NoDup. induction N as [|m l Nm N IHl]; [constructor|]. cbn [flat_map].
  apply NoDup_two; [|exact IHl|].
  - apply FinFun.Injective_map_NoDup; auto. intros x y H. now injection H.
  - intros x H1 H2. apply in_map_iff in H1 as (r & <- & _). apply in_flat_map in H2 as (m' & M & H2). apply in_map_iff in H2 as (r' & E & _).
    injection E as -> _. contradiction.
Qed.
Lemma games_length n a : N.of_nat (length (games (S n) a)) = add_up (fun m => N.of_nat (length (games n (after a m)))) (legal_list a).
Proof.
  cbn [games]. induction (legal_list a) as [|m l IH]; [reflexivity|]. cbn [flat_map add_up fold_right]. rewrite app_length, map_length.
  unfold add_up in IH. lia.
Qed.
Lemma add_up_perm {A} (g : A -> N) l l' : Permutation l l' -> add_up g l = add_up g l'.
Proof. induction 1; unfold add_up in *; cbn [fold_right]; lia. Qed.
Lemma perft_ok P L : by_the_rules P L -> forall n s a, here P s a -> perft P L n s = sum_u64 P (N.of_nat (length (games n a))).
Proof.
  intros B. induction n as [|n IH]; intros s a H.
  - cbn [perft games length]. unfold sum_u64. now destruct P.
  - cbn [perft]. destruct (generate_ok P L s a B H) as (l & -> & N & I). cbn [bind].
    rewrite (sum_moves_ok P _ (fun m => N.of_nat (length (games n (after a m)))) l) with (n := 0).
    + rewrite games_length. f_equal. cbn [N.add]. apply add_up_perm. apply NoDup_Permutation; auto.
      * apply NoDup_filter, candidates_NoDup.
      * intros m. rewrite I, in_legal_list. reflexivity.
    + intros m M. apply I in M. destruct (go_ok P s a m H M) as (t & -> & Ht). cbn [bind]. now apply IH.
    + unfold sum_u64. now destruct P.
Qed.
(** C88: counting the games of [n] moves ("perft") with the library gives their number: from any position that safe calls reach and
    that is regular, in every build, as long as the number fits in 64 bits; if it does not, the sum panics or wraps, as additions do. *)
Lemma c88_perft_pf : forall P L n s a, by_the_rules P L -> reachable P s -> sees P s a -> left_safe a -> few_pieces a ->
  exists games, NoDup games /\ (forall ms, In ms games <-> Forall valid_move ms /\ length ms = n /\ legal_game a ms = true) /\
    perft P L n s = sum_u64 P (N.of_nat (length games)).
Proof.
  intros P L n s a B R S Ls F. exists (games n a). split; [apply games_NoDup|]. split; [apply in_games|]. apply perft_ok; auto. now constructor.
Qed.

(** ** Winning *)
Lemma all_res_ok {A} (f : A -> res bool) (Q : A -> Prop) l :
  (forall x, In x l -> exists b, f x = Ret b /\ (b = true <-> Q x)) -> exists b, all_res f l = Ret b /\ (b = true <-> forall x, In x l -> Q x).
Proof.
  induction l as [|x l IH]; intros H; cbn [all_res].
  - exists true. split; auto. split; auto. intros _ x [].
  - destruct (H x) as (b & -> & Ib); [now left|]. cbn [bind]. destruct b.
    + destruct IH as (c & -> & Ic); [intros y Hy; apply H; now right|]. exists c. split; auto. rewrite Ic. split.
      * intros G y [<-|Hy]; [now apply Ib|auto].
      * intros G y Hy. apply G. now right.
    + exists false. split; auto. split; [discriminate|]. intros G. apply Ib. apply G. now left.
Qed.
Lemma find_res_ok {A} (f : A -> res bool) (Q : A -> Prop) l :
  (forall x, In x l -> exists b, f x = Ret b /\ (b = true <-> Q x)) -> exists o, find_res f l = Ret o /\
    match o with Some x => In x l /\ Q x | None => forall x, In x l -> ~ Q x end.
Proof.
  induction l as [|x l IH]; intros H; cbn [find_res].
  - exists None. split; auto.
  - destruct (H x) as (b & -> & Ib); [now left|]. cbn [bind]. destruct b.
    + exists (Some x). split; auto. split; [now left|now apply Ib].
    + destruct IH as (o & -> & Io); [intros y Hy; apply H; now right|]. exists o. split; auto. destruct o as [y|].
      * destruct Io. split; auto. now right.
      * intros y [<-|Hy] G; [|exact (Io y Hy G)]. apply Ib in G. discriminate.
Qed.
Definition wins_with (n : nat) (a : apos) (m : move) : Prop := forall r, legal_move (after a m) r -> can_win n (after (after a m) r).
Lemma solve_ok P L : by_the_rules P L -> forall n s a, here P s a -> exists o, solve P L n s = Ret o /\
  match o with
  | Some m => legal_move a m /\ wins_with (pred n) a m /\ can_win n a
  | None => ~ can_win n a
  end.
Proof.
  intros B. induction n as [|n IH]; intros s a H; cbn [solve].
  - exists None. split; auto.
  - destruct (generate_ok P L s a B H) as (l & -> & _ & I). cbn [bind].
    match goal with |- exists o, find_res ?f l = _ /\ _ => destruct (find_res_ok f (wins_with n a) l) as (o & E & Io) end.
    + intros m M. apply I in M. destruct (go_ok P s a m H M) as (t & -> & Ht). cbn [bind].
      destruct (generate_ok P L t _ B Ht) as (rs & -> & _ & Ir). cbn [bind].
      match goal with |- exists b, all_res ?f rs = _ /\ _ => destruct (all_res_ok f (fun r => can_win n (after (after a m) r)) rs) as (b & E & Ib) end.
      * intros r Hr. apply Ir in Hr. destruct (go_ok P t _ r Ht Hr) as (u & -> & Hu). cbn [bind]. destruct (IH u _ Hu) as (o & -> & Io). cbn [bind].
        eexists. split; [reflexivity|]. destruct o; [tauto|]. split; [discriminate|]. intros G. destruct (Io G).
      * exists b. split; auto. rewrite Ib. unfold wins_with. split; intros G r Hr; apply G; now apply Ir.
    + exists o. split; auto. destruct o as [m|].
      * destruct Io as [M W]. apply I in M. split; auto. split; auto. exists m. auto.
      * intros (m & M & W). apply (Io m); auto. now apply I.
Qed.
(** C88: the solver is right. From any position that safe calls reach and that is regular, in every build, it answers, neither panics
    nor does anything undefined; it finds a move exactly if the player on turn can win by force in [n] moves, and the move is legal
    and wins whatever the replies are. *)
Lemma c88_solve_pf : forall P L n s a, by_the_rules P L -> reachable P s -> sees P s a -> left_safe a -> few_pieces a ->
  exists o, solve P L n s = Ret o /\ (o <> None <-> can_win n a) /\
    forall m, o = Some m -> legal_move a m /\ forall r, legal_move (after a m) r -> can_win (pred n) (after (after a m) r).
Proof.
  intros P L n s a B R S Ls F. destruct (solve_ok P L B n s a) as (o & E & Io); [now constructor|]. exists o. split; auto. split.
  - destruct o; split; try tauto; discriminate.
  - intros m ->. split; [apply Io|]. destruct Io as (_ & W & _). exact W.
Qed.

(** ** Playing it out *)
Lemma no_reply P s a : here P s a -> no_move a -> rules_status P s = Ret (match a_side a with Black => PSWhiteWins | White => PSBlackWins end).
Proof.
  intros [R S Ls F] N. destruct (c72_status_pf P s a R S) as (st & E & _ & _ & [_ W] & _). rewrite E. f_equal. apply W. split; auto.
  intros m V. destruct (legal a m) eqn:G; auto. destruct (N m). now split.
Qed.
Lemma one_move n : (1 <= 2 * S n - 1)%nat.
Proof. lia. Qed.
Lemma win_one n a : can_win n a -> n <> O.
Proof. destruct n; [intros []|discriminate]. Qed.
Lemma two_more n k : n <> O -> (k <= 2 * n - 1)%nat -> (S (S k) <= 2 * S n - 1)%nat.
Proof. lia. Qed.
Lemma duel_ok P L opp : by_the_rules P L -> (forall s l, l <> [] -> In (opp s l) l) -> forall n s a, here P s a -> can_win n a ->
  exists t ms, duel P L opp n s = Ret (Some t) /\ here P t (after_all a ms) /\ no_move (after_all a ms) /\
    Forall valid_move ms /\ legal_game a ms = true /\ (length ms <= 2 * n - 1)%nat /\ a_side (after_all a ms) = opponent (a_side a) /\
    run_ops P s (map OpMove ms) = Ret (t, repeat true (length ms)).
Proof.
  intros B O. induction n as [|n IH]; intros s a H W; [destruct W|]. cbn [duel].
  destruct (solve_ok P L B (S n) s a H) as (o & -> & Io). cbn [bind]. destruct o as [m|]; [|now destruct (Io W)].
  destruct Io as (M & Wm & _). destruct (go_ok P s a m H M) as (t & Et & Ht). rewrite Et. cbn [bind].
  assert (Em : make_move P m s = Ret (t, Some tt)).
  { unfold go in Et. destruct (make_move P m s) as [[t' [[]|]]| |]; cbn [bind] in Et; try discriminate. injection Et as <-. reflexivity. }
  destruct (generate_ok P L t _ B Ht) as (rs & -> & _ & Ir). cbn [bind]. destruct M as [Vm Gm]. destruct rs as [|r0 rs].
  - exists t, [m]. split; auto. split; auto. split; [intros r Hr; now apply Ir in Hr|]. split; auto. split; [cbn [legal_game]; now rewrite Gm|].
    split; [exact (one_move n)|]. split; [apply after_side|]. cbn [map run_ops run_op length repeat]. rewrite Em. cbn [bind]. reflexivity.
  - set (r := opp t (r0 :: rs)). assert (Hr : legal_move (after a m) r) by (apply Ir, O; discriminate). clearbody r.
    destruct (go_ok P t _ r Ht Hr) as (u & Eu & Hu). rewrite Eu. cbn [bind].
    assert (Er : make_move P r t = Ret (u, Some tt)).
    { unfold go in Eu. destruct (make_move P r t) as [[t' [[]|]]| |]; cbn [bind] in Eu; try discriminate. injection Eu as <-. reflexivity. }
    pose proof (Wm r Hr) as Wn. cbn [pred] in Wn. destruct (IH u _ Hu Wn) as (v & ms & -> & Hv & Nv & Vv & Gv & Lv & Sv & Rv).
    destruct Hr as [Vr Gr]. exists v, (m :: r :: ms). split; auto. split; [exact Hv|]. split; [exact Nv|]. split; [auto|].
    split; [cbn [legal_game]; now rewrite Gm, Gr|]. split; [exact (two_more n _ (win_one n _ Wn) Lv)|].
    split; [rewrite <- (opponent_twice (a_side a)), <- (after_side a m), <- (after_side _ r); exact Sv|].
    cbn [map run_ops run_op length repeat]. rewrite Em. cbn [bind]. rewrite Er. cbn [bind]. rewrite Rv. reflexivity.
Qed.
(** C88: who plays what the solver finds wins against every opponent, in at most [n] moves: the moves played are a legal game that the
    library accepts, and in the last position the status is that the player has won. *)
Lemma c88_duel_pf : forall P L opp n s a, by_the_rules P L -> (forall s l, l <> [] -> In (opp s l) l) ->
  reachable P s -> sees P s a -> left_safe a -> few_pieces a -> can_win n a ->
  exists t ms, duel P L opp n s = Ret (Some t) /\ (length ms <= 2 * n - 1)%nat /\ Forall valid_move ms /\ legal_game a ms = true /\
    run_ops P s (map OpMove ms) = Ret (t, repeat true (length ms)) /\ sees P t (after_all a ms) /\ no_move (after_all a ms) /\
    rules_status P t = Ret (match a_side a with Black => PSBlackWins | White => PSWhiteWins end).
Proof.
  intros P L opp n s a B O R S Ls F W. destruct (duel_ok P L opp B O n s a) as (t & ms & E & H & N & V & G & Ln & Sd & Rn); [now constructor|auto|].
  exists t, ms. split; auto. split; auto. split; auto. split; auto. split; auto. split; [apply H|]. split; auto.
  rewrite (no_reply P t _ H N), Sd. now destruct (a_side a).
Qed.
(** C88: never do both players win: whoever can win by force in some number of moves is not lost, that is, not every move lets the opponent
    win by force. More moves never hurt. *)
Lemma c88_sound_pf :
  (forall n k a, (n <= k)%nat -> can_win n a -> can_win k a) /\
  (forall n k a, can_win n a -> ~ forall m, legal_move a m -> can_win k (after a m)).
Proof.
  split.
  - induction n as [|n IH]; intros k a Q W; [destruct W|]. destruct k as [|k]; [lia|]. destruct W as (m & M & W). exists m. split; auto.
    intros r Hr. apply IH; [lia|auto].
  - induction n as [|n IH]; intros k a W Lost; [exact W|]. destruct W as (m & M & W). pose proof (Lost m M) as X.
    destruct k as [|k]; [exact X|]. destruct X as (r & Hr & X). exact (IH k _ (W r Hr) X).
Qed.
