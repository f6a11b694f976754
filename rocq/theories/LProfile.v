(** The same computation in two builds: with more checks it panics or does the same. *)
From Verif Require Export LBitboard SpecProfile SpecApi MColor MPieceKind MPiece MSquare MMove MHand MBitboard MResolution MPosition MLegality MCArena MCThreads.

Lemma sop_same {A} (r : res A) : same_or_panic r r.
Proof. now right. Qed.
Lemma sop_bind {A B} (m n : res A) (f g : A -> res B) :
  same_or_panic m n -> (forall x, same_or_panic (f x) (g x)) -> same_or_panic (bind m f) (bind n g).
Proof. intros [->| ->] H; [now left|]. destruct n; cbn [bind]; [apply H|now left|now right]. Qed.
Lemma sop_wseq {W} (e e' k k' : writer W) w :
  same_or_panic (e w) (e' w) -> (forall w', same_or_panic (k w') (k' w')) -> same_or_panic (wseq e k w) (wseq e' k' w).
Proof. intros E H. unfold wseq. destruct E as [->| ->]; [now left|]. destruct (e' w) as [[w' []]| |]; [apply H|now right|now left|now right]. Qed.
Lemma sop_wbind {A W} (m n : res A) (f g : A -> writer W) w :
  same_or_panic m n -> (forall x, same_or_panic (f x w) (g x w)) -> same_or_panic (wbind m f w) (wbind n g w).
Proof. intros E H. unfold wbind. now apply sop_bind. Qed.
Lemma sop_pbind {A B} (m n : pm A) (f g : A -> pm B) s :
  same_or_panic (m s) (n s) -> (forall x s', same_or_panic (f x s') (g x s')) -> same_or_panic (pbind m f s) (pbind n g s).
Proof. intros E H. unfold pbind. apply sop_bind; auto. intros [s' [a|]]; [apply H|now right]. Qed.
Lemma sop_for_each {A S} (l : list A) (f g : A -> S -> res S) s :
  (forall x s, same_or_panic (f x s) (g x s)) -> same_or_panic (for_each l f s) (for_each l g s).
Proof. intros H. revert s. induction l as [|x l I]; intros s; cbn [for_each]; [now right|]. apply sop_bind; auto. Qed.
Lemma sop_map_res {A B} (l : list A) (f g : A -> res B) :
  (forall x, same_or_panic (f x) (g x)) -> same_or_panic (map_res f l) (map_res g l).
Proof. intros H. induction l as [|x l I]; cbn [map_res]; [now right|]. apply sop_bind; auto. intros y. apply sop_bind; auto. intros; now right. Qed.

Section Builds.
Context (P Q : profile) (C : checks_more P Q).

Lemma sop_checked {A} (b : bool) (r s : res A) : same_or_panic (if b then r else if overflow_checks P then Panic else s) (if b then r else if overflow_checks Q then Panic else s).
Proof. destruct C as [C1 _]. destruct b; [now right|]. destruct (overflow_checks P), (overflow_checks Q); try (now left); try (now right). discriminate (C1 eq_refl). Qed.
Lemma sop_add w a b : same_or_panic (add_w P w a b) (add_w Q w a b).
Proof. apply sop_checked. Qed.
Lemma sop_sub w a b : same_or_panic (sub_w P w a b) (sub_w Q w a b).
Proof. apply sop_checked. Qed.
Lemma sop_mul w a b : same_or_panic (mul_w P w a b) (mul_w Q w a b).
Proof. apply sop_checked. Qed.
Lemma sop_shl w a b : same_or_panic (shl_w P w a b) (shl_w Q w a b).
Proof. apply sop_checked. Qed.
Lemma sop_shr w a b : same_or_panic (shr_w P w a b) (shr_w Q w a b).
Proof. apply sop_checked. Qed.
Lemma sop_i8_mul a b : same_or_panic (i8_mul P a b) (i8_mul Q a b).
Proof. apply sop_checked. Qed.
Lemma sop_i8_add a b : same_or_panic (i8_add P a b) (i8_add Q a b).
Proof. apply sop_checked. Qed.
Lemma sop_assert b : same_or_panic (debug_assert P b) (debug_assert Q b).
Proof.
  destruct C as [_ C2]. unfold debug_assert. destruct b; [destruct (debug_assertions P), (debug_assertions Q); now right|].
  destruct (debug_assertions P), (debug_assertions Q); try (now left); try (now right). discriminate (C2 eq_refl).
Qed.
(** a check that only some builds make *)
Lemma sop_only (r : res unit) (s : res unit) : (r = Ret tt \/ r = Panic) -> same_or_panic r s ->
  same_or_panic (if debug_assertions P then r else Ret tt) (if debug_assertions Q then s else Ret tt).
Proof.
  destruct C as [_ C2]. intros H K. destruct (debug_assertions P), (debug_assertions Q); auto; try (now right).
  - destruct H as [->| ->]; [now right|now left].
  - discriminate (C2 eq_refl).
Qed.

Ltac head_of t := match t with ?f _ => head_of f | _ => t end.
Create HintDb sop discriminated.
#[local] Hint Constants Opaque : sop.
#[local] Hint Resolve sop_add sop_sub sop_mul sop_shl sop_shr sop_i8_mul sop_i8_add sop_assert : sop.
Ltac sop_step :=
  lazymatch goal with
  | |- same_or_panic ?r _ =>
    lazymatch r with
    | context [P] =>
      first
      [ solve [auto 1 with sop nocore]
      | lazymatch goal with
        | |- same_or_panic (bind _ _) (bind _ _) => apply sop_bind; [|intros ?]
        | |- same_or_panic (wseq _ _ _) _ => apply sop_wseq; [|intros ?]
        | |- same_or_panic (wbind _ _ _) _ => apply sop_wbind; [|intros ?]
        | |- same_or_panic (pbind _ _ _) _ => apply sop_pbind; [|intros ? ?]
        | |- same_or_panic (plift _ _) _ => unfold plift
        | |- same_or_panic (pread _ _) _ => unfold pread
        | |- same_or_panic (pupd _ _) _ => unfold pupd
        | |- same_or_panic (for_each _ _ _) _ => apply sop_for_each; intros ? ?
        | |- same_or_panic (map_res _ _) _ => apply sop_map_res; intros ?
        | |- same_or_panic (match ?x with _ => _ end) _ =>
            lazymatch x with context [P] => fail | _ => destruct x end
        | |- same_or_panic ((match ?x with _ => _ end) _) _ =>
            lazymatch x with context [P] => fail | _ => destruct x end
        end ]
    | _ => apply sop_same
    end
  end; cbv beta iota zeta.
Ltac sop_head := lazymatch goal with |- same_or_panic ?l _ => let h := head_of l in unfold h end; cbv beta iota zeta.
Ltac sop := intros; sop_head; repeat sop_step.
Lemma sop_color_array_index c : same_or_panic (color_array_index P c) (color_array_index Q c).
Proof. sop. Qed.
#[local] Hint Resolve sop_color_array_index : sop.
Lemma sop_write_digit {W} (K : sink W) v w : same_or_panic (write_digit P K v w) (write_digit Q K v w).
Proof. sop. Qed.
#[local] Hint Resolve sop_write_digit : sop.
Lemma sop_write_u8 {W} (K : sink W) v w : same_or_panic (write_u8 P K v w) (write_u8 Q K v w).
Proof. sop. Qed.
#[local] Hint Resolve sop_write_u8 : sop.
Lemma sop_write_u16_loop {W} (K : sink W) bs : forall d v w, same_or_panic (write_u16_loop P K bs d v w) (write_u16_loop Q K bs d v w).
Proof. induction bs as [|b bs I]; intros d v w; cbn [write_u16_loop]; repeat sop_step; apply I. Qed.
#[local] Hint Resolve sop_write_u16_loop : sop.
Lemma sop_write_u16 {W} (K : sink W) v w : same_or_panic (write_u16 P K v w) (write_u16 Q K v w).
Proof. sop. Qed.
#[local] Hint Resolve sop_write_u16 : sop.
Lemma sop_pk_array_index k : same_or_panic (pk_array_index P k) (pk_array_index Q k).
Proof. sop. Qed.
#[local] Hint Resolve sop_pk_array_index : sop.
Lemma sop_pk_to_usi {W} (K : sink W) k w : same_or_panic (pk_to_usi P K k w) (pk_to_usi Q K k w).
Proof. sop. Qed.
#[local] Hint Resolve sop_pk_to_usi : sop.
Lemma sop_piece_new k c : same_or_panic (piece_new P k c) (piece_new Q k c).
Proof. sop. Qed.
#[local] Hint Resolve sop_piece_new : sop.
Lemma sop_piece_promote p : same_or_panic (piece_promote P p) (piece_promote Q p).
Proof. sop. Qed.
#[local] Hint Resolve sop_piece_promote : sop.
Lemma sop_piece_unpromote p : same_or_panic (piece_unpromote P p) (piece_unpromote Q p).
Proof. sop. Qed.
#[local] Hint Resolve sop_piece_unpromote : sop.
Lemma sop_piece_array_index p : same_or_panic (piece_array_index P p) (piece_array_index Q p).
Proof. sop. Qed.
#[local] Hint Resolve sop_piece_array_index : sop.
Lemma sop_piece_all  : same_or_panic (piece_all P ) (piece_all Q ).
Proof. sop. Qed.
#[local] Hint Resolve sop_piece_all : sop.
Lemma sop_Piece_new k c : same_or_panic (Piece_new P k c) (Piece_new Q k c).
Proof. sop. Qed.
#[local] Hint Resolve sop_Piece_new : sop.
Lemma sop_Piece_promote p : same_or_panic (Piece_promote P p) (Piece_promote Q p).
Proof. sop. Qed.
#[local] Hint Resolve sop_Piece_promote : sop.
Lemma sop_Piece_unpromote p : same_or_panic (Piece_unpromote P p) (Piece_unpromote Q p).
Proof. sop. Qed.
#[local] Hint Resolve sop_Piece_unpromote : sop.
Lemma sop_piece_to_usi {W} (K : sink W) p w : same_or_panic (piece_to_usi P K p w) (piece_to_usi Q K p w).
Proof. sop. Qed.
#[local] Hint Resolve sop_piece_to_usi : sop.
Lemma sop_sanity_check s : same_or_panic (sanity_check P s) (sanity_check Q s).
Proof. sop. Qed.
#[local] Hint Resolve sop_sanity_check : sop.
Lemma sop_sq_index_expr file rank : same_or_panic (sq_index_expr P file rank) (sq_index_expr Q file rank).
Proof. sop. Qed.
#[local] Hint Resolve sop_sq_index_expr : sop.
Lemma sop_sq_new file rank : same_or_panic (sq_new P file rank) (sq_new Q file rank).
Proof. sop. Qed.
#[local] Hint Resolve sop_sq_new : sop.
Lemma sop_Square_new file rank : same_or_panic (Square_new P file rank) (Square_new Q file rank).
Proof. sop. Qed.
#[local] Hint Resolve sop_Square_new : sop.
Lemma sop_sq_new_relative file rank c : same_or_panic (sq_new_relative P file rank c) (sq_new_relative Q file rank c).
Proof. sop. Qed.
#[local] Hint Resolve sop_sq_new_relative : sop.
Lemma sop_Square_new_relative file rank c : same_or_panic (Square_new_relative P file rank c) (Square_new_relative Q file rank c).
Proof. sop. Qed.
#[local] Hint Resolve sop_Square_new_relative : sop.
Lemma sop_sq_file s : same_or_panic (sq_file P s) (sq_file Q s).
Proof. sop. Qed.
#[local] Hint Resolve sop_sq_file : sop.
Lemma sop_sq_rank s : same_or_panic (sq_rank P s) (sq_rank Q s).
Proof. sop. Qed.
#[local] Hint Resolve sop_sq_rank : sop.
Lemma sop_sq_index s : same_or_panic (sq_index P s) (sq_index Q s).
Proof. sop. Qed.
#[local] Hint Resolve sop_sq_index : sop.
Lemma sop_sq_relative_rank s c : same_or_panic (sq_relative_rank P s c) (sq_relative_rank Q s c).
Proof. sop. Qed.
#[local] Hint Resolve sop_sq_relative_rank : sop.
Lemma sop_sq_relative_file s c : same_or_panic (sq_relative_file P s c) (sq_relative_file Q s c).
Proof. sop. Qed.
#[local] Hint Resolve sop_sq_relative_file : sop.
Lemma sop_sq_flip s : same_or_panic (sq_flip P s) (sq_flip Q s).
Proof. sop. Qed.
#[local] Hint Resolve sop_sq_flip : sop.
Lemma sop_sq_shift s file_delta rank_delta : same_or_panic (sq_shift P s file_delta rank_delta) (sq_shift Q s file_delta rank_delta).
Proof. sop. Qed.
#[local] Hint Resolve sop_sq_shift : sop.
Lemma sop_sq_array_index s : same_or_panic (sq_array_index P s) (sq_array_index Q s).
Proof. sop. Qed.
#[local] Hint Resolve sop_sq_array_index : sop.
Lemma sop_sq_to_usi {W} (K : sink W) s w : same_or_panic (sq_to_usi P K s w) (sq_to_usi Q K s w).
Proof. sop. Qed.
#[local] Hint Resolve sop_sq_to_usi : sop.
Lemma sop_cm_normal_value from to promote : same_or_panic (cm_normal_value P from to promote) (cm_normal_value Q from to promote).
Proof. sop. Qed.
#[local] Hint Resolve sop_cm_normal_value : sop.
Lemma sop_cm_drop_value p to : same_or_panic (cm_drop_value P p to) (cm_drop_value Q p to).
Proof. sop. Qed.
#[local] Hint Resolve sop_cm_drop_value : sop.
Lemma sop_cm_of_move m : same_or_panic (cm_of_move P m) (cm_of_move Q m).
Proof. sop. Qed.
#[local] Hint Resolve sop_cm_of_move : sop.
Lemma sop_cm_normal from to promote : same_or_panic (cm_normal P from to promote) (cm_normal Q from to promote).
Proof. sop. Qed.
#[local] Hint Resolve sop_cm_normal : sop.
Lemma sop_cm_drop p to : same_or_panic (cm_drop P p to) (cm_drop Q p to).
Proof. sop. Qed.
#[local] Hint Resolve sop_cm_drop : sop.
Lemma sop_cm_from m : same_or_panic (cm_from P m) (cm_from Q m).
Proof. sop. Qed.
#[local] Hint Resolve sop_cm_from : sop.
Lemma sop_CompactMove_from m : same_or_panic (CompactMove_from P m) (CompactMove_from Q m).
Proof. sop. Qed.
#[local] Hint Resolve sop_CompactMove_from : sop.
Lemma sop_move_of_cm m : same_or_panic (move_of_cm P m) (move_of_cm Q m).
Proof. sop. Qed.
#[local] Hint Resolve sop_move_of_cm : sop.
Lemma sop_move_to_usi {W} (K : sink W) m w : same_or_panic (move_to_usi P K m w) (move_to_usi Q K m w).
Proof. sop. Qed.
#[local] Hint Resolve sop_move_to_usi : sop.
Lemma sop_cm_to_usi {W} (K : sink W) m w : same_or_panic (cm_to_usi P K m w) (cm_to_usi Q K m w).
Proof. sop. Qed.
#[local] Hint Resolve sop_cm_to_usi : sop.
Lemma sop_hand_slot k : same_or_panic (hand_slot P k) (hand_slot Q k).
Proof. sop. Qed.
#[local] Hint Resolve sop_hand_slot : sop.
Lemma sop_hand_added h k : same_or_panic (hand_added P h k) (hand_added Q h k).
Proof. sop. Qed.
#[local] Hint Resolve sop_hand_added : sop.
Lemma sop_hand_removed h k : same_or_panic (hand_removed P h k) (hand_removed Q h k).
Proof. sop. Qed.
#[local] Hint Resolve sop_hand_removed : sop.
Lemma sop_hand_count h k : same_or_panic (hand_count P h k) (hand_count Q h k).
Proof. sop. Qed.
#[local] Hint Resolve sop_hand_count : sop.
Lemma sop_Hand_add h k : same_or_panic (Hand_add P h k) (Hand_add Q h k).
Proof. sop. Qed.
#[local] Hint Resolve sop_Hand_add : sop.
Lemma sop_Hand_remove h k : same_or_panic (Hand_remove P h k) (Hand_remove Q h k).
Proof. sop. Qed.
#[local] Hint Resolve sop_Hand_remove : sop.
Lemma sop_Hand_count h k : same_or_panic (Hand_count P h k) (Hand_count Q h k).
Proof. sop. Qed.
#[local] Hint Resolve sop_Hand_count : sop.
Lemma sop_hand_usi_loop {W} (K : sink W) h ls js : forall w, same_or_panic (hand_usi_loop P K h ls js w) (hand_usi_loop Q K h ls js w).
Proof. induction js as [|j js I]; intros w; cbn [hand_usi_loop]; repeat sop_step; apply I. Qed.
#[local] Hint Resolve sop_hand_usi_loop : sop.
Lemma sop_hands_usi_loop {W} (K : sink W) hs ps is : forall w, same_or_panic (hands_usi_loop P K hs ps is w) (hands_usi_loop Q K hs ps is w).
Proof. induction is as [|j js I]; intros w; cbn [hands_usi_loop]; repeat sop_step; apply I. Qed.
#[local] Hint Resolve sop_hands_usi_loop : sop.
Lemma sop_hands_to_usi {W} (K : sink W) hs w : same_or_panic (hands_to_usi P K hs w) (hands_to_usi Q K hs w).
Proof. sop. Qed.
#[local] Hint Resolve sop_hands_to_usi : sop.
Lemma sop_bb_single s : same_or_panic (bb_single P s) (bb_single Q s).
Proof. sop. Qed.
#[local] Hint Resolve sop_bb_single : sop.
Lemma sop_bb_count b : same_or_panic (bb_count P b) (bb_count Q b).
Proof. sop. Qed.
#[local] Hint Resolve sop_bb_count : sop.
Lemma sop_bb_contains b s : same_or_panic (bb_contains P b s) (bb_contains Q b s).
Proof. sop. Qed.
#[local] Hint Resolve sop_bb_contains : sop.
Lemma sop_bb_flip b : same_or_panic (bb_flip P b) (bb_flip Q b).
Proof. sop. Qed.
#[local] Hint Resolve sop_bb_flip : sop.
Lemma sop_bb_to_u128 b : same_or_panic (bb_to_u128 P b) (bb_to_u128 Q b).
Proof. sop. Qed.
#[local] Hint Resolve sop_bb_to_u128 : sop.
Lemma sop_bb_from_u128_unchecked a : same_or_panic (bb_from_u128_unchecked P a) (bb_from_u128_unchecked Q a).
Proof. sop. Qed.
#[local] Hint Resolve sop_bb_from_u128_unchecked : sop.
Lemma contains_checked b sq : valid_square sq -> exists c, bb_contains P b sq = Ret c.
Proof. intros V. rewrite bb_contains_ok by auto. eauto. Qed.
Lemma unchecked_valid v sq : sq_from_u8_unchecked v = Ret sq -> valid_square sq.
Proof.
  unfold sq_from_u8_unchecked, unreachable_if. destruct (in_range 1 81 v) eqn:E; cbn [negb bind]; [|discriminate].
  unfold in_range in E. apply andb_prop in E as [E1 E2]. apply N.leb_le in E1. apply N.leb_le in E2.
  unfold nonzero_new_unchecked. destruct (N.eqb_spec v 0); [discriminate|]. cbn [bind]. intros H. injection H as <-. now split.
Qed.
Lemma sop_bind_ret {A B} (m n : res A) (f g : A -> res B) :
  same_or_panic m n -> (forall x, m = Ret x -> same_or_panic (f x) (g x)) -> same_or_panic (bind m f) (bind n g).
Proof. intros [->| ->] H; [now left|]. destruct n; cbn [bind]; [now apply H|now left|now right]. Qed.
Lemma sop_bb_pop b : same_or_panic (bb_pop P b) (bb_pop Q b).
Proof.
  unfold bb_pop. sop_step; [sop_step|]. destruct (x =? 0); [apply sop_same|]. apply sop_bind_ret; [repeat sop_step|]. intros sq E.
  assert (V : valid_square sq).
  { destruct (trailing_zeros128 x <? 63); [|now apply unchecked_valid in E].
    destruct (add_w P 8 (cast_w 8 (trailing_zeros128 x)) 1) as [v| |]; cbn [bind] in E; try discriminate. now apply unchecked_valid in E. }
  destruct (contains_checked b sq V) as [c H].
  apply sop_bind; [|intros _; repeat sop_step].
  apply sop_only; auto; [|repeat sop_step]. rewrite H. cbn [bind]. unfold debug_assert. destruct (debug_assertions P), c; auto.
Qed.
#[local] Hint Resolve sop_bb_pop : sop.
Lemma sop_Bitboard_pop b : same_or_panic (Bitboard_pop P b) (Bitboard_pop Q b).
Proof. sop. Qed.
#[local] Hint Resolve sop_Bitboard_pop : sop.
Lemma sop_bb_next b : same_or_panic (bb_next P b) (bb_next Q b).
Proof. sop. Qed.
#[local] Hint Resolve sop_bb_next : sop.
Lemma sop_bb_from_file_unchecked file pattern : same_or_panic (bb_from_file_unchecked P file pattern) (bb_from_file_unchecked Q file pattern).
Proof. sop. Qed.
#[local] Hint Resolve sop_bb_from_file_unchecked : sop.
Lemma sop_bb_get_file_unchecked b file : same_or_panic (bb_get_file_unchecked P b file) (bb_get_file_unchecked Q b file).
Proof. sop. Qed.
#[local] Hint Resolve sop_bb_get_file_unchecked : sop.
Lemma sop_bb_or_square b s : same_or_panic (bb_or_square P b s) (bb_or_square Q b s).
Proof. sop. Qed.
#[local] Hint Resolve sop_bb_or_square : sop.
Lemma sop_bb_and_square b s : same_or_panic (bb_and_square P b s) (bb_and_square Q b s).
Proof. sop. Qed.
#[local] Hint Resolve sop_bb_and_square : sop.
Lemma sop_bb_xor_square b s : same_or_panic (bb_xor_square P b s) (bb_xor_square Q b s).
Proof. sop. Qed.
#[local] Hint Resolve sop_bb_xor_square : sop.
Lemma sop_bs_to_u128 b : same_or_panic (bs_to_u128 P b) (bs_to_u128 Q b).
Proof. sop. Qed.
#[local] Hint Resolve sop_bs_to_u128 : sop.
Lemma sop_bs_from_u128_unchecked a : same_or_panic (bs_from_u128_unchecked P a) (bs_from_u128_unchecked Q a).
Proof. sop. Qed.
#[local] Hint Resolve sop_bs_from_u128_unchecked : sop.
Lemma sop_bb_shift_down b delta : same_or_panic (bb_shift_down P b delta) (bb_shift_down Q b delta).
Proof. sop. Qed.
#[local] Hint Resolve sop_bb_shift_down : sop.
Lemma sop_bb_shift_up b delta : same_or_panic (bb_shift_up P b delta) (bb_shift_up Q b delta).
Proof. sop. Qed.
#[local] Hint Resolve sop_bb_shift_up : sop.
Lemma sop_bb_shift_left b delta : same_or_panic (bb_shift_left P b delta) (bb_shift_left Q b delta).
Proof. sop. Qed.
#[local] Hint Resolve sop_bb_shift_left : sop.
Lemma sop_bb_shift_right b delta : same_or_panic (bb_shift_right P b delta) (bb_shift_right Q b delta).
Proof. sop. Qed.
#[local] Hint Resolve sop_bb_shift_right : sop.
Lemma sop_bb_collect n : forall b, same_or_panic (bb_collect P n b) (bb_collect Q n b).
Proof. induction n as [|n I]; intros b; cbn [bb_collect]; repeat sop_step. Qed.
#[local] Hint Resolve sop_bb_collect : sop.
Lemma sop_piece_const n : same_or_panic (piece_const P n) (piece_const Q n).
Proof. sop. Qed.
#[local] Hint Resolve sop_piece_const : sop.
Lemma sop_STARTPOS_BLACK_BB  : same_or_panic (STARTPOS_BLACK_BB P ) (STARTPOS_BLACK_BB Q ).
Proof. sop. Qed.
#[local] Hint Resolve sop_STARTPOS_BLACK_BB : sop.
Lemma sop_STARTPOS_WHITE_BB  : same_or_panic (STARTPOS_WHITE_BB P ) (STARTPOS_WHITE_BB Q ).
Proof. sop. Qed.
#[local] Hint Resolve sop_STARTPOS_WHITE_BB : sop.
Lemma sop_startpos_board  : same_or_panic (startpos_board P ) (startpos_board Q ).
Proof. sop. Qed.
#[local] Hint Resolve sop_startpos_board : sop.
Lemma sop_startpos_piece_bb board : same_or_panic (startpos_piece_bb P board) (startpos_piece_bb Q board).
Proof. sop. Qed.
#[local] Hint Resolve sop_startpos_piece_bb : sop.
Lemma sop_pp_startpos  : same_or_panic (pp_startpos P ) (pp_startpos Q ).
Proof. sop. Qed.
#[local] Hint Resolve sop_pp_startpos : sop.
Lemma sop_hand_index c : same_or_panic (hand_index P c) (hand_index Q c).
Proof. sop. Qed.
#[local] Hint Resolve sop_hand_index : sop.
Lemma sop_hand_of_a_player s c : same_or_panic (hand_of_a_player P s c) (hand_of_a_player Q s c).
Proof. sop. Qed.
#[local] Hint Resolve sop_hand_of_a_player : sop.
Lemma sop_hand_of_a_player_store s c h : same_or_panic (hand_of_a_player_store P s c h) (hand_of_a_player_store Q s c h).
Proof. sop. Qed.
#[local] Hint Resolve sop_hand_of_a_player_store : sop.
Lemma sop_pp_hand s p : same_or_panic (pp_hand P s p) (pp_hand Q s p).
Proof. sop. Qed.
#[local] Hint Resolve sop_pp_hand : sop.
Lemma sop_PartialPosition_piece_at s sq : same_or_panic (PartialPosition_piece_at P s sq) (PartialPosition_piece_at Q s sq).
Proof. sop. Qed.
#[local] Hint Resolve sop_PartialPosition_piece_at : sop.
Lemma sop_piece_at s sq : same_or_panic (piece_at P s sq) (piece_at Q s sq).
Proof. sop. Qed.
#[local] Hint Resolve sop_piece_at : sop.
Lemma sop_piece_set s sq p : same_or_panic (piece_set P s sq p) (piece_set Q s sq p).
Proof. sop. Qed.
#[local] Hint Resolve sop_piece_set : sop.
Lemma sop_player_bitboard s c : same_or_panic (player_bitboard P s c) (player_bitboard Q s c).
Proof. sop. Qed.
#[local] Hint Resolve sop_player_bitboard : sop.
Lemma sop_piece_bitboard s p : same_or_panic (piece_bitboard P s p) (piece_bitboard Q s p).
Proof. sop. Qed.
#[local] Hint Resolve sop_piece_bitboard : sop.
Lemma sop_piece_kind_bitboard s k : same_or_panic (piece_kind_bitboard P s k) (piece_kind_bitboard Q s k).
Proof. sop. Qed.
#[local] Hint Resolve sop_piece_kind_bitboard : sop.
Lemma sop_last_move s : same_or_panic (last_move P s) (last_move Q s).
Proof. sop. Qed.
#[local] Hint Resolve sop_last_move : sop.
Lemma sop_king_position s c : same_or_panic (king_position P s c) (king_position Q s c).
Proof. sop. Qed.
#[local] Hint Resolve sop_king_position : sop.
Lemma sop_make_move mv s : same_or_panic (make_move P mv s) (make_move Q mv s).
Proof. sop. Qed.
#[local] Hint Resolve sop_make_move : sop.
Lemma sop_make_compact_move s cm : same_or_panic (make_compact_move P s cm) (make_compact_move Q s cm).
Proof. sop. Qed.
#[local] Hint Resolve sop_make_compact_move : sop.
Lemma sop_sfen_row_loop {W} (K : sink W) board i js : forall v w, same_or_panic (sfen_row_loop P K board i js v w) (sfen_row_loop Q K board i js v w).
Proof. induction js as [|j js I]; intros v w; cbn [sfen_row_loop]; repeat sop_step; apply I. Qed.
#[local] Hint Resolve sop_sfen_row_loop : sop.
Lemma sop_sfen_rows {W} (K : sink W) board is : forall w, same_or_panic (sfen_rows P K board is w) (sfen_rows Q K board is w).
Proof. induction is as [|i is I]; intros w; cbn [sfen_rows]; repeat sop_step; apply I. Qed.
#[local] Hint Resolve sop_sfen_rows : sop.
Lemma sop_to_sfen {W} (K : sink W) s w : same_or_panic (to_sfen P K s w) (to_sfen Q K s w).
Proof. sop. Qed.
#[local] Hint Resolve sop_to_sfen : sop.
Lemma sop_to_usi_owned (f g : writer (list N)) : (forall w, same_or_panic (f w) (g w)) -> same_or_panic (to_usi_owned P f) (to_usi_owned Q g).
Proof. intros H. unfold to_usi_owned. sop_step; [apply H|]. repeat sop_step. Qed.
Lemma sop_to_sfen_owned s : same_or_panic (to_sfen_owned P s) (to_sfen_owned Q s).
Proof. sop. Qed.
#[local] Hint Resolve sop_to_sfen_owned : sop.
Lemma sop_to_sfen_c s ptr : same_or_panic (to_sfen_c P s ptr) (to_sfen_c Q s ptr).
Proof. sop. Qed.
#[local] Hint Resolve sop_to_sfen_c : sop.
Lemma sop_pos_startpos  : same_or_panic (pos_startpos P ) (pos_startpos Q ).
Proof. sop. Qed.
#[local] Hint Resolve sop_pos_startpos : sop.
Lemma sop_pos_default  : same_or_panic (pos_default P ) (pos_default Q ).
Proof. sop. Qed.
#[local] Hint Resolve sop_pos_default : sop.
Lemma sop_pos_hand_of_a_player p c : same_or_panic (pos_hand_of_a_player P p c) (pos_hand_of_a_player Q p c).
Proof. sop. Qed.
#[local] Hint Resolve sop_pos_hand_of_a_player : sop.
Lemma sop_pos_hand p x : same_or_panic (pos_hand P p x) (pos_hand Q p x).
Proof. sop. Qed.
#[local] Hint Resolve sop_pos_hand : sop.
Lemma sop_pos_piece_at p sq : same_or_panic (pos_piece_at P p sq) (pos_piece_at Q p sq).
Proof. sop. Qed.
#[local] Hint Resolve sop_pos_piece_at : sop.
Lemma sop_pos_player_bitboard p c : same_or_panic (pos_player_bitboard P p c) (pos_player_bitboard Q p c).
Proof. sop. Qed.
#[local] Hint Resolve sop_pos_player_bitboard : sop.
Lemma sop_pos_piece_bitboard p x : same_or_panic (pos_piece_bitboard P p x) (pos_piece_bitboard Q p x).
Proof. sop. Qed.
#[local] Hint Resolve sop_pos_piece_bitboard : sop.
Lemma sop_pos_last_move p : same_or_panic (pos_last_move P p) (pos_last_move Q p).
Proof. sop. Qed.
#[local] Hint Resolve sop_pos_last_move : sop.
Lemma sop_pos_to_sfen_owned p : same_or_panic (pos_to_sfen_owned P p) (pos_to_sfen_owned Q p).
Proof. sop. Qed.
#[local] Hint Resolve sop_pos_to_sfen_owned : sop.
Lemma sop_pos_to_sfen_c p ptr : same_or_panic (pos_to_sfen_c P p ptr) (pos_to_sfen_c Q p ptr).
Proof. sop. Qed.
#[local] Hint Resolve sop_pos_to_sfen_c : sop.
Lemma sop_pos_piece_set p sq x : same_or_panic (pos_piece_set P p sq x) (pos_piece_set Q p sq x).
Proof. sop. Qed.
#[local] Hint Resolve sop_pos_piece_set : sop.
Lemma sop_pos_hand_store p c h : same_or_panic (pos_hand_store P p c h) (pos_hand_store Q p c h).
Proof. sop. Qed.
#[local] Hint Resolve sop_pos_hand_store : sop.
Lemma sop_pos_make_move p mv : same_or_panic (pos_make_move P p mv) (pos_make_move Q p mv).
Proof. sop. Qed.
#[local] Hint Resolve sop_pos_make_move : sop.
Lemma sop_pos_make_compact_move p cm : same_or_panic (pos_make_compact_move P p cm) (pos_make_compact_move Q p cm).
Proof. sop. Qed.
#[local] Hint Resolve sop_pos_make_compact_move : sop.
Lemma sop_game_default  : same_or_panic (game_default P ) (game_default Q ).
Proof. sop. Qed.
#[local] Hint Resolve sop_game_default : sop.
Lemma sop_partial_game_default  : same_or_panic (partial_game_default P ) (partial_game_default Q ).
Proof. sop. Qed.
#[local] Hint Resolve sop_partial_game_default : sop.

Ltac sop_row := intros args; cbv beta iota delta [a_ret den a_fun fn0 fn1 fn2 fn3 un1 un2]; first [apply sop_to_usi_owned; intros w|idtac]; repeat sop_step.
Lemma sop_api : Forall (fun a => forall args, same_or_panic (a_fun a P args) (a_fun a Q args)) the_api.
Proof.
  unfold the_api. rewrite !Forall_app. repeat split;
  [unfold api_color|unfold api_piece_kind|unfold api_piece|unfold api_square|unfold api_mv|unfold api_hand|unfold api_bitboard
  |unfold api_game_resolution|unfold api_partial_position|unfold api_full_position|unfold api_game];
  repeat (apply Forall_cons; [sop_row|]); apply Forall_nil.
Qed.

Lemma sop_lc_make_move L p mv : same_or_panic (lc_make_move P L p mv) (lc_make_move Q L p mv).
Proof. sop. Qed.
#[local] Hint Resolve sop_lc_make_move : sop.

(** ** C *)
Lemma sop_i32_sub a b : same_or_panic (i32_sub P a b) (i32_sub Q a b).
Proof. apply sop_checked. Qed.
#[local] Hint Resolve sop_i32_sub : sop.
Lemma sop_memcmp_loop m s1 s2 is : same_or_panic (memcmp_loop P m s1 s2 is) (memcmp_loop Q m s1 s2 is).
Proof. induction is as [|i is I]; cbn [memcmp_loop]; [now right|]. repeat sop_step. Qed.
#[local] Hint Resolve sop_memcmp_loop : sop.
Lemma sop_memcmp m s1 s2 n : same_or_panic (memcmp P m s1 s2 n) (memcmp Q m s1 s2 n).
Proof. sop. Qed.
#[local] Hint Resolve sop_memcmp : sop.
Lemma sop_align_mask U l : same_or_panic (align_mask P U l) (align_mask Q U l).
Proof. sop. Qed.
#[local] Hint Resolve sop_align_mask : sop.
Lemma sop_alloc_closure U l mask r : same_or_panic (alloc_closure P U l mask r) (alloc_closure Q U l mask r).
Proof. sop. Qed.
#[local] Hint Resolve sop_alloc_closure : sop.
Lemma sop_alloc_step U s c : same_or_panic (alloc_step P U s c) (alloc_step Q U s c).
Proof. sop. Qed.
#[local] Hint Resolve sop_alloc_step : sop.
Lemma sop_alloc_run U cs : forall s, same_or_panic (alloc_run P U s cs) (alloc_run Q U s cs).
Proof. induction cs as [|c cs I]; intros s; cbn [alloc_run]; [now right|]. repeat sop_step. Qed.
#[local] Hint Resolve sop_alloc_run : sop.
Lemma sop_heap_step U s c : same_or_panic (heap_step P U s c) (heap_step Q U s c).
Proof. sop. Qed.
#[local] Hint Resolve sop_heap_step : sop.
Lemma sop_heap_run U cs : forall s, same_or_panic (heap_run P U s cs) (heap_run Q U s cs).
Proof. induction cs as [|c cs I]; intros s; cbn [heap_run]; [now right|]. repeat sop_step. Qed.
#[local] Hint Resolve sop_heap_run : sop.
Lemma sop_pp_query {T} A E (f g : partial_position -> res T) m a : (forall s, same_or_panic (f s) (g s)) ->
  same_or_panic (pp_query A E f m a) (pp_query A E g m a).
Proof. intros H. unfold pp_query. apply sop_bind; [now right|apply H]. Qed.
Lemma sop_pos_query {T} A E B (f g : position -> res T) w p : (forall s, same_or_panic (f s) (g s)) ->
  same_or_panic (pos_query A E B f w p) (pos_query A E B g w p).
Proof.
  intros H. unfold pos_query. apply sop_bind; [now right|]. intros [i [a ms]]. apply sop_bind; [now right|]. intros s0. apply sop_bind; [now right|]. intros s. apply H.
Qed.
Ltac sop_c := repeat (sop_step || lazymatch goal with
  | |- same_or_panic (pp_query _ _ _ _ _) _ => apply sop_pp_query; intros ?
  | |- same_or_panic (pos_query _ _ _ _ _ _) _ => apply sop_pos_query; intros ?
  end; cbv beta iota zeta).
Lemma sop_PartialPosition_startpos A E pad m buf : same_or_panic (PartialPosition_startpos P A E pad m buf) (PartialPosition_startpos Q A E pad m buf).
Proof. sop. Qed.
#[local] Hint Resolve sop_PartialPosition_startpos : sop.
Lemma sop_PartialPosition_make_compact_move A E pad m self mv : same_or_panic (PartialPosition_make_compact_move P A E pad m self mv) (PartialPosition_make_compact_move Q A E pad m self mv).
Proof. sop. Qed.
#[local] Hint Resolve sop_PartialPosition_make_compact_move : sop.
Lemma sop_PartialPosition_to_sfen_c A E m self ptr : same_or_panic (PartialPosition_to_sfen_c P A E m self ptr) (PartialPosition_to_sfen_c Q A E m self ptr).
Proof. sop. Qed.
#[local] Hint Resolve sop_PartialPosition_to_sfen_c : sop.
Lemma sop_c_bitboard q s : same_or_panic (c_bitboard P q s) (c_bitboard Q q s).
Proof. sop. Qed.
#[local] Hint Resolve sop_c_bitboard : sop.
Lemma sop_c_step A E env pad o m : same_or_panic (c_step P A E env pad o m) (c_step Q A E env pad o m).
Proof. unfold c_step. sop_c. Qed.
#[local] Hint Resolve sop_c_step : sop.
Lemma sop_c_run A E env pads os : forall k m, same_or_panic (c_run P A E env pads k os m) (c_run Q A E env pads k os m).
Proof. induction os as [|o os I]; intros k m; cbn [c_run]; [now right|]. sop_c. Qed.
Lemma sop_Position_startpos A E B al pad w : same_or_panic (Position_startpos P A E B al pad w) (Position_startpos Q A E B al pad w).
Proof. sop. Qed.
#[local] Hint Resolve sop_Position_startpos : sop.
Lemma sop_Position_make_compact_move A E B pad w p mv : same_or_panic (Position_make_compact_move P A E B pad w p mv) (Position_make_compact_move Q A E B pad w p mv).
Proof. sop. Qed.
#[local] Hint Resolve sop_Position_make_compact_move : sop.
Lemma sop_Position_to_sfen_c A E B w p ptr : same_or_panic (Position_to_sfen_c P A E B w p ptr) (Position_to_sfen_c Q A E B w p ptr).
Proof. unfold Position_to_sfen_c. sop_c. Qed.
#[local] Hint Resolve sop_Position_to_sfen_c : sop.
Lemma sop_pos_ask q p : same_or_panic (pos_ask P q p) (pos_ask Q q p).
Proof. sop. Qed.
#[local] Hint Resolve sop_pos_ask : sop.
Lemma sop_h_step A E B env al pad o w : same_or_panic (h_step P A E B env al pad o w) (h_step Q A E B env al pad o w).
Proof. unfold h_step. sop_c. Qed.
#[local] Hint Resolve sop_h_step : sop.
Lemma sop_h_run A E B env als pads os : forall k w, same_or_panic (h_run P A E B env als pads k os w) (h_run Q A E B env als pads k os w).
Proof. induction os as [|o os I]; intros k w; cbn [h_run]; [now right|]. sop_c. Qed.
Lemma sop_c_main A E B al pads pos buf lit1 lit2 w : same_or_panic (c_main P A E B al pads pos buf lit1 lit2 w) (c_main Q A E B al pads pos buf lit1 lit2 w).
Proof. unfold c_main. sop_c. Qed.
#[local] Hint Resolve sop_c_main : sop.
Lemma sop_alloc_alone U r l : same_or_panic (alloc_alone P U r l) (alloc_alone Q U r l).
Proof. sop. Qed.
#[local] Hint Resolve sop_alloc_alone : sop.
Lemma sop_vec_grown U b junk m r ptr cap : same_or_panic (vec_grown P U b junk m r ptr cap) (vec_grown Q U b junk m r ptr cap).
Proof. sop. Qed.
#[local] Hint Resolve sop_vec_grown : sop.
Lemma sop_vec_push U b junk m r v len mv : same_or_panic (vec_push P U b junk m r v len mv) (vec_push Q U b junk m r v len mv).
Proof. sop. Qed.
#[local] Hint Resolve sop_vec_push : sop.
Lemma sop_n_step U A E b env pad o nw : same_or_panic (n_step P U A E b env pad o nw) (n_step Q U A E b env pad o nw).
Proof. sop. Qed.
#[local] Hint Resolve sop_n_step : sop.
Lemma sop_n_run U A E b env pads os : forall k nw, same_or_panic (n_run P U A E b env pads k os nw) (n_run Q U A E b env pads k os nw).
Proof. induction os as [|o os I]; intros k nw; cbn [n_run]; [now right|]. sop_c. Qed.
Lemma sop_pure m r s : same_or_panic r s -> same_or_panic (pure m r) (pure m s).
Proof. intros H. unfold pure. apply sop_bind; [exact H|]. intros v. now right. Qed.
Lemma sop_hand_call f g p k m : (forall h k, same_or_panic (f h k) (g h k)) -> same_or_panic (hand_call f p k m) (hand_call g p k m).
Proof.
  intros H. unfold hand_call. apply sop_bind; [now right|]. intros a. apply sop_bind; [now right|]. intros x. apply sop_bind; [now right|]. intros h.
  apply sop_bind; [apply H|]. intros [h' []]; now right.
Qed.
Lemma sop_c_call A E f args m : same_or_panic (c_call P A E f args m) (c_call Q A E f args m).
Proof.
  destruct f, args as [|a [|b [|c [|d args]]]]; cbv beta iota delta [c_call];
  lazymatch goal with |- same_or_panic (pure _ _) _ => apply sop_pure | |- same_or_panic (hand_call _ _ _ _) _ => apply sop_hand_call; intros ? ? | _ => idtac end; sop_c.
Qed.
#[local] Hint Resolve sop_c_call : sop.
Lemma sop_v_step A E env o w : same_or_panic (v_step P A E env o w) (v_step Q A E env o w).
Proof. sop. Qed.
#[local] Hint Resolve sop_v_step : sop.
Lemma sop_v_run A E env os w : same_or_panic (v_run P A E env os w) (v_run Q A E env os w).
Proof. sop. Qed.
#[local] Hint Resolve sop_v_run : sop.
Lemma sop_pp_ask q s : same_or_panic (pp_ask P q s) (pp_ask Q q s).
Proof. sop. Qed.
#[local] Hint Resolve sop_pp_ask : sop.
Lemma sop_p_step A E B env al pad c w : same_or_panic (p_step P A E B env al pad c w) (p_step Q A E B env al pad c w).
Proof. unfold p_step. cbv zeta. destruct c; sop_c. Qed.
#[local] Hint Resolve sop_p_step : sop.
Lemma sop_exec A E B env als pads fuel : forall s w, same_or_panic (exec P A E B env als pads fuel s w) (exec Q A E B env als pads fuel s w).
Proof.
  induction fuel as [|n I]; intros s w; cbn [exec]; [now right|]. destruct s; sop_c.
Qed.
Lemma sop_t_step A E B env als pads code w : same_or_panic (t_step P A E B env als pads code w) (t_step Q A E B env als pads code w).
Proof. unfold t_step. sop_c. Qed.
#[local] Hint Resolve sop_t_step : sop.
Lemma sop_sys_step A E B envs als pads i sys : same_or_panic (sys_step P A E B envs als pads i sys) (sys_step Q A E B envs als pads i sys).
Proof. unfold sys_step. sop_c. Qed.
#[local] Hint Resolve sop_sys_step : sop.
Lemma sop_sys_run A E B envs als pads sched : forall sys, same_or_panic (sys_run P A E B envs als pads sched sys) (sys_run Q A E B envs als pads sched sys).
Proof. induction sched as [|i l I]; intros sys; cbn [sys_run]; [now right|]. sop_c. Qed.
End Builds.
