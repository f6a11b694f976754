(** Model of /repo/shogi_core/src/hand.rs *)
From Verif Require Export Machine MCommon MPieceKind.

(** hand.rs:10-12 [struct Hand([u8; 8])] *)
Record hand := Hand { hand_bytes : list N }.

(** hand.rs:11 derived [Default], hand.rs:24-26 [Hand::new] *)
Definition hand_default : hand := Hand (repeat 0 8).
Definition hand_new : hand := hand_default.

(** [(piece_kind as u8 - 1) as usize] (hand.rs:56,86,96) *)
Definition hand_slot (P : profile) (k : piece_kind) : res N := sub_w P 8 (pk_as_u8 k) 1.

(** hand.rs:55-62 [Hand::added] *)
Definition hand_added (P : profile) (h : hand) (k : piece_kind) : res (option hand) :=
  index <- hand_slot P k;;
  if index <? 7 then
    v <- arr_index (hand_bytes h) index;;
    b <- arr_store (hand_bytes h) index (wrapping_add_w 8 v 1);;
    Ret (Some (Hand b))
  else Ret None.

(** hand.rs:85-92 [Hand::removed] *)
Definition hand_removed (P : profile) (h : hand) (k : piece_kind) : res (option hand) :=
  index <- hand_slot P k;;
  if index <? 7 then
    v <- arr_index (hand_bytes h) index;;
    match checked_sub v 1 with
    | None => Ret None
    | Some v' => b <- arr_store (hand_bytes h) index v';; Ret (Some (Hand b))
    end
  else Ret None.

(** hand.rs:95-101 [Hand::count] *)
Definition hand_count (P : profile) (h : hand) (k : piece_kind) : res (option N) :=
  index <- hand_slot P k;;
  if index <? 7 then (v <- arr_index (hand_bytes h) index;; Ret (Some v)) else Ret None.

(** hand.rs:107-114 [Hand_add]: new value of [*self] and the returned bool *)
Definition Hand_add (P : profile) (h : hand) (k : piece_kind) : res (hand * bool) :=
  r <- hand_added P h k;;
  Ret (match r with Some new => (new, true) | None => (h, false) end).

(** hand.rs:120-127 [Hand_remove] *)
Definition Hand_remove (P : profile) (h : hand) (k : piece_kind) : res (hand * bool) :=
  r <- hand_removed P h k;;
  Ret (match r with Some new => (new, true) | None => (h, false) end).

(** hand.rs:133-135 [Hand_count] *)
Definition Hand_count (P : profile) (h : hand) (k : piece_kind) : res N :=
  r <- hand_count P h k;; Ret (match r with Some n => n | None => 0 end).

(** hand.rs:138-141 [Hand::as_u64]: transmute of the 8 bytes. Modelled on a little-endian target;
    the value is only ever compared for equality, which does not depend on the byte order. *)
Fixpoint le_value (l : list N) : N :=
  match l with [] => 0 | b :: t => b + 256 * le_value t end.
Definition hand_as_u64 (h : hand) : N := le_value (hand_bytes h).

(** hand.rs:191-196 [PartialEq for Hand] *)
Definition hand_eqb (a b : hand) : bool := hand_as_u64 a =? hand_as_u64 b.

(** hand.rs:153-158 [Hand::is_hand_piece] (and the C version, 161-163) *)
Definition is_hand_piece (k : piece_kind) : bool := pk_as_u8 k <? 8.

(** hand.rs:175-178 [Hand::all_hand_pieces]: the items the iterator yields *)
Definition all_hand_pieces : res (list piece_kind) := map_res pk_from_u8_unchecked (range 1 8).

(** hand.rs:188 *)
Definition NUM_HAND_PIECES : N := 7.

Section HandsToUsi.
Context {W : Type} (P : profile) (K : sink W).

(** hand.rs:225-236: body of the inner loop, for the hand [h] and the letters [letters] *)
Fixpoint hand_usi_loop (h : hand) (letters : list N) (js : list N) : writer W :=
  match js with
  | [] => wok
  | j :: rest =>
      wbind (arr_get_unchecked (hand_bytes h) j) (fun count =>
      (if 0 <? count then
         (if 2 <=? count then write_u8 P K count else wok) ?;
         wbind (arr_get_unchecked letters j) (write_ascii_byte K)
       else wok) ?;
      hand_usi_loop h letters rest)
  end.

(** hand.rs:224-237: the outer loop *)
Fixpoint hands_usi_loop (hs : list hand) (pieces : list (list N)) (is : list N) : writer W :=
  match is with
  | [] => wok
  | i :: rest =>
      wbind (arr_index hs i) (fun h =>
      wbind (arr_index pieces i) (fun letters =>
      hand_usi_loop h letters (rev (range 0 7)) ?;
      hands_usi_loop hs pieces rest))
  end.

(** hand.rs:218-240 [ToUsi for [Hand; 2]] *)
Definition hands_to_usi (hs : list hand) : writer W :=
  wbind (arr_index hs 0) (fun h0 =>
  wbind (if hand_eqb h0 hand_new
         then (h1 <- arr_index hs 1;; Ret (hand_eqb h1 hand_new)) else Ret false) (fun empty =>
  if empty then wstr K (bytes "-")
  else hands_usi_loop hs [bytes "PLNSGBR"; bytes "plnsgbr"] (range 0 2))).
End HandsToUsi.
