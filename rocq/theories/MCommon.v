(** Model of /repo/shogi_core/src/common.rs *)
From Verif Require Export Machine.

Section Common.
Context {W : Type} (P : profile) (K : sink W).

(** common.rs:49-57 [write_ascii_byte]. A byte of 128 or more is not valid UTF-8 on its own: UB. *)
Definition write_ascii_byte (b : N) : writer W :=
  if b <? 128 then wstr K [b] else fun _ => UB.

(** [write_ascii_byte(sink, value + b'0')] as it appears in common.rs:6,12,14,20,22,24 *)
Definition write_digit (v : N) : writer W :=
  wbind (add_w P 8 v (byte "0")) write_ascii_byte.

(** common.rs:3-25 [write_u8] *)
Definition write_u8 (value : N) : writer W :=
  if value <=? 9 then write_digit value
  else if value <=? 99 then
    let value1 := value / 10 in
    let value2 := value mod 10 in
    write_digit value1 ?; write_digit value2
  else
    let value1 := value / 100 in
    let value2 := (value / 10) mod 10 in
    let value3 := value mod 10 in
    write_digit value1 ?; write_digit value2 ?; write_digit value3.

(** common.rs:35-43: the loop of [write_u16] over the bases, with the mutable variables [displayed]
    and [value] *)
Fixpoint write_u16_loop (bases : list N) (displayed : bool) (value : N) : writer W :=
  match bases with
  | [] => wok
  | base :: rest =>
      let digit := value / base in
      let continue_with (displayed : bool) : writer W :=
        wbind (mul_w P 16 digit base) (fun m =>
        wbind (sub_w P 16 value m) (fun value' =>
        write_u16_loop rest displayed value')) in
      if displayed || negb (digit =? 0)
      then wbind (add_w P 8 (cast_w 8 digit) (byte "0")) write_ascii_byte ?; continue_with true
      else continue_with displayed
  end.

(** common.rs:29-45 [write_u16] *)
Definition write_u16 (value : N) : writer W :=
  if value =? 0 then write_ascii_byte (byte "0")
  else write_u16_loop (rev [1; 10; 100; 1000; 10000]) false value.

End Common.
