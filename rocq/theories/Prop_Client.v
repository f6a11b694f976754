(** Property theorems C58, C59: positions in the memory of a C program *)
From Verif Require Import TClient.
From Verif Require Import LSampleC.

(** C58: a position stored in memory has its fields where the header says, reads back as it was, and nothing else is touched. *)
Theorem c58_store : forall P A E pad m a s x, In A word_alignments -> reachable P s -> sees P s x ->
  aligned A a -> accessible m a (position_size A) ->
  exists m', store_pp A E pad m a s = Ret m' /\ shows A E m' a x /\ load_pp A E m' a = Ret s /\ only_changes m m' a (position_size A).
Proof. exact c58_store_pf. Qed.
Print Assumptions c58_store.
Example c58_store_ex : (* White's bishop on 6f, and a struct not at a multiple of its alignment *)
  reachable Debug pos1 /\ sees Debug pos1 (abs pos1) /\ aligned 8 64 /\ ~ aligned 8 60 /\ accessible (fun a => if a <? 1000 then Some 0 else None) 64 (position_size 8) /\
  position_size 8 = 368 /\
  match store_pp 8 Big (fun i => i) (fun a => if a <? 1000 then Some 0 else None) 64 pos1 with
  | Ret m => (m 64, m 65, m 66, m 67, m (field 8 64 "board" + (sq_repr (square_at 6 6) - 1)), m 63, m 1000) =
             (Some 1, Some 1, Some 0, Some 7, Some (piece_repr (piece_of Bishop White)), Some 0, None)
  | _ => False
  end /\
  store_pp 8 Big (fun i => i) (fun a => if a <? 1000 then Some 0 else None) 60 pos1 = UB.
Proof.
  split; [apply pos1_reachable|]. split; [apply sees_abs, played_wf with Debug, pos1_played|]. split; [now exists 8|].
  split; [intros [k E]; change (position_align 8) with 8 in E; lia|].
  split; [intros i L; exists 0; change (position_size 8) with 368 in L; destruct (N.ltb_spec (64 + i) 1000); [reflexivity|lia]|].
  split; [reflexivity|]. split; vm_compute; reflexivity.
Qed.

(** C58: copying the bytes of a position copies the position: a struct assignment in C, which compiles to [memcpy], and no bytes elsewhere change. *)
Theorem c58_copy : forall A E m dest src, In A word_alignments -> aligned A dest -> aligned A src ->
  accessible m dest (position_size A) -> accessible m src (position_size A) ->
  dest = src \/ apart dest src (position_size A) ->
  exists m', c_assign A m dest src = Ret m' /\ load_pp A E m' dest = load_pp A E m src /\ load_pp A E m' src = load_pp A E m src /\
    only_changes m m' dest (position_size A).
Proof. exact c58_copy_pf. Qed.
Print Assumptions c58_copy.
Example c58_copy_ex :
  aligned 8 0 /\ aligned 8 400 /\ accessible ram5 0 (position_size 8) /\ accessible ram5 400 (position_size 8) /\ apart 0 400 (position_size 8) /\
  load_pp 8 Little ram5 400 = Ret pos1 /\ load_pp 8 Little ram5 0 = UB /\
  match c_assign 8 ram5 0 400 with Ret m => load_pp 8 Little m 0 = Ret pos1 /\ m 367 = Some 7 /\ m 368 = Some 9 | _ => False end.
Proof.
  split; [now exists 0|]. split; [exact aligned_400|]. do 2 (split; [apply ram5_accessible; discriminate|]). split; [exact apart_0_400|]. vm_compute. repeat split.
Qed.

(** C58: reading a position at an aligned address is defined exactly if the byte of the side to move is 1 or 2. *)
Theorem c58_load_defined : forall A E m a, In A word_alignments -> accessible m a (position_size A) ->
  (aligned A a -> m a = Some 1 \/ m a = Some 2 -> exists s, load_pp A E m a = Ret s) /\
  (aligned A a -> m a <> Some 1 -> m a <> Some 2 -> load_pp A E m a = UB) /\
  (~ aligned A a -> load_pp A E m a = UB).
Proof. exact c58_load_defined_pf. Qed.
Print Assumptions c58_load_defined.
Example c58_load_defined_ex : (* memory full of zeros holds no position *)
  accessible (fun _ => Some 0) 8 (position_size 8) /\ aligned 8 8 /\ ~ aligned 8 4 /\
  load_pp 8 Little (fun _ => Some 0) 8 = UB /\ load_pp 8 Little (fun _ => Some 3) 8 = UB /\ load_pp 8 Little (fun _ => Some 1) 4 = UB /\
  match load_pp 8 Little (fun _ => Some 1) 8 with Ret s => ply s = 257 | _ => False end.
Proof.
  split; [intros i _; now exists 0|]. split; [now exists 1|]. split; [intros [k E]; change (position_align 8) with 8 in E; lia|]. vm_compute; auto.
Qed.

(** C58: if [memcmp] finds no difference between two positions in memory, they are equal.
    The converse is false, see the next theorem. *)
Theorem c58_memcmp : forall P A E m a b, In A word_alignments -> holds_bytes m -> aligned A a -> aligned A b ->
  accessible m a (position_size A) -> accessible m b (position_size A) ->
  memcmp P m a b (position_size A) = Ret 0%Z -> load_pp A E m a = load_pp A E m b.
Proof. exact c58_memcmp_pf. Qed.
Print Assumptions c58_memcmp.
Example c58_memcmp_ex : (* the same bytes twice; and another byte in the padding *)
  holds_bytes ram4 /\ aligned 8 0 /\ aligned 8 400 /\ accessible ram4 0 (position_size 8) /\ accessible ram4 400 (position_size 8) /\
  memcmp Debug ram4 0 400 (position_size 8) = Ret 0%Z /\ load_pp 8 Little ram4 0 = Ret pos1 /\ load_pp 8 Little ram4 400 = Ret pos1 /\
  match memcmp Debug ram5 0 400 (position_size 8) with Ret r => (0 < r)%Z | _ => False end.
Proof.
  split; [exact ram4_bytes|]. split; [now exists 0|]. split; [exact aligned_400|]. do 2 (split; [apply ram4_accessible; discriminate|]). vm_compute. repeat split.
Qed.

(** C58: equal positions may differ in memory, in their padding: [memcmp] does not decide equality. *)
Theorem c58_memcmp_padding : forall P A E s, In A word_alignments -> reachable P s ->
  exists m a b r, holds_bytes m /\ load_pp A E m a = Ret s /\ load_pp A E m b = Ret s /\
    memcmp P m a b (position_size A) = Ret r /\ r <> 0%Z.
Proof. exact c58_memcmp_padding_pf. Qed.
Print Assumptions c58_memcmp_padding.
Example c58_memcmp_padding_ex :
  match m <- store_pp 8 Little (fun _ => 7) (fun a => if a <? 1000 then Some 0 else None) 400 pos1;; m' <- store_pp 8 Little (fun _ => 6) m 0 pos1;; memcmp Debug m' 0 400 (position_size 8) with
  | Ret r => (r < 0)%Z | _ => False end /\ reachable Debug pos1.
Proof. split; [vm_compute; reflexivity|apply pos1_reachable]. Qed.

(** C59: a C program that initialises its positions before it uses them never has undefined behaviour, whatever the word alignment,
    the byte order and the values of padding bytes; each call returns what the abstract program returns, each variable holds what
    the abstract program holds, and no memory outside the variables changes. *)
Theorem c59_client : forall P A E env n k pads os m st rs, In A word_alignments -> placed A env n k m -> Forall (op_fine n k) os ->
  client_run client_start os = Some (st, rs) ->
  exists m', c_run P A E env pads 0 os m = Ret (m', rs) /\
    (forall i x, (i < n)%nat -> cl_pos st i = Some x -> shows A E m' (at_pos env i) x) /\
    (forall t l, (t < k)%nat -> cl_text st t = Some l -> string_at m' (at_text env t) l) /\
    (forall x, (forall v, variable n k v -> ~ in_variable A env v x) -> m' x = m x) /\
    (forall x, m' x = None <-> m x = None).
Proof. exact c59_client_pf. Qed.
Print Assumptions c59_client.
Example c59_client_ex :
  placed 8 env1 2 2 ram1 /\ Forall (op_fine 2 2) calls1 /\
  calls1_agree (client_run client_start calls1) (c_run Debug 8 Little env1 (fun k i => N.of_nat k + i) 0 calls1 ram1) /\
  client_run client_start [CPly 0] = None /\ c_run Debug 8 Little env1 (fun k i => 0) 0 [CPly 0] ram1 = UB.
Proof.
  split; [|split; [|split]].
  - apply ram1_placed.
  - unfold calls1. repeat apply Forall_cons; try apply Forall_nil; cbn [op_fine]; repeat split; try lia; try apply piece_of_valid; try (vm_compute; discriminate);
      eexists; (split; [|reflexivity]); repeat split; discriminate.
  - vm_compute. repeat split.
  - split; vm_compute; reflexivity.
Qed.
