(** Property theorems C46-C48: the no-std runtime of the C library *)
From Verif Require Import TRuntime.
From Verif Require Import LSampleA.

(** C46: under every schedule [alloc] neither panics nor overflows, and the answers are those of the calls run one after the
    other in the order in which they finished. *)
Theorem c46_serial : forall P U cs, 17 < U -> Forall (valid_choice U) cs ->
  exists s, alloc_run P U alloc_init cs = Ret s /\
    serial_run (128 * 1024) (map ev_layout (finished s)) = (as_remaining s, map ev_offset (finished s)).
Proof. exact c46_serial_pf. Qed.
Print Assumptions c46_serial.
Example c46_serial_ex : (* thread 1 loses the race, retries, is disturbed by a spurious failure, and gets the lower block *)
  let cs := [Call 0 (Layout 100 8); Call 1 (Layout 10 64); Attempt 0 false; Attempt 1 false; Attempt 1 true; Attempt 1 false] in
  Forall (valid_choice 32) cs /\ (s <- alloc_run Debug 32 alloc_init cs;; Ret (as_remaining s, map ev_offset (finished s))) = Ret (130944, [Some 130968; Some 130944]) /\
  serial_run (128 * 1024) [Layout 100 8; Layout 10 64] = (130944, [Some 130968; Some 130944]).
Proof. split; [apply choices_ok; [reflexivity|vm_compute; reflexivity]|]. vm_compute; auto. Qed.

(** C46: every non-null result is a block inside the arena at an offset that is a multiple of the alignment. *)
Theorem c46_inside : forall P U cs s e o, 17 < U -> Forall (valid_choice U) cs -> alloc_run P U alloc_init cs = Ret s ->
  In e (finished s) -> ev_offset e = Some o ->
  o + l_size (ev_layout e) <= 128 * 1024 /\ o mod l_align (ev_layout e) = 0 /\ l_align (ev_layout e) <= 4096.
Proof. exact c46_inside_pf. Qed.
Print Assumptions c46_inside.
Example c46_inside_ex :
  let cs := [Call 7 (Layout 131072 1); Attempt 7 true; Attempt 7 false; Call 7 (Layout 1 1); Attempt 7 false] in
  Forall (valid_choice 64) cs /\ (s <- alloc_run Release 64 alloc_init cs;; Ret (map ev_offset (finished s))) = Ret [Some 0; None].
Proof. split; [apply choices_ok; [reflexivity|vm_compute; reflexivity]|]. vm_compute; reflexivity. Qed.

(** C46: blocks of different calls never overlap. *)
Theorem c46_disjoint : forall P U cs s i j e e' x, 17 < U -> Forall (valid_choice U) cs -> alloc_run P U alloc_init cs = Ret s ->
  nth_error (finished s) i = Some e -> nth_error (finished s) j = Some e' -> i <> j -> in_block e x -> in_block e' x -> False.
Proof. exact c46_disjoint_pf. Qed.
Print Assumptions c46_disjoint.
Example c46_disjoint_ex :
  let cs := [Call 0 (Layout 3 2); Attempt 0 false; Call 1 (Layout 5 4); Attempt 1 false] in
  Forall (valid_choice 64) cs /\ (s <- alloc_run Debug 64 alloc_init cs;; Ret (finished s))
  = Ret [AllocEvent 0 (Layout 3 2) (Some 131068); AllocEvent 1 (Layout 5 4) (Some 131060)] /\
  in_block (AllocEvent 0 (Layout 3 2) (Some 131068)) 131068 /\ in_block (AllocEvent 1 (Layout 5 4) (Some 131060)) 131064.
Proof.
  split; [apply choices_ok; [reflexivity|vm_compute; reflexivity]|]. split; [vm_compute; reflexivity|].
  split; eexists; (split; [reflexivity|]); cbn; lia.
Qed.

(** C46: null is returned exactly if the alignment is above 4096 or the request does not fit below the lowest block handed out. *)
Theorem c46_null : forall P U cs s es e es', 17 < U -> Forall (valid_choice U) cs -> alloc_run P U alloc_init cs = Ret s ->
  finished s = es ++ e :: es' ->
  (ev_offset e = None <-> 4096 < l_align (ev_layout e) \/ bytes_left es < l_size (ev_layout e)) /\
  (forall o, ev_offset e = Some o -> o = (bytes_left es - l_size (ev_layout e)) / l_align (ev_layout e) * l_align (ev_layout e)).
Proof. exact c46_null_pf. Qed.
Print Assumptions c46_null.
Example c46_null_ex :
  let cs := [Call 0 (Layout 1 8192); Call 0 (Layout 131073 1); Attempt 0 false; Call 0 (Layout 131072 4096); Attempt 0 false] in
  Forall (valid_choice 64) cs /\ (s <- alloc_run Debug 64 alloc_init cs;; Ret (finished s)) =
    Ret ([AllocEvent 0 (Layout 1 8192) None] ++ AllocEvent 0 (Layout 131073 1) None :: [AllocEvent 0 (Layout 131072 4096) (Some 0)]).
Proof. split; [apply choices_ok; [reflexivity|vm_compute; reflexivity]|]. vm_compute; reflexivity. Qed.

(** C46: every call gets exactly one answer, in the order of its thread's calls; at most the thread's last call is pending. *)
Theorem c46_answers : forall P U cs s t, 17 < U -> Forall (valid_choice U) cs -> alloc_run P U alloc_init cs = Ret s ->
  answered t (finished s) ++ pending s t = calls_of t (calls P U alloc_init cs).
Proof. exact c46_answers_pf. Qed.
Print Assumptions c46_answers.
Example c46_answers_ex :
  let cs := [Call 0 (Layout 3 2); Call 0 (Layout 9 1); Attempt 0 false; Call 0 (Layout 5 4)] in
  Forall (valid_choice 64) cs /\ calls_of 0 (calls Debug 64 alloc_init cs) = [Layout 3 2; Layout 5 4] /\
  (s <- alloc_run Debug 64 alloc_init cs;; Ret (answered 0 (finished s), pending s 0)) = Ret ([Layout 3 2], [Layout 5 4]).
Proof. split; [apply choices_ok; [reflexivity|vm_compute; reflexivity]|]. vm_compute; auto. Qed.

(** C46: a call that is left alone for two attempts without spurious failures finishes. *)
Theorem c46_finishes_alone : forall P U cs s t, 17 < U -> Forall (valid_choice U) cs -> alloc_run P U alloc_init cs = Ret s ->
  exists s', alloc_run P U s [Attempt t false; Attempt t false] = Ret s' /\ as_threads s' t = Idle.
Proof. exact c46_finishes_alone_pf. Qed.
Print Assumptions c46_finishes_alone.
Example c46_finishes_alone_ex :
  let cs := [Call 0 (Layout 8 8); Call 1 (Layout 8 8); Attempt 1 false] in
  Forall (valid_choice 64) cs /\ (s <- alloc_run Debug 64 alloc_init cs;;
   s' <- alloc_run Debug 64 s [Attempt 0 false; Attempt 0 false];; Ret (length (finished s), map ev_offset (finished s'))) = Ret (1%nat, [Some 131064; Some 131056]).
Proof. split; [apply choices_ok; [reflexivity|vm_compute; reflexivity]|]. vm_compute; reflexivity. Qed.

(** C47: a pointer returned by [alloc] is aligned exactly if the arena itself is aligned that much.
    Full statement: [forall P U base cs s e o, 17 < U -> allowed_base base -> Forall (valid_choice U) cs -> alloc_run P U alloc_init cs = Ret s ->
    In e (finished s) -> ev_offset e = Some o -> alloc_pointer base o mod l_align (ev_layout e) = 0]. *)
Theorem c47_aligned_iff_partial : forall P U base cs s e o, 17 < U -> Forall (valid_choice U) cs -> alloc_run P U alloc_init cs = Ret s ->
  In e (finished s) -> ev_offset e = Some o ->
  (alloc_pointer base o mod l_align (ev_layout e) = 0 <-> base mod l_align (ev_layout e) = 0).
Proof. exact c47_aligned_iff_partial_pf. Qed.
Print Assumptions c47_aligned_iff_partial.
Example c47_aligned_iff_partial_ex :
  Forall (valid_choice 64) [Call 0 (Layout 8 8); Attempt 0 false] /\
  (s <- alloc_run Debug 64 alloc_init [Call 0 (Layout 8 8); Attempt 0 false];;
   Ret (map (fun e => match ev_offset e with Some o => (alloc_pointer 1048576 o mod 8, alloc_pointer 1048577 o mod 8) | None => (9, 9) end) (finished s))) = Ret [(0, 1)].
Proof. split; [apply choices_ok; [reflexivity|vm_compute; reflexivity]|]. vm_compute; reflexivity. Qed.

(** C47: if the arena is aligned to 4096 bytes, every pointer is aligned; otherwise some call returns an unaligned one.
    Full statement: as above, for every [allowed_base base]. *)
Theorem c47_aligned_arena_partial : forall P U base, 17 < U ->
  (base mod 4096 = 0 <->
   forall cs s e o, Forall (valid_choice U) cs -> alloc_run P U alloc_init cs = Ret s -> In e (finished s) -> ev_offset e = Some o ->
     alloc_pointer base o mod l_align (ev_layout e) = 0).
Proof. exact c47_aligned_arena_partial_pf. Qed.
Print Assumptions c47_aligned_arena_partial.
Example c47_aligned_arena_partial_ex :
  let cs := [Call 0 (Layout 8 4096); Attempt 0 false; Call 1 (Layout 5 64); Attempt 1 false] in
  Forall (valid_choice 64) cs /\ (77 * 4096) mod 4096 = 0 /\ (s <- alloc_run Debug 64 alloc_init cs;;
   Ret (map (fun e => match ev_offset e with Some o => alloc_pointer (77 * 4096) o mod l_align (ev_layout e) | None => 9 end) (finished s))) = Ret [0; 0].
Proof. split; [apply choices_ok; [reflexivity|vm_compute; reflexivity]|]. vm_compute; auto. Qed.

(** C47 is false: the type of the arena static permits placements at which [alloc] returns an unaligned pointer, whatever the alignment
    asked for above 1. Full statement: as above. *)
Theorem c47_aligned_refuted : forall P U k, 17 < U -> 1 <= k <= 12 ->
  exists base cs s e o, allowed_base base /\ Forall (valid_choice U) cs /\ alloc_run P U alloc_init cs = Ret s /\
    In e (finished s) /\ ev_offset e = Some o /\ l_align (ev_layout e) = 2 ^ k /\
    alloc_pointer base o mod l_align (ev_layout e) <> 0.
Proof. exact c47_aligned_refuted_pf. Qed.
Print Assumptions c47_aligned_refuted.
Example c47_aligned_refuted_ex : allowed_base 65537 /\
  (s <- alloc_run Debug 64 alloc_init [Call 0 (Layout 16 16); Attempt 0 false];;
   Ret (map (fun e => match ev_offset e with Some o => alloc_pointer 65537 o mod 16 | None => 0 end) (finished s))) = Ret [1].
Proof. vm_compute; auto. Qed.

(** C48: [memcpy] between regions that do not overlap copies [n] bytes, changes nothing else, makes no invalid access and returns [dest]. *)
Theorem c48_memcpy : forall m dest src n, accessible m src n -> accessible m dest n -> apart dest src n ->
  exists m', memcpy m dest src n = Ret (m', dest) /\ filled m m' dest n (fun i => m (src + i)).
Proof. exact c48_memcpy_pf. Qed.
Print Assumptions c48_memcpy.
Example c48_memcpy_ex : accessible ram0 2 5 /\ accessible ram0 10 5 /\ apart 10 2 5 /\
  ('(m', d) <- memcpy ram0 10 2 5;; Ret (d, map m' (range 8 17))) = Ret (10, [Some 24; Some 27; Some 6; Some 9; Some 12; Some 15; Some 18; Some 45; Some 48]).
Proof. do 2 (split; [apply ram0_accessible; discriminate|]). split; [|vm_compute; reflexivity]. intros x [] []. lia. Qed.

(** C48: [memset] fills [n] bytes with the low byte of [c] (a two's complement i32), changes nothing else and returns [b]. *)
Theorem c48_memset : forall m b c n, (- 2 ^ 31 <= c < 2 ^ 31)%Z -> accessible m b n ->
  exists m' v, memset m b c n = Ret (m', b) /\ v < 256 /\ (exists q, c = (256 * q + Z.of_N v)%Z) /\ filled m m' b n (fun _ => Some v).
Proof. exact c48_memset_pf. Qed.
Print Assumptions c48_memset.
Example c48_memset_ex : accessible ram0 4 3 /\
  ('(m', b) <- memset ram0 4 (-2) 3;; Ret (b, map m' (range 3 8))) = Ret (4, [Some 9; Some 254; Some 254; Some 254; Some 21]).
Proof. split; [apply ram0_accessible; discriminate|]. vm_compute; reflexivity. Qed.

(** C48: [__bzero] clears [n] bytes and changes nothing else. *)
Theorem c48_bzero : forall m s n, accessible m s n -> exists m', bzero m s n = Ret m' /\ filled m m' s n (fun _ => Some 0).
Proof. exact c48_bzero_pf. Qed.
Print Assumptions c48_bzero.
Example c48_bzero_ex : accessible ram0 4 3 /\
  (m' <- bzero ram0 4 3;; Ret (map m' (range 3 8))) = Ret [Some 9; Some 0; Some 0; Some 0; Some 21] /\ bzero ram0 18 3 = UB.
Proof. split; [apply ram0_accessible; discriminate|]. vm_compute; auto. Qed.

(** C48: [memcmp] of equal regions is 0; otherwise it is the difference of the first bytes that differ, so it has its sign, and it is not 0. *)
Theorem c48_memcmp : forall P m a b n, holds_bytes m -> accessible m a n -> accessible m b n ->
  exists r, memcmp P m a b n = Ret r /\
    (r = 0%Z <-> forall i, i < n -> m (a + i) = m (b + i)) /\
    (forall i, i < n -> first_difference m a b i ->
       exists v w, m (a + i) = Some v /\ m (b + i) = Some w /\ r = (Z.of_N v - Z.of_N w)%Z /\ ((r < 0)%Z <-> v < w) /\ ((0 < r)%Z <-> w < v)).
Proof. exact c48_memcmp_pf. Qed.
Print Assumptions c48_memcmp.
Example c48_memcmp_ex : holds_bytes ram0_7 /\ accessible ram0_7 1 7 /\ accessible ram0_7 8 7 /\ accessible ram0_7 0 3 /\ accessible ram0_7 6 3 /\
  memcmp Debug ram0_7 1 8 6 = Ret 0%Z /\ memcmp Debug ram0_7 1 8 7 = Ret 0%Z /\ memcmp Debug ram0_7 0 6 3 = Ret (-240)%Z /\ memcmp Debug ram0_7 6 0 3 = Ret 240%Z.
Proof. split; [apply ram0_7_bytes|]. do 4 (split; [apply ram0_7_accessible; discriminate|]). vm_compute; auto. Qed.

(** C48: [memcmp] looks at no byte after the first difference. *)
Theorem c48_memcmp_stops : forall P m a b n i, i < n -> holds_bytes m -> accessible m a (i + 1) -> accessible m b (i + 1) -> first_difference m a b i ->
  exists r, memcmp P m a b n = Ret r /\ r <> 0%Z.
Proof. exact c48_memcmp_stops_pf. Qed.
Print Assumptions c48_memcmp_stops.
Example c48_memcmp_stops_ex : holds_bytes ram0_8 /\ accessible ram0_8 1 (1 + 1) /\ accessible ram0_8 4 (1 + 1) /\ first_difference ram0_8 1 4 1 /\
  memcmp Debug ram0_8 1 4 100 = Ret 4%Z /\ memcmp Debug ram0_8 1 6 100 = UB.
Proof.
  split; [apply ram0_8_bytes|]. do 2 (split; [apply ram0_8_accessible; discriminate|]).
  split; [split; [discriminate|intros j J; replace j with 0 by lia; reflexivity]|]. vm_compute; auto.
Qed.
