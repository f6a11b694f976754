(** Property theorems C63: the bundled allocator over the life of a program *)
From Verif Require Import TArena.
From Verif Require Import LSampleA LSampleN.

(** C63: memory given back is never used again: over the whole life of the program, under every schedule and whatever is deallocated, the
    blocks handed out have no more than 128 KiB together, so there are at most 128 KiB / [n] blocks of [n] bytes. *)
Theorem c63_never_reused : forall P U cs s, 17 < U -> Forall (valid_heap_choice U) cs -> heap_run P U alloc_init cs = Ret s ->
  served (finished s) + as_remaining s <= 128 * 1024 /\ (forall n, 0 < n -> N.of_nat (blocks_of n (finished s)) <= 128 * 1024 / n) /\
  (forall i j e e' x, nth_error (finished s) i = Some e -> nth_error (finished s) j = Some e' -> i <> j -> in_block e x -> in_block e' x -> False).
Proof. exact c63_never_reused_pf. Qed.
Print Assumptions c63_never_reused.
Example c63_never_reused_ex :
  let cs := [Do (Call 0 (Layout 100000 8)); Do (Attempt 0 false); Dealloc 0 31072 (Layout 100000 8); Do (Call 1 (Layout 31000 8));
     Do (Attempt 1 true); Do (Attempt 1 false); Dealloc 1 72 (Layout 31000 8); Do (Call 0 (Layout 100 1)); Do (Attempt 0 false)] in
  let es := [AllocEvent 0 (Layout 100000 8) (Some 31072); AllocEvent 1 (Layout 31000 8) (Some 72); AllocEvent 0 (Layout 100 1) None] in
  Forall (valid_heap_choice 32) cs /\ (s <- heap_run Release 32 alloc_init cs;; Ret (finished s, as_remaining s)) = Ret (es, 72) /\
  served es = 131000 /\ blocks_of 30000 es = 2%nat.
Proof. split; [apply heap_choices_ok; [reflexivity|vm_compute; reflexivity]|]. vm_compute; auto. Qed.

(** C63: once the allocator has refused a request of at most 4096 alignment, it refuses every request of that size or more that finishes later. *)
Theorem c63_stays_full : forall P U cs s es e es' e', 17 < U -> Forall (valid_heap_choice U) cs -> heap_run P U alloc_init cs = Ret s ->
  finished s = es ++ e :: es' -> ev_offset e = None -> l_align (ev_layout e) <= 4096 -> In e' es' -> l_size (ev_layout e) <= l_size (ev_layout e') ->
  ev_offset e' = None.
Proof. exact c63_stays_full_pf. Qed.
Print Assumptions c63_stays_full.
Example c63_stays_full_ex :
  let cs := [Do (Call 0 (Layout 131000 1)); Do (Attempt 0 false); Do (Call 1 (Layout 80 16)); Do (Attempt 1 false);
     Dealloc 0 72 (Layout 131000 1); Do (Call 0 (Layout 40 1)); Do (Attempt 0 false); Do (Call 1 (Layout 80 1)); Do (Attempt 1 false)] in
  Forall (valid_heap_choice 64) cs /\ (s <- heap_run Debug 64 alloc_init cs;; Ret (finished s))
  = Ret ([AllocEvent 0 (Layout 131000 1) (Some 72)] ++ AllocEvent 1 (Layout 80 16) None :: [AllocEvent 0 (Layout 40 1) (Some 32); AllocEvent 1 (Layout 80 1) None]).
Proof. split; [apply heap_choices_ok; [reflexivity|vm_compute; reflexivity]|]. vm_compute; reflexivity. Qed.

(** C63: [alloc] cannot be kept waiting: whatever the other threads do, a call is answered after at most 131073 rounds that do not fail
    spuriously. *)
Theorem c63_answered : forall P U cs cs' s s' t, 17 < U -> Forall (valid_heap_choice U) cs -> Forall (valid_heap_choice U) cs' ->
  heap_run P U alloc_init cs = Ret s -> heap_run P U s cs' = Ret s' -> pending s t <> [] -> 128 * 1024 < N.of_nat (rounds t cs') ->
  (length (answered t (finished s)) < length (answered t (finished s')))%nat.
Proof. exact c63_answered_pf. Qed.
Print Assumptions c63_answered.
(** thread 1 gets in between; then thread 0 needs two of its rounds *)
Example c63_answered_ex :
  let cs := [Do (Call 0 (Layout 8 8)); Do (Call 1 (Layout 4 4)); Do (Attempt 1 false)] in
  let cs' := [Do (Attempt 0 true); Do (Attempt 0 false)] ++ repeat (Do (Attempt 0%nat false)) (N.to_nat (128 * 1024)) in
  Forall (valid_heap_choice 64) cs /\ Forall (valid_heap_choice 64) cs' /\ 128 * 1024 < N.of_nat (rounds 0 cs') /\
  exists s s', heap_run Debug 64 alloc_init cs = Ret s /\ heap_run Debug 64 s cs' = Ret s' /\ pending s 0 = [Layout 8 8] /\
    answered 0 (finished s) = [] /\ answered 0 (finished s') = [Layout 8 8].
Proof.
  cbv zeta. split; [apply heap_choices_ok; [reflexivity|vm_compute; reflexivity]|]. split; [apply Forall_app; split; [repeat constructor|apply attempts_valid]|].
  split; [rewrite rounds_app, rounds_repeat; change (rounds 0 [Do (Attempt 0 true); Do (Attempt 0 false)]) with 1%nat; lia|].
  eexists. eexists. split; [vm_compute; reflexivity|]. split; [|split; [reflexivity|]].
  - rewrite heap_run_app.
    match goal with |- bind (heap_run ?P ?U ?s ?cs) _ = _ => let r := eval vm_compute in (heap_run P U s cs) in change (heap_run P U s cs) with r end.
    cbn [bind]. apply idle_attempts. vm_compute. reflexivity.
  - split; reflexivity.
Qed.

(** C63: if all requests are for the same layout with a size that is a multiple of its alignment, as for a [Box] of one type, exactly
    the first 128 KiB / size of them are served, one block below the other. *)
Theorem c63_same_size : forall P U cs s l i e, 17 < U -> Forall (valid_heap_choice U) cs -> heap_run P U alloc_init cs = Ret s ->
  (forall e, In e (finished s) -> ev_layout e = l) -> 0 < l_size l -> l_size l mod l_align l = 0 -> l_align l <= 4096 ->
  nth_error (finished s) i = Some e ->
  ev_offset e = if N.of_nat i <? 128 * 1024 / l_size l then Some (128 * 1024 - (N.of_nat i + 1) * l_size l) else None.
Proof. exact c63_same_size_pf. Qed.
Print Assumptions c63_same_size.
Example c63_same_size_ex :
  let cs := flat_map (fun t => [Do (Call t (Layout 40000 64)); Dealloc t 0 (Layout 40000 64); Do (Attempt t false)]) [0; 1; 2; 3]%nat in
  Forall (valid_heap_choice 64) cs /\
  (s <- heap_run Debug 64 alloc_init cs;; Ret (map ev_layout (finished s), map ev_offset (finished s))) =
    Ret (repeat (Layout 40000 64) 4, [Some 91072; Some 51072; Some 11072; None]) /\ 128 * 1024 / 40000 = 3 /\ 40000 mod 64 = 0.
Proof. split; [apply heap_choices_ok; [reflexivity|vm_compute; reflexivity]|]. vm_compute; auto. Qed.
