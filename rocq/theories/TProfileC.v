(** Proofs of the property theorems on the differences between builds seen from C (restated in Prop_ProfileC.v). *)
From Verif Require Import TPosition LExt LRuntime TRuntime TClient TCall THeap TProgram TArena TNoStd TCheck TThreads LProfile.
From Verif Require Export SpecProfile.
(*PROPHEAD
Property theorems C80: what the overflow checks and the debug assertions of a build change for C programs
From Verif Require Import LSampleN LSampleP LSampleQ LSampleT.
*)

Lemma most_checks Q : checks_more Debug Q.
Proof. split; reflexivity. Qed.
Lemma all_equal {A} (f : profile -> res A) : (forall Q, same_or_panic (f Debug) (f Q)) -> f Debug <> Panic -> forall P Q, f P = f Q.
Proof. intros H N P Q. destruct (H P) as [E|E]; [contradiction|]. destruct (H Q) as [F|F]; [contradiction|]. congruence. Qed.
Lemma all_panic_or_equal {A} (f : profile -> res A) : (forall Q, same_or_panic (f Debug) (f Q)) -> (f Debug = Panic -> forall Q, f Q = Panic) -> forall P Q, f P = f Q.
Proof. intros H N P Q. destruct (f Debug) eqn:D; [|now rewrite !N|]; destruct (H P), (H Q); congruence. Qed.

(** C80: whatever a C program does, misuse of pointers included, with one thread or many and with either library: with more checks it panics or does
    the same to the memory. *)
Lemma c80_c_anything_pf : forall P Q, checks_more P Q ->
  (forall A E B env allocs pads fuel s w, same_or_panic (exec P A E B env allocs pads fuel s w) (exec Q A E B env allocs pads fuel s w)) /\
  (forall A E B envs allocs pads schedule sys, same_or_panic (sys_run P A E B envs allocs pads schedule sys) (sys_run Q A E B envs allocs pads schedule sys)) /\
  (forall U A E b env pads k os nw, same_or_panic (n_run P U A E b env pads k os nw) (n_run Q U A E b env pads k os nw)) /\
  (forall U s cs, same_or_panic (heap_run P U s cs) (heap_run Q U s cs)) /\
  (forall m a b n, same_or_panic (memcmp P m a b n) (memcmp Q m a b n)).
Proof.
  intros P Q C. repeat split; intros; [now apply sop_exec|now apply sop_sys_run|now apply sop_n_run|now apply sop_heap_run|now apply sop_memcmp].
Qed.
Lemma no_block_same P Q A E B env alloc pad h w : alloc (w_mem (pw_heap w)) = None -> p_step P A E B env alloc pad (QStartpos h) w = p_step Q A E B env alloc pad (QStartpos h) w.
Proof. intros H. cbn [p_step]. cbv zeta. cbn [h_step]. unfold Position_startpos, pos_startpos. now rewrite !startpos_ok, H. Qed.
Lemma exec_same Q A E B env Z m0 allocs pads : In A word_alignments -> box_ok A B -> (forall j, fresh_blocks A B (allocs j)) ->
  forall fuel s m1 w st, stmt_within Z s -> pinv Debug A E B env Z m0 m1 w st -> runs fuel s st <> Unset ->
  exec Debug A E B env allocs pads fuel s w = exec Q A E B env allocs pads fuel s w.
Proof.
  intros I Bk FB. induction fuel as [|fuel IH]; intros s m1 w st W H N; [reflexivity|].
  assert (Two : forall s t, stmt_within Z s -> stmt_within Z t ->
    match runs fuel s st with Fine (Some st') => runs fuel t st' | Fine None => Fine None | Misused => Misused | Unset => Unset end <> Unset ->
    (r <- exec Debug A E B env allocs pads fuel s w;; match r with Some w' => exec Debug A E B env allocs pads fuel t w' | None => Ret None end) =
    (r <- exec Q A E B env allocs pads fuel s w;; match r with Some w' => exec Q A E B env allocs pads fuel t w' | None => Ret None end)).
  { clear s W N. intros s t Ws Wt N. assert (N1 : runs fuel s st <> Unset) by (intros X; rewrite X in N; now apply N). rewrite <- (IH s m1 w st Ws H N1).
    pose proof (exec_ok Debug A E B env Z m0 allocs pads I Bk FB fuel s m1 w st Ws H) as G.
    destruct (exec Debug A E B env allocs pads fuel s w) as [[w'|]| |]; cbn [bind]; try reflexivity.
    destruct (runs fuel s st) as [[st'|]| |]; cbn [follows] in G.
    - destruct G as [(w1 & m2 & X & H')|[X _]]; [|discriminate X]. injection X as <-. exact (IH t m2 w' st' Wt H' N).
    - destruct G as [X|[X _]]; discriminate X.
    - destruct G as [X|[X _]]; discriminate X.
    - now destruct N1. }
  pose proof H as [Hh V D S _].
  destruct s as [|o|x c|x a|x a b|s t|c s t|c s]; cbn [runs exec stmt_within] in *.
  - reflexivity.
  - destruct (v_meaning (ps_val st) o) as [v'|] eqn:X; [|now destruct N].
    destruct (pinv_value Debug A E B env Z m0 m1 w st o v' I Bk H W X) as (vw & m2 & Y & _). destruct (sop_v_step Debug Q (most_checks Q) A E (p_objects env) o (pw_values w)) as [X'|X']; [|now rewrite X'].
    rewrite Y in X'. discriminate X'.
  - pose proof (p_step_ok Debug A E B env Z m0 m1 (allocs (pw_tick w)) (pads (pw_tick w)) c w st I Bk (FB _ _) H W) as G.
    assert (Y : p_step Debug A E B env (allocs (pw_tick w)) (pads (pw_tick w)) c w = p_step Q A E B env (allocs (pw_tick w)) (pads (pw_tick w)) c w); [|now rewrite Y].
    destruct (sop_p_step Debug Q (most_checks Q) A E B env (allocs (pw_tick w)) (pads (pw_tick w)) c w) as [X|X]; [|exact X].
    rewrite X in G. destruct (p_meaning st c) as [[h v]| |]; cbn [agrees_p] in G; [|discriminate G|now destruct N].
    destruct G as [(w' & Y & _)|[_ [Y [h' ->]]]]; [discriminate Y|]. now apply no_block_same.
  - reflexivity.
  - reflexivity.
  - now apply Two.
  - destruct W as [Ws Wt]. destruct (holds (ps_val st) c) as [b|] eqn:X; [|now destruct N]. rewrite (TProgram.cond_ok _ _ _ _ _ _ _ _ _ V X). cbn [bind]. destruct b; eapply IH; eauto.
  - destruct (holds (ps_val st) c) as [b|] eqn:X; [|now destruct N]. rewrite (TProgram.cond_ok _ _ _ _ _ _ _ _ _ V X). cbn [bind]. destruct b; [|reflexivity]. apply (Two s (SWhile c s)); auto.
Qed.
Lemma from_debug {A} (f : profile -> A) : (forall Q, f Debug = f Q) -> forall P Q, f P = f Q.
Proof. intros H P Q. now rewrite <- (H P), <- (H Q). Qed.
(** C80: a C program that reads no unset variable does the same to every byte of memory in all builds, also if it uses a dangling pointer or
    runs out of memory. *)
Lemma c80_c_programs_pf : forall P Q A E B env Z allocs pads s m fuel, In A word_alignments -> box_ok A B -> (forall j, fresh_blocks A B (allocs j)) ->
  all_placed A env Z m -> stmt_within Z s -> runs fuel s p_state_start <> Unset ->
  exec P A E B env allocs pads fuel s (p_start m) = exec Q A E B env allocs pads fuel s (p_start m).
Proof.
  intros P Q A E B env Z allocs pads s m fuel I Bk FB Pl W N. revert P Q. apply (from_debug (fun P => exec P A E B env allocs pads fuel s (p_start m))). intros Q.
  exact (exec_same Q A E B env Z m allocs pads I Bk FB fuel s m (p_start m) p_state_start W (p_start_ok Debug A E B env Z m Pl) N).
Qed.
Lemma sys_same Q A E B envs Zs m allocs pads : In A word_alignments -> box_ok A B -> (forall i j, fresh_blocks A B (allocs i j)) ->
  forall schedule sys st, sinv Debug A E B envs Zs m sys st ->
  (forall i, a_steps (turns i schedule) (th_code (sy_thread sys i)) (st i) <> Unset) ->
  sys_run Debug A E B envs allocs pads schedule sys = sys_run Q A E B envs allocs pads schedule sys.
Proof.
  intros I Bk FB. induction schedule as [|k rest IH]; intros sys st V F; [reflexivity|]. cbn [sys_run].
  pose proof (sys_step_ok Debug A E B envs Zs m allocs pads sys st k I Bk FB V) as G. pose proof (F k) as Fk. rewrite turns_same in Fk. cbn [a_steps] in Fk.
  assert (Y : sys_step Debug A E B envs allocs pads k sys = sys_step Q A E B envs allocs pads k sys).
  { unfold sys_step. cbv zeta. change (with_shared (sy_mem sys) (th_world (sy_thread sys k))) with (now sys k).
    destruct (sop_t_step Debug Q (most_checks Q) A E B (envs k) (allocs k) (pads k) (th_code (sy_thread sys k)) (now sys k)) as [X|X]; [|now rewrite X].
    unfold sys_step in G. cbv zeta in G. change (with_shared (sy_mem sys) (th_world (sy_thread sys k))) with (now sys k) in G. rewrite X in G. cbn [bind] in G.
    destruct (a_step (th_code (sy_thread sys k)) (st k)) as [[code st1]| |]; [|discriminate G|now destruct Fk].
    destruct G as [(s1 & Y & _)|[_ G]]; [discriminate Y|]. now rewrite !no_block_panics by exact G. }
  rewrite <- Y. destruct (a_step (th_code (sy_thread sys k)) (st k)) as [[code st1]| |] eqn:S1; [|now rewrite G|now destruct Fk].
  destruct G as [(sys1 & -> & V1 & C1 & _)|[-> _]]; cbn [bind]; [|reflexivity]. apply (IH sys1 (upd st k st1) V1). intros i.
  assert (X : a_steps (turns i (k :: rest)) (th_code (sy_thread sys i)) (st i) = a_steps (turns i rest) (th_code (sy_thread sys1 i)) (upd st k st1 i)).
  { rewrite (C1 i). unfold upd. destruct (Nat.eqb_spec i k) as [->|N]; [|now rewrite turns_other]. rewrite turns_same. cbn [a_steps]. now rewrite S1. }
  rewrite <- X. apply F.
Qed.
(** C80: the same for threads under every schedule. *)
Lemma c80_c_threads_pf : forall P Q A E B envs Zs allocs pads programs m schedule, In A word_alignments -> box_ok A B ->
  (forall i j, fresh_blocks A B (allocs i j)) -> threads_placed A envs Zs m -> (forall i, stmt_within (Zs i) (programs i)) ->
  (forall i, alone programs i (turns i schedule) <> Unset) ->
  sys_run P A E B envs allocs pads schedule (sys_start m programs) = sys_run Q A E B envs allocs pads schedule (sys_start m programs).
Proof.
  intros P Q A E B envs Zs allocs pads programs m schedule I Bk FB Pl W N. revert P Q.
  apply (from_debug (fun P => sys_run P A E B envs allocs pads schedule (sys_start m programs))). intros Q.
  exact (sys_same Q A E B envs Zs m allocs pads I Bk FB schedule _ _ (sinv_start Debug A E B envs Zs m programs Pl W) N).
Qed.
(** C80: the same for programs linked with the no-std library. *)
Lemma c80_no_std_pf : forall P Q U A E b env n k pads os m, In A word_alignments -> 18 < U -> build_ok U A b -> nb_base b mod nb_align b = 0 ->
  arena_free b m -> placed A env n k m -> Forall (hop_fine n k) os -> hclient_run hclient_start os <> Unset ->
  n_run P U A E b env pads 0 os (n_start m) = n_run Q U A E b env pads 0 os (n_start m).
Proof.
  intros P Q U A E b env n k pads os m I HU Bd Ba Af Pl V N.
  assert (D : all_served (requests b hclient_start os) \/ ~ all_served (requests b hclient_start os)).
  { unfold all_served. destruct (serial_run (128 * 1024) (requests b hclient_start os)) as [r l]. cbn [snd]. clear.
    induction l as [|[x|] l [IH|IH]]; cbn; [left; tauto|left; intros [H|H]; [discriminate|auto]|right; intros H; apply IH; intros J; apply H; auto| |]; right; intros H; apply H; auto. }
  apply (all_panic_or_equal (fun P => n_run P U A E b env pads 0 os (n_start m))).
  - intros R. apply sop_n_run, most_checks.
  - intros X R. destruct (hclient_run hclient_start os) as [[st rs]| |] eqn:H; [| |now destruct N].
    + pose proof (c64_programs_pf Debug U A E b env n k pads os m st rs I HU Bd Ba Af Pl V H) as G. rewrite X in G.
      pose proof (c64_programs_pf R U A E b env n k pads os m st rs I HU Bd Ba Af Pl V H) as G'.
      destruct (n_run R U A E b env pads 0 os (n_start m)) as [[nw rs']| |]; [|reflexivity|contradiction]. now destruct G' as [G' _].
    + destruct (c64_misuse_pf Debug U A E b env n k pads os m I HU Bd Ba Af Pl V H) as [G1 G2].
      destruct (c64_misuse_pf R U A E b env n k pads os m I HU Bd Ba Af Pl V H) as [G3 G4]. destruct D as [D|D]; [|auto].
      rewrite (G1 D) in X. discriminate.
Qed.
(** C80: the allocator, under every schedule of any number of threads, and [memcmp] do the same in all builds. *)
Lemma c80_runtime_pf : forall P Q U,
  (forall cs, 17 < U -> Forall (valid_heap_choice U) cs -> heap_run P U alloc_init cs = heap_run Q U alloc_init cs) /\
  (forall m a b n, holds_bytes m -> memcmp P m a b n = memcmp Q m a b n).
Proof.
  intros P Q U. split.
  - intros cs HU V. apply (all_equal (fun P => heap_run P U alloc_init cs)); [intros R; apply sop_heap_run, most_checks|].
    rewrite heap_run_allocs. destruct (c46_serial_pf Debug U (allocs_of cs) HU (allocs_valid U cs V)) as (s & -> & _). discriminate.
  - intros m a b n H. unfold memcmp. induction (range 0 n) as [|i l IH]; cbn [memcmp_loop]; [reflexivity|]. rewrite IH.
    unfold mem_read. destruct (m (a + i)) as [v|] eqn:Ma; cbn [bind]; [|reflexivity]. destruct (m (b + i)) as [w|] eqn:Mb; cbn [bind]; [|reflexivity].
    destruct (negb (v =? w)); [|reflexivity]. apply H in Ma. apply H in Mb. unfold i32_sub. cbv zeta.
    replace ((- 2147483648 <=? Z.of_N v - Z.of_N w) && (Z.of_N v - Z.of_N w <=? 2147483647))%Z with true by lia. reflexivity.
Qed.
