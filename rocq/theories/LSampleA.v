(** Requests to the allocator used in the examples beside the theorems: checking that they are valid. *)
From Verif Require Export SpecArena.
From Coq Require Import Lia ZifyBool.

Definition check_choice (c : alloc_choice) : bool :=
  match c with
  | Call _ l => existsb (fun k => l_align l =? 2 ^ k) [0; 1; 2; 3; 4; 5; 6; 7; 8; 9; 10; 11; 12; 13] && (l_size l <? 2 ^ 18)
  | Attempt _ _ => true
  end.
Definition check_heap_choice (c : heap_choice) : bool := match c with Do c => check_choice c | Dealloc _ _ _ => true end.
Lemma check_choice_ok U c : 17 < U -> check_choice c = true -> valid_choice U c.
Proof.
  intros HU. destruct c as [t l|t b]; cbn [check_choice valid_choice]; [|trivial]. intros H. apply andb_prop in H as [H1 H2]. apply existsb_exists in H1 as (k & K & E).
  apply N.eqb_eq in E. apply N.ltb_lt in H2. split.
  - exists k. split; [|exact E]. cbn in K. repeat (destruct K as [<-|K]; [lia|]). contradiction.
  - eapply N.lt_le_trans; [exact H2|]. apply N.pow_le_mono_r; lia.
Qed.
Lemma choices_ok U cs : 17 < U -> forallb check_choice cs = true -> Forall (valid_choice U) cs.
Proof. intros HU H. rewrite forallb_forall in H. apply Forall_forall. intros c I. apply check_choice_ok; auto. Qed.
Lemma heap_choices_ok U cs : 17 < U -> forallb check_heap_choice cs = true -> Forall (valid_heap_choice U) cs.
Proof. intros HU H. rewrite forallb_forall in H. apply Forall_forall. intros [c|? ? ?] I; [apply check_choice_ok; [exact HU|exact (H _ I)]|exact Logic.I]. Qed.

(** a thread that is not inside [alloc] does nothing in an attempt *)
Lemma idle_attempts P U s t n : as_threads s t = Idle -> heap_run P U s (repeat (Do (Attempt t false)) n) = Ret s.
Proof. intros I. induction n as [|n IH]; [reflexivity|]. cbn [repeat heap_run heap_step alloc_step]. rewrite I. exact IH. Qed.
Lemma rounds_repeat t n : rounds t (repeat (Do (Attempt t false)) n) = n.
Proof. induction n as [|n IH]; [reflexivity|]. unfold rounds in *. cbn [repeat filter]. rewrite PeanoNat.Nat.eqb_refl. cbn [length]. now rewrite IH. Qed.
Lemma attempts_valid U t n : Forall (valid_heap_choice U) (repeat (Do (Attempt t false)) n).
Proof. induction n; constructor; [exact I|assumption]. Qed.
(** [n] more than a step at a time *)
Lemma heap_run_app P U s cs cs' : heap_run P U s (cs ++ cs') = (s' <- heap_run P U s cs;; heap_run P U s' cs').
Proof. revert s. induction cs as [|c cs IH]; intros s; [reflexivity|]. cbn [app heap_run]. destruct (heap_step P U s c); cbn; auto. Qed.
Definition ram0 : mem := fun a => if a <? 20 then Some (a * 3) else None.
Lemma ram0_accessible a n : a + n <= 20 -> accessible ram0 a n.
Proof. intros H i I. exists ((a + i) * 3). unfold ram0. destruct (N.ltb_spec (a + i) 20); [reflexivity|lia]. Qed.
Definition ram0_7 : mem := fun a => if a <? 20 then Some (a mod 7 * 40) else None.
Lemma ram0_7_accessible a n : a + n <= 20 -> accessible ram0_7 a n.
Proof. intros H i I. eexists. unfold ram0_7. destruct (N.ltb_spec (a + i) 20); [reflexivity|lia]. Qed.
Lemma ram0_7_bytes : holds_bytes ram0_7.
Proof.
  intros a v. unfold ram0_7. destruct (N.ltb_spec a 20); [|discriminate]. intros E. injection E as <-.
  pose proof (N.mod_lt a 7). lia.
Qed.
Lemma rounds_app t cs cs' : rounds t (cs ++ cs') = (rounds t cs + rounds t cs')%nat.
Proof. unfold rounds. now rewrite filter_app, app_length. Qed.
(** 0 1 4 4 1 0 1 4 *)
Definition ram0_8 : mem := fun a => if a <? 8 then Some (a * a mod 5) else None.
Lemma ram0_8_accessible a n : a + n <= 8 -> accessible ram0_8 a n.
Proof. intros H i I. eexists. unfold ram0_8. destruct (N.ltb_spec (a + i) 8); [reflexivity|lia]. Qed.
Lemma ram0_8_bytes : holds_bytes ram0_8.
Proof.
  intros a v. unfold ram0_8. destruct (N.ltb_spec a 8); [|discriminate]. intros E. injection E as <-.
  pose proof (N.mod_lt (a * a) 5). lia.
Qed.
