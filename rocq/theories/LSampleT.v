(** Threads used in the examples beside the theorems. *)
From Verif Require Export SpecThreads LSampleQ.

(** threads 0 and 1 have variables in the first 8192 bytes; the others have none *)
Definition tenvs (i : nat) : p_env :=
  let b := 4096 * N.of_nat i in
  PEnv (CEnv (fun k => b + 512 * N.of_nat k) (fun t => b + (2048 + 256 * N.of_nat t))) (VEnv (fun k => b + (3072 + 8 * N.of_nat k)) (fun k => b + (3584 + 16 * N.of_nat k))).
Definition tsizes (i : nat) : p_size := match i with 0%nat | 1%nat => psize1 | _ => PSize 0 0 0 0 end.
Definition ram3 : mem := fun a => if a <? 8192 then Some 255 else None.
Lemma ram3_threads_placed : threads_placed 8 tenvs tsizes ram3.
Proof.
  assert (F : forall i y, in_variables 8 (tenvs i) (tsizes i) y -> (i < 2)%nat /\ 4096 * N.of_nat i <= y < 4096 * N.of_nat i + 4096).
  { intros i y H. assert (i = 0 \/ i = 1 \/ 2 <= i)%nat as [-> | [-> | L]] by lia.
    - destruct H as [([k|k] & V & J)|([k|k] & V & J)]; unfold in_variable, SpecCall.in_object, in_region in J;
        cbn [variable v_known region v_region fst snd tenvs p_positions p_objects at_pos at_text at_hand at_bits tsizes psize1 sz_pos sz_text sz_hand sz_bits] in *;
        change (position_size 8) with 368 in *; lia.
    - destruct H as [([k|k] & V & J)|([k|k] & V & J)]; unfold in_variable, SpecCall.in_object, in_region in J;
        cbn [variable v_known region v_region fst snd tenvs p_positions p_objects at_pos at_text at_hand at_bits tsizes psize1 sz_pos sz_text sz_hand sz_bits] in *;
        change (position_size 8) with 368 in *; lia.
    - exfalso. destruct i as [|[|i]]; [lia|lia|]. destruct H as [([k|k] & V & J)|([k|k] & V & J)]; cbn in V; lia. }
  split.
  - intros i. assert (i = 0 \/ i = 1 \/ 2 <= i)%nat as [-> | [-> | L]] by lia.
    + split; [split; [intros i H; cbn [tsizes psize1 sz_pos] in H; exists (64 * N.of_nat i); cbn [tenvs p_positions at_pos]; change (position_align 8) with 8; change (N.of_nat 0) with 0; lia|split]|split; [split; [|split]|]].
      * intros [i|i] V j L; exists 255; cbn [variable region fst snd tenvs p_positions at_pos at_text tsizes psize1 sz_pos sz_text] in *; change (position_size 8) with 368 in *; unfold ram3;
          match goal with |- (if ?a <? ?b then _ else _) = _ => destruct (N.ltb_spec a b); [reflexivity|lia] end.
      * intros [i|i] [j|j] x V W D; unfold in_variable, in_region; cbn [variable region fst snd tenvs p_positions at_pos at_text tsizes psize1 sz_pos sz_text] in *;
          change (position_size 8) with 368; intros X Y; try (assert (i <> j) by congruence); lia.
      * intros i H; cbn [tsizes psize1 sz_bits] in H; assert (i = 0%nat) as -> by lia; reflexivity.
      * intros [i|i] V j L; exists 255; cbn [v_known v_region fst snd tenvs p_objects at_hand at_bits tsizes psize1 sz_hand sz_bits] in *; unfold ram3;
          match goal with |- (if ?a <? ?b then _ else _) = _ => destruct (N.ltb_spec a b); [reflexivity|lia] end.
      * intros [i|i] [j|j] x V W D; unfold in_object, SpecCall.in_object, in_region; cbn [v_known v_region fst snd tenvs p_objects at_hand at_bits tsizes psize1 sz_hand sz_bits] in *;
          intros X Y; try (assert (i <> j) by congruence); lia.
      * intros [i|t] [j|j] y V W; unfold in_variable, SpecCall.in_object, in_region;
          cbn [variable v_known region v_region fst snd tenvs p_positions p_objects at_pos at_text at_hand at_bits tsizes psize1 sz_pos sz_text sz_hand sz_bits] in *;
          change (position_size 8) with 368; lia.
    + split; [split; [intros i H; cbn [tsizes psize1 sz_pos] in H; exists (512 + 64 * N.of_nat i); cbn [tenvs p_positions at_pos]; change (position_align 8) with 8; change (N.of_nat 1) with 1; lia|split]|split; [split; [|split]|]].
      * intros [i|i] V j L; exists 255; cbn [variable region fst snd tenvs p_positions at_pos at_text tsizes psize1 sz_pos sz_text] in *; change (position_size 8) with 368 in *; unfold ram3;
          match goal with |- (if ?a <? ?b then _ else _) = _ => destruct (N.ltb_spec a b); [reflexivity|lia] end.
      * intros [i|i] [j|j] x V W D; unfold in_variable, in_region; cbn [variable region fst snd tenvs p_positions at_pos at_text tsizes psize1 sz_pos sz_text] in *;
          change (position_size 8) with 368; intros X Y; try (assert (i <> j) by congruence); lia.
      * intros i H; cbn [tsizes psize1 sz_bits] in H; assert (i = 0%nat) as -> by lia; reflexivity.
      * intros [i|i] V j L; exists 255; cbn [v_known v_region fst snd tenvs p_objects at_hand at_bits tsizes psize1 sz_hand sz_bits] in *; unfold ram3;
          match goal with |- (if ?a <? ?b then _ else _) = _ => destruct (N.ltb_spec a b); [reflexivity|lia] end.
      * intros [i|i] [j|j] x V W D; unfold in_object, SpecCall.in_object, in_region; cbn [v_known v_region fst snd tenvs p_objects at_hand at_bits tsizes psize1 sz_hand sz_bits] in *;
          intros X Y; try (assert (i <> j) by congruence); lia.
      * intros [i|t] [j|j] y V W; unfold in_variable, SpecCall.in_object, in_region;
          cbn [variable v_known region v_region fst snd tenvs p_positions p_objects at_pos at_text at_hand at_bits tsizes psize1 sz_pos sz_text sz_hand sz_bits] in *;
          change (position_size 8) with 368; lia.
    + destruct i as [|[|i]]; [lia|lia|]. cbn [tsizes]. split; [split; [|split]|split; [split; [|split]|]]; cbn [sz_pos sz_text sz_hand sz_bits]; intros; 
        repeat match goal with H : variable 0 0 ?v |- _ => destruct v; cbn [variable] in H; lia | H : v_known 0 0 ?v |- _ => destruct v; cbn [v_known] in H; lia end; lia.
  - intros i j y N H K. apply F in H, K. lia.
Qed.
(** plays a move in a game on the heap, reads and writes it out *)
Definition tprogram0 : c_stmt := block [
  SCall 0 (QStartpos 0); SCall 1 (QMove 0 (int (packed (nm 7 7 7 6 false)))); SCall 2 (QAsk 0 KPly); SCall 3 (QSfen 0 1); SCall 4 (QDestruct 0)].
(** tries the same twice in a variable and once on the heap *)
Definition tprogram1 : c_stmt := block [
  SCall 0 (PStartpos 0); SCall 0 (QStartpos 5);
  SSet 1 (int 0);
  SWhile (IsLess (AVar 1) (int 2)) (SSeq (SCall 2 (PMove 0 (int (packed (nm 2 7 2 6 false))))) (SAdd 1 (AVar 1) (int 1)));
  SCall 3 (QMove 5 (int (packed (nm 5 7 5 6 false)))); SCall 4 (PAsk (Inside 5) KPly); SCall 5 (PAsk (InVar 0) KPly); SCall 6 (QDestruct 5)].
Definition tprograms (i : nat) : c_stmt := match i with 0%nat => tprogram0 | 1%nat => tprogram1 | _ => SSkip end.
(** reads the game after it has been destructed *)
Definition tprogram2 : c_stmt := block [SCall 0 (QStartpos 0); SCall 0 (QDestruct 0); SCall 0 (QAsk 0 KPly)].
Definition tprograms2 (i : nat) : c_stmt := match i with 0%nat => tprogram0 | 1%nat => tprogram2 | _ => SSkip end.
Definition tschedule1 : list nat := [0; 1; 1; 0; 0; 1; 1; 1; 0; 1; 1; 1; 0; 0; 1; 1; 0; 0; 1; 1; 1; 1; 0; 1; 1; 1; 1; 1; 1; 1; 1; 1]%nat.
Definition tschedule2 : list nat := repeat 1%nat 23 ++ repeat 0%nat 9.
Definition tallocs (i j : nat) : mem -> option N := alloc1.
Definition tpads (i j : nat) (y : N) : N := 7.
Definition trun (P : profile) (programs : nat -> c_stmt) (schedule : list nat) : res system :=
  sys_run P 8 Little box1 tenvs tallocs tpads schedule (sys_start ram3 programs).
(** what the threads have in the end: code left, variables, some memory *)
Definition tsee (r : res system) : option (list (nat * list (option c_val)) * list (option N)) :=
  match r with
  | Ret sys => Some (map (fun i => (length (th_code (sy_thread sys i)), map (pw_var (now sys i)) (seq 0 7))) [0; 1; 2]%nat, map (sy_mem sys) [2304; 2305; 8191; 8192; 16384])
  | _ => None
  end.
Definition tend1 : option (list (nat * list (option c_val)) * list (option N)) :=
  Some ([(0%nat, [Some VVoid; Some (VBool true); Some (VInt 2); Some VVoid; Some VVoid; None; None]);
         (0%nat, [Some VVoid; Some (VInt 2); Some (VBool false); Some (VBool true); Some (VInt 2); Some (VInt 2); Some VVoid]);
         (1%nat, [None; None; None; None; None; None; None])], [Some 108; Some 110; Some 255; None; None]).
Lemma tprograms_within : forall i, stmt_within (tsizes i) (tprograms i).
Proof. intros [|[|i]]; cbn; repeat split; lia. Qed.
Lemma tallocs_fresh : forall i j, fresh_blocks 8 box1 (tallocs i j).
Proof. intros i j. exact alloc1_fresh. Qed.
(** where the memory of two systems is the same *)
Definition tsame (r r' : res system) (ys : list N) : list bool :=
  match r, r' with Ret s, Ret s' => map (fun y => match sy_mem s y, sy_mem s' y with Some a, Some b => a =? b | None, None => true | _, _ => false end) ys | _, _ => [] end.
Definition tcode (r : res system) (i : nat) : option (nat * option c_val) :=
  match r with Ret s => Some (length (th_code (sy_thread s i)), pw_var (now s i) 2) | _ => None end.
(** the system with another thread's memory spoilt *)
Definition tspoil (r : res system) : res system :=
  match r with Ret s => Ret (System (fun y => if (4096 <=? y) && (y <? 8192) then Some 1 else sy_mem s y) (sy_thread s)) | x => x end.
Definition tnext (r : res system) (i : nat) : res system := s <- r;; sys_step Debug 8 Little box1 tenvs tallocs tpads i s.
Definition a_end (r : outcome (list c_stmt * p_state)) : option (nat * option c_val * option N) :=
  match r with Fine (code, st) => Some (length code, vs_var (ps_val st) 2, hc_handle (ps_heap st) 0) | _ => None end.
Definition tmem (r : res system) (ys : list N) : list (option N) := match r with Ret s => map (sy_mem s) ys | _ => [] end.
Definition tleft (r : res system) (is : list nat) : list nat := match r with Ret s => map (fun i => length (th_code (sy_thread s i))) is | _ => [] end.
Definition tdone (r : outcome (list c_stmt * p_state)) : Prop := match r with Fine (_, st) => forall id, hc_object (ps_heap st) id = None | _ => False end.
Lemma tschedule1_done : forall i, exists code st, alone tprograms i (turns i tschedule1) = Fine (code, st) /\ forall id, hc_object (ps_heap st) id = None.
Proof.
  intros i. assert (D : tdone (alone tprograms i (turns i tschedule1))).
  { destruct i as [|[|i]].
    - change (turns 0 tschedule1) with 9%nat. vm_compute. intros [|[]]; reflexivity.
    - change (turns 1 tschedule1) with 23%nat. vm_compute. intros [|[]]; reflexivity.
    - change (turns (S (S i)) tschedule1) with 0%nat. intros id. reflexivity. }
  destruct (alone tprograms i (turns i tschedule1)) as [[code st]| |]; [|destruct D|destruct D]. exists code, st. auto.
Qed.
