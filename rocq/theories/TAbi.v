(*PROPHEAD
Property theorems C56, C57: the C header against the exported functions
From Coq Require Import String List.
*)
(** C56: the C header declares what the library exports. *)
From Coq Require Import String.
From Verif Require Export LBase SpecAbi.

Definition lay_eq_dec (x y : lay) : {x = y} + {x <> y}.
Proof. decide equality; try apply N.eq_dec. apply list_eq_dec. decide equality; apply N.eq_dec. Defined.
Definition target_eq_dec (x y : target) : {x = y} + {x <> y}.
Proof. decide equality; [apply lay_eq_dec|apply string_dec]. Defined.
Definition shape_eq_dec (x y : shape) : {x = y} + {x <> y}.
Proof. decide equality; try apply Bool.bool_dec; try apply N.eq_dec; [apply lay_eq_dec|apply target_eq_dec]. Defined.

Definition isb {P : Prop} (d : {P} + {~ P}) : bool := if d then true else false.
Lemma isb_true {P : Prop} (d : {P} + {~ P}) : isb d = true -> P.
Proof. destruct d; [trivial|discriminate]. Qed.
Definition completeb (x : shape) : bool := negb (isb (shape_eq_dec x Unknown)).
Lemma completeb_true x : completeb x = true -> complete x.
Proof. unfold completeb, complete. destruct (shape_eq_dec x Unknown); [discriminate|auto]. Qed.
Definition same_callb (A : N) (r : rexport) (p : cproto) : bool :=
  isb (list_eq_dec shape_eq_dec (map (rust_shape 9 A) (re_args r)) (map (c_shape 9 A) (cp_args p))) &&
  isb (shape_eq_dec (rust_shape 9 A (re_ret r)) (c_shape 9 A (cp_ret p))) &&
  forallb completeb (map (c_shape 9 A) (cp_args p)) && completeb (c_shape 9 A (cp_ret p)).
Lemma same_callb_true A r p : same_callb A r p = true -> same_call A r p.
Proof.
  unfold same_callb. rewrite !andb_true_iff. intros [[[a b] c] d]. repeat split.
  - apply isb_true in a. exact a.
  - apply isb_true in b. exact b.
  - apply Forall_forall. intros x I. rewrite forallb_forall in c. apply completeb_true, c, I.
  - apply completeb_true, d.
Qed.

Lemma same_names : forallb (fun n => existsb (String.eqb n) (map cp_name header_protos)) (map re_name rust_exports) &&
  forallb (fun n => existsb (String.eqb n) (map re_name rust_exports)) (map cp_name header_protos) = true.
Proof. vm_compute. reflexivity. Qed.
Lemma existsb_string n l : existsb (String.eqb n) l = true -> In n l.
Proof. intros E. apply existsb_exists in E. destruct E as (m & I & e). apply String.eqb_eq in e. now subst. Qed.
Fixpoint distinct (l : list string) : bool :=
  match l with [] => true | n :: rest => negb (existsb (String.eqb n) rest) && distinct rest end.
Lemma distinct_NoDup l : distinct l = true -> NoDup l.
Proof.
  induction l as [|n l IH]; simpl; [constructor|]. rewrite andb_true_iff, negb_true_iff. intros [e d].
  constructor; [|auto]. intros I. enough (existsb (String.eqb n) l = true) by congruence.
  apply existsb_exists. exists n. split; [exact I|apply String.eqb_refl].
Qed.
(** C56: the header declares exactly the exported functions, each once. *)
Lemma c56_names_pf :
  NoDup (map re_name rust_exports) /\ NoDup (map cp_name header_protos) /\
  (forall n, In n (map re_name rust_exports) <-> In n (map cp_name header_protos)) /\
  length rust_exports = 84%nat.
Proof.
  pose proof same_names as E. apply andb_true_iff in E. destruct E as [a b]. rewrite forallb_forall in a, b.
  split; [apply distinct_NoDup; vm_compute; reflexivity|]. split; [apply distinct_NoDup; vm_compute; reflexivity|].
  split; [|reflexivity]. intros n. split; intros I; apply existsb_string; [apply a|apply b]; exact I.
Qed.

Definition uncallableb (n : string) : bool := String.eqb n "Square_from_u8" || String.eqb n "Square_shift".
Lemma uncallableb_iff n : uncallableb n = true <-> uncallable n.
Proof. unfold uncallableb, uncallable. rewrite orb_true_iff, !String.eqb_eq. tauto. Qed.
Lemma all_calls : forallb (fun A => forallb (fun r => forallb (fun p =>
    if String.eqb (re_name r) (cp_name p) then uncallableb (re_name r) || same_callb A r p else true) header_protos) rust_exports)
  word_alignments = true.
Proof. vm_compute. reflexivity. Qed.
(** C57: a call through the header passes and returns what the Rust function takes and gives, on every target (except for the two functions of the next theorem).
    Full statement: [forall A r p, In A word_alignments -> In r rust_exports -> In p header_protos -> re_name r = cp_name p -> same_call A r p]. *)
Lemma c57_calls_partial_pf : forall A r p, In A word_alignments -> In r rust_exports -> In p header_protos ->
  re_name r = cp_name p -> ~ uncallable (re_name r) -> same_call A r p.
Proof.
  intros A r p a i j e n. pose proof all_calls as E. rewrite forallb_forall in E. specialize (E A a). rewrite forallb_forall in E.
  specialize (E r i). rewrite forallb_forall in E. specialize (E p j). cbv beta in E. rewrite e, String.eqb_refl in E. apply orb_true_iff in E.
  destruct E as [E|E]; [|apply same_callb_true, E]. rewrite <- e in E. apply uncallableb_iff in E. contradiction.
Qed.

(** C57: two functions cannot be called through the header: it gives them a result of an incomplete struct type, where Rust returns one byte.
    Full statement: [forall A r p, In A word_alignments -> In r rust_exports -> In p header_protos -> re_name r = cp_name p -> same_call A r p]. *)
Lemma c57_calls_refuted_pf : forall A n, In A word_alignments -> uncallable n -> exists r p,
  In r rust_exports /\ In p header_protos /\ re_name r = n /\ cp_name p = n /\
  rust_shape 9 A (re_ret r) = Int 1 false /\ c_shape 9 A (cp_ret p) = Unknown /\ ~ same_call A r p /\
  map (rust_shape 9 A) (re_args r) = map (c_shape 9 A) (cp_args p).
Proof.
  intros A n a u.
  assert (G : exists r p, find (fun r => String.eqb (re_name r) n) rust_exports = Some r /\
    find (fun p => String.eqb (cp_name p) n) header_protos = Some p /\
    rust_shape 9 A (re_ret r) = Int 1 false /\ c_shape 9 A (cp_ret p) = Unknown /\
    map (rust_shape 9 A) (re_args r) = map (c_shape 9 A) (cp_args p)).
  { destruct u as [-> | ->]; do 2 eexists; (split; [reflexivity|]); (split; [reflexivity|]); repeat split. }
  destruct G as (r & p & i & j & e & f & g). exists r, p. apply find_some in i, j. destruct i as [i I], j as [j J].
  apply String.eqb_eq in I, J. repeat (split; [assumption|]). split; [|exact g].
  intros (_ & E & _). rewrite e, f in E. discriminate E.
Qed.

(** C56: the enumeration constants of the header are the discriminants, and there are no others. *)
Lemma c56_constants_pf :
  (forall c, look (color_name c) header_constants = Some (color_as_u8 c)) /\
  (forall r, look (resolution_name r) header_constants = Some (gr_as_u8 r)) /\
  (forall i, look (illegal_name i) header_constants = Some (imk_as_u8 i)) /\
  (forall k, look (kind_name k) header_constants = Some (pk_as_u8 k)) /\
  NoDup (map fst header_constants) /\
  (forall n v, In (n, v) header_constants ->
     (exists c, n = color_name c) \/ (exists r, n = resolution_name r) \/ (exists i, n = illegal_name i) \/ (exists k, n = kind_name k)).
Proof.
  split; [now intros []|]. split; [now intros []|]. split; [now intros []|]. split; [now intros []|].
  split; [apply distinct_NoDup; vm_compute; reflexivity|].
  intros n v I. unfold header_constants in I. repeat (destruct I as [I|I]; [injection I; intros; subst|]); [..|destruct I].
  1,2: left; first [exists Black; reflexivity|exists White; reflexivity].
  1-5: right; left; first [exists BlackWins; reflexivity|exists WhiteWins; reflexivity|exists Draw; reflexivity
    |exists Rematch; reflexivity|exists Aborted; reflexivity].
  1-7: right; right; left; first [exists TwoPawns; reflexivity|exists IgnoredCheck; reflexivity|exists DropPawnMate; reflexivity
    |exists DropStuck; reflexivity|exists NormalStuck; reflexivity|exists GameFinished; reflexivity|exists IncorrectMove; reflexivity].
  all: right; right; right; first [exists Pawn; reflexivity|exists Lance; reflexivity|exists Knight; reflexivity
    |exists Silver; reflexivity|exists Gold; reflexivity|exists Bishop; reflexivity|exists Rook; reflexivity|exists King; reflexivity
    |exists ProPawn; reflexivity|exists ProLance; reflexivity|exists ProKnight; reflexivity|exists ProSilver; reflexivity
    |exists ProBishop; reflexivity|exists ProRook; reflexivity].
Qed.

(** C56: the macros of the header are the associated constants. *)
Lemma c56_macros_pf :
  look "Color_NUM" header_macros = Some COLOR_NUM /\ look "PieceKind_OPTION_NUM" header_macros = Some PIECE_KIND_OPTION_NUM /\
  look "Square_NUM" header_macros = Some SQUARE_NUM /\ look "Piece_NUM" header_macros = Some PIECE_NUM /\
  look "Hand_NUM_HAND_PIECES" header_macros = Some NUM_HAND_PIECES.
Proof. repeat split. Qed.

Fixpoint sorted_from (o : N) (l : list (N * N)) : bool :=
  match l with [] => true | (a, w) :: rest => (o <=? a) && sorted_from (a + w) rest end.
Lemma sorted_from_in o l x : sorted_from o l = true -> In x l -> o <= fst x.
Proof.
  revert o. induction l as [|[a w] l IH]; intros o S I; [destruct I|]. simpl in S. apply andb_true_iff in S. destruct S as [a1 S].
  apply N.leb_le in a1. destruct I as [<-|I]; [exact a1|]. specialize (IH _ S I). lia.
Qed.
Lemma sorted_apart o l i j x y : sorted_from o l = true -> nth_error l i = Some x -> nth_error l j = Some y -> (i < j)%nat ->
  fst x + snd x <= fst y.
Proof.
  revert o i j. induction l as [|[a w] l IH]; intros o i j S X Y L; [destruct i; discriminate|].
  simpl in S. apply andb_true_iff in S. destruct S as [_ S]. destruct j as [|j]; [lia|]. destruct i as [|i]; simpl in X, Y.
  - injection X as <-. apply nth_error_In in Y. apply (sorted_from_in _ _ _ S Y).
  - apply (IH _ _ _ S X Y). lia.
Qed.
Definition sound_layoutb (A : N) (l : lay) : bool :=
  forallb (fun x => (fst x + snd x <=? lay_size l) && (fst x mod (if snd x =? 8 then A else snd x) =? 0)) (lay_scalars l) &&
  sorted_from 0 (lay_scalars l).
Lemma sound_layoutb_true A l : sound_layoutb A l = true -> sound_layout A l.
Proof.
  unfold sound_layoutb. rewrite andb_true_iff. intros [a b]. split.
  - apply Forall_forall. intros x I. rewrite forallb_forall in a. specialize (a x I). apply andb_true_iff in a. destruct a as [a c].
    apply N.leb_le in a. apply N.eqb_eq in c. auto.
  - intros i j x y X Y L. apply (sorted_apart 0 _ i j x y b X Y L).
Qed.

(** C56: both sides lay out [PartialPosition] the same way, at these offsets; scalars are aligned and do not overlap. *)
Lemma c56_struct_pf : forall A, In A word_alignments -> exists l rfs cfs rls cls,
  rust_lay 9 A (RNamed "PartialPosition") = Some l /\ c_lay 9 A (CStruct "PartialPosition") = Some l /\
  lay_size l = position_size A /\ lay_align l = position_align A /\ sound_layout A l /\
  look "PartialPosition" rust_types = Some (RReprC rfs) /\ map (fun f => rust_lay 8 A (snd f)) rfs = map Some rls /\
  laid_out (map fst rfs) rls = position_fields A /\
  look "PartialPosition" header_structs = Some cfs /\ map (fun f => c_lay 8 A (snd f)) cfs = map Some cls /\
  laid_out (map fst cfs) cls = position_fields A.
Proof.
  intros A I.
  exists (match rust_lay 9 A (RNamed "PartialPosition") with Some l => l | None => Lay 0 0 [] end),
    (match look "PartialPosition" rust_types with Some (RReprC fs) => fs | _ => [] end),
    (match look "PartialPosition" header_structs with Some fs => fs | _ => [] end),
    (match look "PartialPosition" rust_types with
     | Some (RReprC fs) => match all_some (map (fun f => rust_lay 8 A (snd f)) fs) with Some ls => ls | None => [] end
     | _ => [] end),
    (match look "PartialPosition" header_structs with
     | Some fs => match all_some (map (fun f => c_lay 8 A (snd f)) fs) with Some ls => ls | None => [] end
     | _ => [] end).
  unfold word_alignments in I.
  repeat (destruct I as [<-|I]; [repeat (split; [first [vm_compute; reflexivity|apply sound_layoutb_true; vm_compute; reflexivity]|]);
    vm_compute; reflexivity|]). destruct I.
Qed.
