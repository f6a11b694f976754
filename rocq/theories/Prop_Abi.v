(** Property theorems C56, C57: the C header against the exported functions *)
From Verif Require Import TAbi.
From Coq Require Import String List.

(** C56: the header declares exactly the exported functions, each once. *)
Theorem c56_names :
  NoDup (map re_name rust_exports) /\ NoDup (map cp_name header_protos) /\
  (forall n, In n (map re_name rust_exports) <-> In n (map cp_name header_protos)) /\
  length rust_exports = 84%nat.
Proof. exact c56_names_pf. Qed.
Print Assumptions c56_names.
Example c56_names_ex : In "PartialPosition_make_compact_move"%string (map re_name rust_exports) /\
  In "PartialPosition_make_compact_move"%string (map cp_name header_protos) /\
  ~ In "PartialPosition_piece_set"%string (map cp_name header_protos).
Proof.
  assert (E : forall n l, existsb (String.eqb n) l = true -> In n l).
  { intros n l e. apply existsb_exists in e. destruct e as (m & I & e). apply String.eqb_eq in e. now subst. }
  split; [apply E; vm_compute; reflexivity|]. split; [apply E; vm_compute; reflexivity|].
  intros I. assert (F : existsb (String.eqb "PartialPosition_piece_set") (map cp_name header_protos) = true)
    by (apply existsb_exists; exists "PartialPosition_piece_set"%string; split; [exact I|apply String.eqb_refl]).
  vm_compute in F. discriminate F.
Qed.

(** C57: a call through the header passes and returns what the Rust function takes and gives, on every target (except for the two functions of the next theorem).
    Full statement: [forall A r p, In A word_alignments -> In r rust_exports -> In p header_protos -> re_name r = cp_name p -> same_call A r p]. *)
Theorem c57_calls_partial : forall A r p, In A word_alignments -> In r rust_exports -> In p header_protos ->
  re_name r = cp_name p -> ~ uncallable (re_name r) -> same_call A r p.
Proof. exact c57_calls_partial_pf. Qed.
Print Assumptions c57_calls_partial.
Example c57_calls_partial_ex :
  rust_shape 9 8 (RMutRef (RNamed "Bitboard")) = Pointer true (ToLay (Lay 16 8 [(0, 8); (8, 8)])) /\
  c_shape 9 8 (CPtr (CStruct "Bitboard")) = Pointer true (ToLay (Lay 16 8 [(0, 8); (8, 8)])) /\
  c_shape 9 4 (CName "OptionCompactMove") = Int 2 false /\ rust_shape 9 4 (RRef (RNamed "Position")) = Pointer false (ToOpaque "Position") /\
  ~ uncallable "Bitboard_pop".
Proof. repeat split. intros [E|E]; discriminate E. Qed.

(** C57: two functions cannot be called through the header: it gives them a result of an incomplete struct type, where Rust returns one byte.
    Full statement: [forall A r p, In A word_alignments -> In r rust_exports -> In p header_protos -> re_name r = cp_name p -> same_call A r p]. *)
Theorem c57_calls_refuted : forall A n, In A word_alignments -> uncallable n -> exists r p,
  In r rust_exports /\ In p header_protos /\ re_name r = n /\ cp_name p = n /\
  rust_shape 9 A (re_ret r) = Int 1 false /\ c_shape 9 A (cp_ret p) = Unknown /\ ~ same_call A r p /\
  map (rust_shape 9 A) (re_args r) = map (c_shape 9 A) (cp_args p).
Proof. exact c57_calls_refuted_pf. Qed.
Print Assumptions c57_calls_refuted.
Example c57_calls_refuted_ex : uncallable "Square_shift" /\ look "Option_Square" header_structs = None /\
  c_shape 9 8 (CStruct "Option_Square") = Unknown /\ rust_shape 9 8 (ROption (RNamed "Square")) = Int 1 false.
Proof. split; [right; reflexivity|]. repeat split. Qed.

(** C56: the enumeration constants of the header are the discriminants, and there are no others. *)
Theorem c56_constants :
  (forall c, look (color_name c) header_constants = Some (color_as_u8 c)) /\
  (forall r, look (resolution_name r) header_constants = Some (gr_as_u8 r)) /\
  (forall i, look (illegal_name i) header_constants = Some (imk_as_u8 i)) /\
  (forall k, look (kind_name k) header_constants = Some (pk_as_u8 k)) /\
  NoDup (map fst header_constants) /\
  (forall n v, In (n, v) header_constants ->
     (exists c, n = color_name c) \/ (exists r, n = resolution_name r) \/ (exists i, n = illegal_name i) \/ (exists k, n = kind_name k)).
Proof. exact c56_constants_pf. Qed.
Print Assumptions c56_constants.
Example c56_constants_ex : look "ProBishop" header_constants = Some 13 /\ kind_name ProBishop = "ProBishop"%string /\ look "Sente" header_constants = None.
Proof. repeat split. Qed.

(** C56: the macros of the header are the associated constants. *)
Theorem c56_macros :
  look "Color_NUM" header_macros = Some COLOR_NUM /\ look "PieceKind_OPTION_NUM" header_macros = Some PIECE_KIND_OPTION_NUM /\
  look "Square_NUM" header_macros = Some SQUARE_NUM /\ look "Piece_NUM" header_macros = Some PIECE_NUM /\
  look "Hand_NUM_HAND_PIECES" header_macros = Some NUM_HAND_PIECES.
Proof. exact c56_macros_pf. Qed.
Print Assumptions c56_macros.
Example c56_macros_ex : SQUARE_NUM = 81 /\ PIECE_NUM = 31 /\ look "PieceKind_NUM" header_macros = None.
Proof. repeat split. Qed.

(** C56: both sides lay out [PartialPosition] the same way, at these offsets; scalars are aligned and do not overlap. *)
Theorem c56_struct : forall A, In A word_alignments -> exists l rfs cfs rls cls,
  rust_lay 9 A (RNamed "PartialPosition") = Some l /\ c_lay 9 A (CStruct "PartialPosition") = Some l /\
  lay_size l = position_size A /\ lay_align l = position_align A /\ sound_layout A l /\
  look "PartialPosition" rust_types = Some (RReprC rfs) /\ map (fun f => rust_lay 8 A (snd f)) rfs = map Some rls /\
  laid_out (map fst rfs) rls = position_fields A /\
  look "PartialPosition" header_structs = Some cfs /\ map (fun f => c_lay 8 A (snd f)) cfs = map Some cls /\
  laid_out (map fst cfs) cls = position_fields A.
Proof. exact c56_struct_pf. Qed.
Print Assumptions c56_struct.
Example c56_struct_ex : In 8 word_alignments /\ position_size 8 = 368 /\ look "board" (position_fields 8) = Some (20, 81) /\
  look "piece_bb" (position_fields 4) = Some (136, 224).
Proof. split; [simpl; tauto|]. repeat split. Qed.
