(** Specification of maps: what was put in last is found, told from the calls alone. *)
From Coq Require Export Sorting.Sorted.
From Verif Require Export SpecBase SpecOrd SpecPos SpecRepeat MCollections.

(** [c] says something new about the key [k]; [same] says which keys are taken for one another *)
Definition touches {K V} (same : K -> K -> Prop) (c : map_call K V) (k : K) : Prop :=
  match c with MInsert k' _ | MRemove k' => same k' k | MGet _ | MKeys => False end.
(** after the calls [past] the map has [v] under [k]: it was inserted, and the key was not touched since *)
Definition held {K V} (same : K -> K -> Prop) (past : list (map_call K V)) (k : K) (v : V) : Prop :=
  exists before k' after, past = before ++ MInsert k' v :: after /\ same k' k /\ forall c, In c after -> ~ touches same c k.
(** [ks] has exactly one of the keys that are taken for one another where there is a value *)
Definition keys_of {K V} (valid : K -> Prop) (same : K -> K -> Prop) (past : list (map_call K V)) (ks : list K) : Prop :=
  Forall valid ks /\ ForallOrdPairs (fun a b => ~ same a b) ks /\
  forall k, valid k -> (exists v, held same past k v) <-> exists k', In k' ks /\ same k' k.
(** the right answer to a call after [past]: [insert] and [remove] tell the value before; [keys] has the keys in the order [ord] *)
Definition right_answer {K V} (valid : K -> Prop) (same ord : K -> K -> Prop) (past : list (map_call K V)) (c : map_call K V) (a : map_answer K V) : Prop :=
  match c, a with
  | MInsert k _, AValue o | MRemove k, AValue o | MGet k, AValue o => forall v, o = Some v <-> held same past k v
  | MKeys, AKeys ks => keys_of valid same past ks /\ StronglySorted ord ks
  | _, _ => False
  end.
Definition valid_key {K V} (valid : K -> Prop) (c : map_call K V) : Prop :=
  match c with MInsert k _ | MRemove k | MGet k => valid k | MKeys => True end.
(** the answers to all the calls are right *)
Definition right_answers {K V} (valid : K -> Prop) (same ord : K -> K -> Prop) (cs : list (map_call K V)) (l : list (map_answer K V)) : Prop :=
  length l = length cs /\
  forall before c after a, cs = before ++ c :: after -> nth_error l (length before) = Some a -> right_answer valid same ord before c a.

(** ** Types whose values are good keys *)
(** in a [HashMap] with any hasher and any number of buckets: values are told apart *)
Definition good_hash_key {K} (valid : K -> Prop) (eqb : K -> K -> bool) (hash : K -> list htok) : Prop :=
  forall (V : Type) H grow (cs : list (map_call K V)), Forall (valid_key valid) cs ->
    right_answers valid eq (fun _ _ => True) cs (hash_session eqb hash H grow cs).
(** a tree put into another shape *)
Definition shapes {K V} (shape : tree K V -> tree K V) : Prop := forall t, bt_iter (shape t) = bt_iter t.
(** in a [BTreeMap] of any shape: keys are taken for one another as [same] says, and come in the order [cmp] *)
Definition tree_key {K} (valid : K -> Prop) (same : K -> K -> Prop) (cmp : K -> K -> comparison) : Prop :=
  forall (V : Type) shape (cs : list (map_call K V)), shapes shape -> Forall (valid_key valid) cs ->
    right_answers valid same (fun a b => cmp a b = Lt) cs (tree_session cmp shape cs).
Definition good_tree_key {K} (valid : K -> Prop) (cmp : K -> K -> comparison) : Prop := tree_key valid eq cmp.

(** ** Positions *)
(** [s] and [t] show the same side to move, ply number, board, hands and last move; their king positions may differ *)
Definition alike (P : profile) (s t : partial_position) : Prop :=
  exists a b, sees P s a /\ sees P t b /\ a_side a = a_side b /\ a_ply a = a_ply b /\ (forall sq, valid_square sq -> a_board a sq = a_board b sq) /\
    (forall c k, In k hand_kinds -> a_hand a c k = a_hand b c k) /\ a_last a = a_last b.
(** the positions of a game, from [s] on *)
Inductive line (P : profile) : partial_position -> list move -> list partial_position -> Prop :=
| line_end s : line P s [] [s]
| line_move s m s' ms ss : valid_move m -> make_move P m s = Ret (s', Some tt) -> line P s' ms ss -> line P s (m :: ms) (s :: ss).
(** the number of elements equal to [x]: [n] *)
Inductive times {A : Type} (x : A) : list A -> N -> Prop :=
| times_nil : times x [] 0
| times_same l n : times x l n -> times x (x :: l) (n + 1)
| times_other y l n : y <> x -> times x l n -> times x (y :: l) n.
