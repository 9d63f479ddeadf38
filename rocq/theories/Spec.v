(** * Vocabulary of the property statements.

    Nothing here depends on the modelled functions, only on the data types
    (trees, heap, results).  No proofs in this file. *)

From Coq Require Import String Ascii List Bool Arith NArith.
From Verif Require Import Str Xml Utils Base.
Import ListNotations.
Local Open Scope string_scope.

(** ** States and documents *)

(** A possible memory: no two nodes share an identity and identities not yet
    given out are larger than all those in use. *)
Definition wf_state (s : st) : Prop :=
  NoDup (flat_map ids (heap s)) /\
  (forall i, In i (flat_map ids (heap s)) -> i < next s).

(** [i] is the identity of the node whose subtree is [t] and whose ancestors
    are [anc] (nearest first), in some tree of the memory. *)
Definition node_at (s : st) (i : nat) (anc : list tree) (t : tree) : Prop :=
  exists T, In T (heap s) /\ In (anc, t) (visits [] T) /\ tid t = i.

(** The document argument [d] designates the element [t] in memory [s]: an
    element, the root of an element tree, or a file with content [t]. *)
Definition denotes (s : st) (d : docarg) (t : tree) : Prop :=
  match d with
  | DElem i | DTree i => exists anc, node_at s i anc t
  | DFile p => p = Some t
  end.

(** [i] is the root of a document whose content is [e]. *)
Definition document (s : st) (i : nat) (e : tree) : Prop :=
  exists T, In T (heap s) /\ tid T = i /\ erase T = e.

(** ** Versions *)

(** An argument that was actually given ([None] and [''] mean "not given"). *)
Definition given (x : option string) : option string :=
  match x with
  | Some EmptyString => None
  | _ => x
  end.

(** [a] comes strictly before [b] in the list of versions, oldest first. *)
Definition older (versions : list string) (a b : string) : Prop :=
  exists l1 l2 l3, versions = (l1 ++ a :: l2 ++ b :: l3)%list.

(** The versions from [a] (included) up to [b] (excluded). *)
Definition between (versions : list string) (a b : string) (l : list string) : Prop :=
  exists l1 l2 l3, versions = (l1 ++ l ++ b :: l3)%list /\ l = a :: l2.

(** The starting version: the argument, else what the document declares. *)
Definition stix_start (from : option string) (t : tree) : option string :=
  match given from with
  | Some a => Some a
  | None => given (attr_get (lq "version") (h_attr (head t)))
  end.

(** The version of a CybOX document as its three attributes say. *)
Definition cybox_declared (t : tree) : option string :=
  match given (attr_get (lq "cybox_major_version") (h_attr (head t))),
        given (attr_get (lq "cybox_minor_version") (h_attr (head t))),
        given (attr_get (lq "cybox_update_version") (h_attr (head t))) with
  | Some a, Some b, Some c => Some (a ++ "." ++ b ++ "." ++ c)
  | Some a, Some b, None => Some (a ++ "." ++ b)
  | _, _, _ => None
  end.

Definition cybox_start (from : option string) (t : tree) : option string :=
  match given from with
  | Some a => Some a
  | None => cybox_declared t
  end.

(** ** Results: the nodes removed and the ids remapped, whatever the Python
    collection type. *)
Definition removed_nodes (r : results) : list nat :=
  match r_removed r with CTuple l | CList l => l | CDict _ => [] end.
Definition remapped_ids (r : results) : dict (list nat) :=
  match r_remapped r with CDict d => d | _ => [] end.

(** ** Version numbers (properties on comparison) *)

(** A non-empty string of decimal digits and its value. *)
Inductive numeral : string -> N -> Prop :=
| num_digit k : k <= 9 -> numeral (String (ascii_of_nat (48 + k)) "") (N.of_nat k)
| num_more s n k : numeral s n -> k <= 9 ->
    numeral (s ++ String (ascii_of_nat (48 + k)) "") (n * 10 + N.of_nat k).

(** An optional pre-release tag such as "a1" or "b20". *)
Inductive pre_release : string -> option (ascii * N) -> Prop :=
| pre_none : pre_release "" None
| pre_a s n : numeral s n -> pre_release ("a" ++ s) (Some ("a"%char, n))
| pre_b s n : numeral s n -> pre_release ("b" ++ s) (Some ("b"%char, n)).

(** Python's regular expression end tolerates one final newline. *)
Inductive line_end : string -> Prop :=
| le_none : line_end ""
| le_nl : line_end (String (ascii_of_nat 10) "").

(** A well-formed version string denotes three numbers and a tag; a missing
    third number counts as 0. *)
Inductive version_number : string -> N * N * N -> option (ascii * N) -> Prop :=
| version_2 a b p e x y pre :
    numeral a x -> numeral b y -> pre_release p pre -> line_end e ->
    version_number (a ++ "." ++ b ++ p ++ e) (x, y, 0%N) pre
| version_3 a b c p e x y z pre :
    numeral a x -> numeral b y -> numeral c z -> pre_release p pre -> line_end e ->
    version_number (a ++ "." ++ b ++ "." ++ c ++ p ++ e) (x, y, z) pre.

(** Numeric order on the three numbers, most significant first. *)
Definition num_lt (v w : N * N * N) : Prop :=
  let '(a, b, c) := v in let '(x, y, z) := w in
  (a < x)%N \/ (a = x /\ (b < y)%N) \/ (a = x /\ b = y /\ (c < z)%N).

(** A pre-release precedes the release; "a" precedes "b". *)
Definition pre_lt (v w : option (ascii * N)) : Prop :=
  match v, w with
  | Some _, None => True
  | Some (c, n), Some (d, m) => (c = "a"%char /\ d = "b"%char) \/ (c = d /\ (n < m)%N)
  | None, _ => False
  end.

Definition version_lt (v w : (N * N * N) * option (ascii * N)) : Prop :=
  num_lt (fst v) (fst w) \/ (fst v = fst w /\ pre_lt (snd v) (snd w)).

(** ** Documented errors of an update *)
Inductive documented : exn -> Prop :=
| doc_update disallowed duplicates : documented (UpdateError disallowed duplicates)
| doc_unknown : documented UnknownVersionError
| doc_invalid node expected found : documented (InvalidVersionError node expected found).
