(** * Vocabulary of the properties of the namespace script.

    Nothing here depends on the modelled functions, only on the data types and
    on Python's [str.split()].  No proofs in this file. *)

From Coq Require Import String Ascii List Bool Arith Permutation.
From Verif Require Import Str Xml Tables.
Import ListNotations.
Local Open Scope string_scope.

(** [c] occurs in [s]. *)
Definition occurs (c s : string) : Prop := exists a b, s = a ++ c ++ b.

(** The namespace that the lists [A] (old) and [B] (new) give for [ns]: the one
    at the same position, the last position counting if [ns] is repeated in
    [A]; [ns] itself when it is not listed or has no counterpart. *)
Definition maps_to (A B : list string) (ns ns' : string) : Prop :=
  (exists i, nth_error A i = Some ns /\ nth_error B i = Some ns' /\
     forall j, i < j -> j < length B -> nth_error A j <> Some ns) \/
  (ns' = ns /\ forall i, i < length B -> nth_error A i <> Some ns).

(** A name with its namespace mapped and its local part kept. *)
Definition rename (f : string -> string) (q : qname) : qname :=
  QN (option_map f (q_ns q)) (q_local q).

(** The entries of a schemaLocation, namespaces at even positions. *)
Inductive entries_renamed (f : string -> string) : list string -> list string -> Prop :=
| er_nil : entries_renamed f [] []
| er_odd a : entries_renamed f [a] [f a]
| er_pair a b l l' : entries_renamed f l l' ->
    entries_renamed f (a :: b :: l) (f a :: b :: l').

(** One attribute: name mapped, value kept, except in a schemaLocation. *)
Definition attr_renamed (f : string -> string) (p p' : qname * string) : Prop :=
  fst p' = rename f (fst p) /\
  (fst p' = TAG_SCHEMALOCATION -> entries_renamed f (split_ws (snd p)) (split_ws (snd p'))) /\
  (fst p' <> TAG_SCHEMALOCATION -> snd p' = snd p).

(** The second document is the first with all names mapped by [f]: same
    structure, text, tails, comments; attributes in any order. *)
Inductive renamed (f : string -> string) : tree -> tree -> Prop :=
| rn_elem h ks h' ks' a :
    h_kind h = KElem -> h_kind h' = KElem ->
    h_tag h' = rename f (h_tag h) ->
    h_text h' = h_text h -> h_tail h' = h_tail h ->
    Forall2 (attr_renamed f) (h_attr h) a -> Permutation a (h_attr h') ->
    Forall2 (renamed f) ks ks' ->
    renamed f (Node h ks) (Node h' ks')
| rn_other h ks :
    h_kind h <> KElem -> renamed f (Node h ks) (Node h ks).

(** A name the XML parser can deliver. *)
Definition proper_name (q : qname) : Prop :=
  q_local q <> "" /\ ~ occurs "{" (q_local q) /\ ~ occurs "}" (q_local q) /\
  (forall ns, q_ns q = Some ns -> ns <> "" /\ ~ occurs "}" ns).

(** All elements have proper names and distinct attribute names, and the other
    nodes are comments and entity references (no processing instruction). *)
Inductive parsed : tree -> Prop :=
| pd_elem h ks : h_kind h = KElem -> proper_name (h_tag h) ->
    Forall proper_name (map fst (h_attr h)) -> NoDup (map fst (h_attr h)) ->
    Forall parsed ks -> parsed (Node h ks)
| pd_other h : h_kind h = KComment \/ h_kind h = KEntity -> parsed (Node h []).

(** A namespace that can be written in a schemaLocation and in a name. *)
Definition usable_ns (ns : string) : Prop :=
  ns <> "" /\ ~ occurs "}" ns /\
  forall a b c, ns = a ++ String c b -> is_space c = false.

(** No two attributes of an element get the same name. *)
Inductive no_clash (f : string -> string) : tree -> Prop :=
| nc_elem h ks : h_kind h = KElem ->
    NoDup (map (fun p => rename f (fst p)) (h_attr h)) ->
    Forall (no_clash f) ks -> no_clash f (Node h ks)
| nc_other h ks : h_kind h <> KElem -> no_clash f (Node h ks).

(** The last of the attributes that get the name [q] has the value [v]. *)
Definition last_named (f : string -> string) (attrs : list (qname * string)) (q : qname) (v : string) : Prop :=
  exists l1 k l2, attrs = (l1 ++ (k, v) :: l2)%list /\ rename f k = q /\
    forall p, In p l2 -> rename f (fst p) <> q.

(** As [renamed], but of several attributes that get the same name only the
    last one is left. *)
Inductive merged (f : string -> string) : tree -> tree -> Prop :=
| mg_elem h ks h' ks' :
    h_kind h = KElem -> h_kind h' = KElem ->
    h_tag h' = rename f (h_tag h) ->
    h_text h' = h_text h -> h_tail h' = h_tail h ->
    NoDup (map fst (h_attr h')) ->
    (forall q, In q (map fst (h_attr h')) <-> In q (map (fun p => rename f (fst p)) (h_attr h))) ->
    (forall q v v', In (q, v') (h_attr h') -> last_named f (h_attr h) q v ->
       (q = TAG_SCHEMALOCATION -> entries_renamed f (split_ws v) (split_ws v')) /\
       (q <> TAG_SCHEMALOCATION -> v' = v)) ->
    Forall2 (merged f) ks ks' ->
    merged f (Node h ks) (Node h' ks')
| mg_other h ks :
    h_kind h <> KElem -> merged f (Node h ks) (Node h ks).

(** The namespace [ns] is used by a name or listed in a schemaLocation. *)
Definition uses_ns (t : tree) (ns : string) : Prop :=
  exists anc h ks, In (anc, Node h ks) (visits [] t) /\ h_kind h = KElem /\
    (q_ns (h_tag h) = Some ns \/
     exists q v, In (q, v) (h_attr h) /\
       (q_ns q = Some ns \/ (q = TAG_SCHEMALOCATION /\ In ns (split_ws v)))).

(** [w] is [line] without the whitespace around it. *)
Definition all_space (s : string) : Prop := forall a b c, s = a ++ String c b -> is_space c = true.
Definition trimmed (line w : string) : Prop :=
  exists a b, line = a ++ w ++ b /\ all_space a /\ all_space b /\
    (forall c w', w = String c w' -> is_space c = false) /\
    (forall c w', w = w' ++ String c "" -> is_space c = false).

(** The namespaces listed by the lines of a file: one per line, blank lines and
    lines that start with "#" skipped. *)
Inductive lists : list string -> list string -> Prop :=
| li_nil : lists [] []
| li_blank line ls l : trimmed line "" -> lists ls l -> lists (line :: ls) l
| li_comment line w ls l : trimmed line (String "#" w) -> lists ls l -> lists (line :: ls) l
| li_entry line c w ls l : trimmed line (String c w) -> c <> "#"%char -> lists ls l ->
    lists (line :: ls) (String c w :: l).

(** The namespaces an argument of the script stands for: two names are
    predefined (the lists are those of the code), others are file names. *)
Inductive stands_for (files : string -> list string) : string -> list string -> Prop :=
| sf_1_2 : stands_for files "stix1.2" STIX_NS_1_2
| sf_1_2_1 : stands_for files "stix1.2.1" STIX_NS_1_2_1
| sf_file name l : name <> "stix1.2" -> name <> "stix1.2.1" -> lists (files name) l -> stands_for files name l.

(** The version number that goes with a predefined target. *)
Definition target_version (to_id : string) : option string :=
  if String.eqb to_id "stix1.2" then Some "1.2"
  else if String.eqb to_id "stix1.2.1" then Some "1.2.1" else None.

(** Only the value of the root's version attribute changes, if it has one and
    the target is predefined. *)
Definition same_but_version (v : string) (h h' : hdr) : Prop :=
  h_id h' = h_id h /\ h_kind h' = h_kind h /\ h_tag h' = h_tag h /\ h_decl h' = h_decl h /\
  h_text h' = h_text h /\ h_cdata h' = h_cdata h /\ h_tail h' = h_tail h /\
  Forall2 (fun p p' => fst p' = fst p /\ (fst p <> lq "version" -> snd p' = snd p)) (h_attr h) (h_attr h') /\
  attr_get (lq "version") (h_attr h') = Some v.
Definition restamped (to_id : string) (t t' : tree) : Prop :=
  match target_version to_id, attr_get (lq "version") (h_attr (head t)) with
  | Some v, Some _ => exists h', t' = Node h' (kids t) /\ same_but_version v (head t) h'
  | _, _ => t' = t
  end.

(** A processing instruction occurs in the document. *)
Definition has_instruction (t : tree) : Prop :=
  exists anc x, In (anc, x) (visits [] t) /\ h_kind (head x) = KPI.

(** Elements have proper names; other nodes, processing instructions included,
    have no children. *)
Inductive well_named : tree -> Prop :=
| wn_elem h ks : h_kind h = KElem -> proper_name (h_tag h) -> Forall proper_name (map fst (h_attr h)) ->
    Forall well_named ks -> well_named (Node h ks)
| wn_other h : h_kind h <> KElem -> well_named (Node h []).
