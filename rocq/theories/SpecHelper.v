(** * What the helper classes do for someone who writes an updater: any
    vocabulary, any translation, any optional field.  No proofs in this file. *)

From Coq Require Import String Ascii List Bool Arith.
From Verif Require Import Str Xml XPath Utils Base Spec SpecDoc SpecPass SpecStep SpecUpdate SpecTrace SpecField SpecLocation SpecRead SpecFault SpecName.
Import ListNotations.
Local Open Scope string_scope.

(** The document [T] of memory [s] has the content [e] afterwards; its root is
    the same node, and the other documents in memory are untouched. *)
Definition becomes (s : st) (T : tree) (s' : st) (e : tree) : Prop :=
  wf_state s' /\ (exists T', In T' (heap s') /\ tid T' = tid T /\ erase T' = e) /\
  forall X, In X (heap s) -> X <> T -> In X (heap s').

(** The same tree of nodes; [R] says what becomes of each. *)
Inductive node_by_node (R : list tree -> tree -> hdr -> Prop) : list tree -> tree -> tree -> Prop :=
| nbn anc h ks h' ks' :
    R anc (Node h ks) h' -> Forall2 (node_by_node R (Node h ks :: anc)) ks ks' ->
    node_by_node R anc (Node h ks) (Node h' ks').

(** Below the root the outermost nodes chosen by [P] are replaced: [R] says by
    what.  All other nodes stay as they are. *)
Inductive supplanted (P : list tree -> tree -> bool) (R : tree -> list tree -> Prop)
  : list tree -> tree -> tree -> Prop :=
| sup_node anc h ks ks' :
    supplanted_all P R (Node h ks :: anc) ks ks' -> supplanted P R anc (Node h ks) (Node h ks')
with supplanted_all (P : list tree -> tree -> bool) (R : tree -> list tree -> Prop)
  : list tree -> list tree -> list tree -> Prop :=
| sup_none anc : supplanted_all P R anc [] []
| sup_chosen anc k l ks ks' :
    P anc k = true -> R k l -> supplanted_all P R anc ks ks' ->
    supplanted_all P R anc (k :: ks) (l ++ ks')%list
| sup_other anc k k' ks ks' :
    P anc k = false -> supplanted P R anc k k' -> supplanted_all P R anc ks ks' ->
    supplanted_all P R anc (k :: ks) (k' :: ks').

(** ** XPath: [l] is the expression with its prefixes resolved.  Its parts
    all start at the document, or all at the context node. *)
Definition usable (ns : nsmap_t) (path : string) (l : list ralt) : Prop :=
  xcompile ns path = Some l /\
  ((forall a, In a l -> alt_abs a = true) \/ (forall a, In a l -> alt_abs a = false)).

Definition chosen (l : list ralt) (anc : list tree) (x : tree) : bool := match_path l (anc, x).

(** ** Vocabularies *)

(** [x] is below the root and has a type which the vocabulary [v] replaces;
    its prefix is [alias]. *)
Definition term_of (v : vocab) (anc : list tree) (x : tree) (alias : string) : Prop :=
  anc <> [] /\ is_elem x = true /\
  exists value name, attr_of xsi_type (head x) = Some value /\ split_char ":" value = [alias; name] /\
    In name (v_old_types v) /\ env_get (Some alias) (env_of anc x) = Some (v_namespace v).

(** [x] is below the root and its type cannot be read: not of the form
    prefix:name, or the prefix is not declared. *)
Definition unreadable (anc : list tree) (x : tree) : Prop :=
  anc <> [] /\ is_elem x = true /\
  exists value, attr_of xsi_type (head x) = Some value /\
    forall alias name, split_char ":" value = [alias; name] -> env_get (Some alias) (env_of anc x) = None.

(** The element after the update. *)
Definition renewed (v : vocab) (alias : string) (h h' : hdr) : Prop :=
  h_kind h' = h_kind h /\ h_tag h' = h_tag h /\ h_decl h' = h_decl h /\ h_tail h' = h_tail h /\
  attr_of xsi_type h' = Some (alias ++ ":" ++ v_new_type v) /\
  replaced_by (v_reference v) (attr_of (lq "vocab_reference") h) (attr_of (lq "vocab_reference") h') /\
  replaced_by (v_name v) (attr_of (lq "vocab_name") h) (attr_of (lq "vocab_name") h') /\
  (forall k, ~ In k vocabulary_attributes -> attr_of k h' = attr_of k h) /\
  h_text h' = option_map (fun term => lookup term term (v_terms v)) (h_text h).

Definition vocabulary_rule (v : vocab) (anc : list tree) (x : tree) (h' : hdr) : Prop :=
  (forall alias, term_of v anc x alias -> renewed v alias (head x) h') /\
  ((forall alias, ~ term_of v anc x alias) -> h' = head x).

(** A type that cannot be read, or a term with an attribute for which the class
    has a tuple instead of a text. *)
Definition vocabulary_fault (v : vocab) (t : tree) : Prop :=
  exists anc x, In (anc, x) (visits [] t) /\
    (unreadable anc x \/
     exists alias, term_of v anc x alias /\
       ((exists w, v_reference v = PTuple w /\ attr_of (lq "vocab_reference") (head x) <> None) \/
        (exists w, v_name v = PTuple w /\ attr_of (lq "vocab_name") (head x) <> None))).

(** Two classes that do not get in each other's way. *)
Definition apart (v w : vocab) : Prop :=
  v_namespace v <> v_namespace w \/
  ((forall n, In n (v_old_types v) -> ~ In n (v_old_types w)) /\
   ~ In (v_new_type v) (v_old_types w) /\ ~ In (v_new_type w) (v_old_types v)).

Definition unrelated (vs : list vocab) : Prop :=
  (forall v, In v vs -> split_char ":" (v_new_type v) = [v_new_type v]) /\ ForallOrdPairs apart vs.

(** ** Translations *)

(** The attribute [k] of the new element: only where the old one has it; the
    value of the class if there is one, else the old one if they are copied. *)
Definition new_attribute (copy : bool) (over : list (qname * string)) (h : hdr) (k : qname) : option string :=
  match attr_of k h, attr_get k over with
  | None, _ => None
  | Some _, Some w => Some w
  | Some v, None => if copy then Some v else None
  end.

(** The new element: no children, no declarations, no text behind it; text and
    attributes are those of the first node which [value] chooses in [x]. *)
Definition translation (value : list ralt) (tag : option qname) (copy : bool) (over : list (qname * string))
  (x : tree) (l : list tree) : Prop :=
  exists anc y others h', filter (fun c => chosen value (fst c) (snd c)) (visits [] x) = (anc, y) :: others /\
    l = [Node h' []] /\
    h_kind h' = KElem /\ h_tag h' = match tag with Some q => q | None => h_tag (head x) end /\
    h_decl h' = [] /\ h_tail h' = None /\ h_text h' = h_text (head y) /\
    forall k, attr_of k h' = new_attribute copy over (head y) k.

(** ** Optional attributes *)

(** A listed attribute is there and empty. *)
Definition has_empty (attrs : list qname) (h : hdr) : Prop :=
  exists a, In a attrs /\ attr_of a h = Some "".

(** Everything but the attributes, which [f] gives. *)
Definition attributes_become (f : qname -> option string) (h h' : hdr) : Prop :=
  same_but_attributes h h' /\ forall k, attr_of k h' = f k.

(** What the class promises: the empty ones of the listed attributes go. *)
Definition empty_ones_go (l : list ralt) (attrs : list qname) (anc : list tree) (x : tree) (h' : hdr) : Prop :=
  exists f, attributes_become f (head x) h' /\
    forall k, (chosen l anc x = true /\ In k attrs /\ attr_of k (head x) = Some "" -> f k = None) /\
              (~ (chosen l anc x = true /\ In k attrs /\ attr_of k (head x) = Some "") -> f k = attr_of k (head x)).

(** What it does: all listed attributes go when one of them is empty. *)
Definition all_go (l : list ralt) (attrs : list qname) (anc : list tree) (x : tree) (h' : hdr) : Prop :=
  (chosen l anc x = true /\ has_empty attrs (head x) ->
     exists f, attributes_become f (head x) h' /\
       forall k, (In k attrs -> f k = None) /\ (~ In k attrs -> f k = attr_of k (head x))) /\
  (~ (chosen l anc x = true /\ has_empty attrs (head x)) -> h' = head x).

(** ** Disallowed fields *)

(** [x] is of one of the types of the class. *)
Definition of_context (types : dict string) (c : ctx) : bool :=
  typed c && match type_of c with
             | Ok (_, name, ns) => ostr_eqb (dict_get name types) (Some ns)
             | Err _ => false
             end.

(** ** Namespaces *)

(** As [moved], for a class that also gives up the namespaces [drop]. *)
Definition moved_without (drop : list string) (m : dict string) (anc : list tree) (x : tree) (h' : hdr) : Prop :=
  match successor m x with
  | Some new =>
      h_kind h' = KElem /\ h_tag h' = QN (Some new) (q_local (h_tag (head x))) /\
      (forall p, env_get p (h_decl h') =
         match env_get p (env_of anc x) with
         | Some ns => if mem_str ns drop then None else Some (lookup ns ns m)
         | None => None
         end) /\
      (forall k, attr_of k h' = attr_of k (head x)) /\
      h_text h' = (match kids x with [] => h_text (head x) | _ => None end) /\ h_tail h' = None
  | None => h' = head x
  end.

(** An element (with only elements above) that is to move, has no children, and
    whose text cannot be written as one CDATA section although it had one. *)
Definition cannot_move (m : dict string) (t : tree) : Prop :=
  exists anc x, In (anc, x) (visits [] t) /\ among_elements anc /\ successor m x <> None /\ kids x = [] /\ broken_section (head x).
