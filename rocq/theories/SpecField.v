(** * Words for what a step does to single fields.  No proofs in this file. *)

From Coq Require Import String Ascii List Bool Arith.
From Verif Require Import Str Xml Utils Base Spec SpecDoc SpecPass SpecStep SpecUpdate SpecTrace.
Import ListNotations.
Local Open Scope string_scope.

(** The value of attribute [k]. *)
Definition attr_of (k : qname) (h : hdr) : option string := attr_get k (h_attr h).

(** No element has two attributes of the same name (every XML document is
    like this). *)
Definition distinct_attributes (t : tree) : Prop :=
  forall x, In x (nodes t) -> NoDup (map fst (h_attr (head x))).

(** ** Versions *)

(** The version of indicators and of everything else after a STIX step. *)
Definition next_versions (v : string) : option (string * string) :=
  dict_get v [("1.0", ("2.0.1", "1.0.1")); ("1.0.1", ("2.1", "1.1"));
              ("1.1", ("2.1.1", "1.1.1")); ("1.1.1", ("2.2", "1.2"))].

(** [h] is the header of a package or of a versioned component. *)
Definition versioned (h : hdr) : bool := carries_version [] (Node h []).

Definition brought_to (indicators others : string) (h h' : hdr) : Prop :=
  attr_of (lq "version") h'
  = if versioned h
    then Some (if String.eqb (q_local (h_tag h)) "Indicator" then indicators else others)
    else attr_of (lq "version") h.

(** In the step from 1.2 only the root (label 1) gets a version. *)
Definition root_brought (h h' : hdr) : Prop :=
  attr_of (lq "version") h' = if Nat.eqb (h_id h) 1 then Some "1.2.1" else attr_of (lq "version") h.

(** ** The attributes a step works on *)
Definition vocabulary_attributes : list qname := [TAG_XSI_TYPE; lq "vocab_reference"; lq "vocab_name"].
Definition cybox_version_attributes : list qname :=
  [lq "cybox_major_version"; lq "cybox_minor_version"; lq "cybox_update_version"].

(** ** Vocabularies *)

(** The vocabularies with a new version in a step. *)
Definition stix_vocabularies (v : string) : list vocab :=
  match dict_get v
    [("1.0", [event_type; motivation_1_0_1; operational_support]);
     ("1.0.1", [object_relationship; tool_type; action_name; motivation_1_1; indicator_type]);
     ("1.1", [availability_loss]); ("1.1.1", [discovery_method])] with
  | Some l => l
  | None => []
  end.

Definition cybox_vocabularies (v : string) : list vocab :=
  match dict_get v [("2.0", [event_type]); ("2.0.1", [object_relationship; tool_type; action_name])] with
  | Some l => l
  | None => []
  end.

(** A reference or name where there was one is replaced by the new one.  A new
    one that is not a string cannot be stored: then there was none before. *)
Definition replaced_by (new : pystr) (before after : option string) : Prop :=
  match before, new with
  | None, _ => after = None
  | Some _, PStr s => after = Some s
  | Some _, PTuple _ => False
  end.

(** The attribute that names the vocabulary. *)
Definition xsi_type : qname := qn "http://www.w3.org/2001/XMLSchema-instance" "type".

(** The attributes of a value of an outdated vocabulary: the new type with the
    old prefix, the new reference and name where there was one.  Other nodes
    keep theirs. *)
Definition retyped (vs : list vocab) (anc : list tree) (x : tree) (h' : hdr) : Prop :=
  (forall v, In v vs -> outdated v (anc, x) = true ->
     (exists alias name ns, type_of (anc, x) = Ok (alias, name, ns) /\
        attr_of xsi_type h' = Some (alias ++ ":" ++ v_new_type v)) /\
     replaced_by (v_reference v) (attr_of (lq "vocab_reference") (head x)) (attr_of (lq "vocab_reference") h') /\
     replaced_by (v_name v) (attr_of (lq "vocab_name") (head x)) (attr_of (lq "vocab_name") h')) /\
  ((forall v, In v vs -> outdated v (anc, x) = false) ->
   forall k, In k vocabulary_attributes -> attr_of k h' = attr_of k (head x)).

(** Its text: a misspelt term is corrected, [old] being the text before. *)
Definition reworded (vs : list vocab) (anc : list tree) (x : tree) (old : option string) (h' : hdr) : Prop :=
  (forall v, In v vs -> outdated v (anc, x) = true ->
     h_text h' = option_map (fun s => lookup s s (v_terms v)) old) /\
  ((forall v, In v vs -> outdated v (anc, x) = false) -> h_text h' = old).

(** No element with one of the names declares namespaces. *)
Definition declares_nothing (qs : list qname) (t : tree) : Prop :=
  forall x, In x (nodes t) -> named_in qs x = true -> h_decl (head x) = [].

(** ** Text *)

(** The text after the list values were rewritten: once for every Properties
    element of an Object above. *)
Definition list_text (anc : list tree) (x : tree) : option string :=
  if is_elem x then h_text (repeat_edit (properties_above (cybox "Object") (cybox "Properties") anc) (head x))
  else h_text (head x).

(** The text before the vocabularies are looked at: the steps from STIX 1.0 and
    CybOX 2.0 rewrite list values first. *)
Definition text_before (v : string) (anc : list tree) (x : tree) : option string :=
  if existsb (String.eqb v) ["1.0"; "2.0"] then list_text anc x else h_text (head x).

(** The element is in a namespace that the step replaces. *)
Definition in_driver_namespace (x : tree) : bool :=
  ostr_eqb (q_ns (h_tag (head x))) (Some "http://cybox.mitre.org/objects#WinDriverObject-2").

(** What becomes of a node with respect to the vocabularies [vs].  The text of
    the elements that the steps from STIX 1.0.1 and CybOX 2.0.1 move to another
    namespace is left open. *)
Definition vocabulary_value (v : string) (vs : list vocab) (anc : list tree) (x : tree) (h' : hdr) : Prop :=
  retyped vs anc x h' /\
  (existsb (String.eqb v) ["1.0.1"; "2.0.1"] && in_driver_namespace x = false ->
   reworded vs anc x (text_before v anc x) h').

(** ** The attributes a STIX step works on, vocabularies aside *)
Definition stix_attributes (v : string) : list qname :=
  (TAG_SCHEMALOCATION :: lq "version"
   :: (if existsb (String.eqb v) ["1.0"; "1.0.1"] then cybox_version_attributes else []))%list.

Definition cybox_attributes : list qname := TAG_SCHEMALOCATION :: cybox_version_attributes.

(** ** CybOX versions *)

Definition cybox_version_of (h : hdr) : list (option string) :=
  [attr_of (lq "cybox_major_version") h; attr_of (lq "cybox_minor_version") h; attr_of (lq "cybox_update_version") h].

(** The elements that declare the CybOX version of what they contain, and the
    version they declare after a step. *)
Definition cybox_marks (v : string) : option ((list tree -> tree -> bool) * list (option string)) :=
  dict_get v
    [("2.0", (anywhere [cybox "Observables"], [Some "2"; Some "0"; Some "1"]));
     ("2.0.1", (anywhere [cybox "Observables"], [Some "2"; Some "1"; None]));
     ("1.0", (anywhere [stix "Observables"; incident "Structured_Description"; ttp "Observable_Characterization"],
              [Some "2"; Some "0"; Some "1"]));
     ("1.0.1", (any_inside [stix "Observables"; incident "Structured_Description"; ttp "Observable_Characterization";
                            ttp "Targeted_Technical_Details"; coa "Parameter_Observables"],
                [Some "2"; Some "1"; None]))].

(** Such an element declares the new version; other nodes keep what they say. *)
Definition cybox_marked (mark : list tree -> tree -> bool) (new : list (option string))
  (anc : list tree) (x : tree) (h' : hdr) : Prop :=
  cybox_version_of h' = if mark anc x then new else cybox_version_of (head x).
