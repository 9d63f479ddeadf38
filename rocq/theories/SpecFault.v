(** * When a step fails with an undocumented exception.  No proofs in this
    file. *)

From Coq Require Import String Ascii List Bool Arith NArith.
From Verif Require Import Str Xml Utils Base Spec SpecDoc SpecPass SpecStep SpecTrace SpecRead.
Import ListNotations.
Local Open Scope string_scope.

(** [x] is a node of [t] whose xsi:type is [v]. *)
Definition has_type (t x : tree) (v : string) : Prop :=
  In x (nodes t) /\ attr_get TAG_XSI_TYPE (h_attr (head x)) = Some v.

(** Every xsi:type is a prefix and a name. *)
Definition types_readable (t : tree) : Prop :=
  forall x v, has_type t x v -> exists a n, split_char ":" v = [a; n].

(** Every prefix used in an xsi:type is declared on the root. *)
Definition prefixes_on_root (t : tree) : Prop :=
  forall x v a n, has_type t x v -> split_char ":" v = [a; n] -> exists ns, In (Some a, ns) (h_decl (head t)).

(** No reference is given for a value of one of the vocabularies whose new
    reference is a tuple in the code. *)
Definition no_broken_reference (t : tree) : Prop :=
  forall x v a n, has_type t x v -> split_char ":" v = [a; n] ->
  In n ["ObjectRelationshipVocab-1.0"; "PlanningAndOperationalSupportVocab-1.0"] ->
  has_attr (lq "vocab_reference") (head x) = false.

(** Such a value, at a node: its type is an old version of a vocabulary that the
    step from [v] updates and whose new reference is a tuple in the code. *)
Definition tuple_references (v : string) : list vocab :=
  match dict_get v [("1.0", [operational_support]); ("1.0.1", [object_relationship]); ("2.0.1", [object_relationship])] with
  | Some l => l
  | None => []
  end.

Definition broken_value (v : string) (anc : list tree) (x : tree) : Prop :=
  (exists w, In w (tuple_references v) /\ outdated w (anc, x) = true) /\
  has_attr (lq "vocab_reference") (head x) = true.

(** DNT and Vary fields contain a URI value. *)
Definition values_present (t : tree) : Prop :=
  forall x, In x (nodes t) -> named_in [http_name "DNT"; http_name "Vary"] x = true ->
  exists k, In k (kids x) /\ named (object_name "URI" "Value") k = true.

(** Contributors contain no comment or processing instruction. *)
Definition contributors_only (t : tree) : Prop :=
  forall x k, In x (nodes t) -> named (common "Contributors") x = true -> In k (kids x) -> is_elem k = true.

(** The text of a source has no tags, and an XML parser can read it. *)
Definition sources_plain (t : tree) : Prop :=
  forall x, In x (nodes t) -> named_in [common "Source"; indicator "Source"] x = true ->
  forall s, h_text (head x) = Some s -> without_tags s /\ exists name, source_name (Some s) name.

(** Versions are version numbers. *)
Definition versions_readable (t : tree) : Prop :=
  forall x s, In x (nodes t) ->
  named (stix "STIX_Package") x = true /\ attr_get (lq "version") (h_attr (head x)) = Some s \/ cybox_declared x = Some s ->
  s = "" \/ exists v pre, version_number s v pre.

(** The text of [h] has a CDATA section and the three characters that end one.
    (It takes two sections to write this, or one beside an escaped "]]&gt;".) *)
Definition broken_section (h : hdr) : Prop :=
  h_cdata h = true /\ exists a b, h_text h = Some (a ++ "]]>" ++ b).

Definition sections_whole (t : tree) : Prop := forall x, In x (nodes t) -> ~ broken_section (head x).

(** As [values_present], with a value that has no xsi:type (so that cleaning leaves it
    alone). *)
Definition plain_values_present (t : tree) : Prop :=
  forall x, In x (nodes t) -> named_in [http_name "DNT"; http_name "Vary"] x = true ->
  exists k, In k (kids x) /\ named (object_name "URI" "Value") k = true /\ has_attr TAG_XSI_TYPE (head k) = false.

(** A document without the defects that make a step fail. *)
Record acceptable (t : tree) : Prop := Acceptable {
  ok_types : types_readable t;
  ok_prefixes : prefixes_on_root t;
  ok_references : no_broken_reference t;
  ok_values : values_present t;
  ok_contributors : contributors_only t;
  ok_sources : sources_plain t;
  ok_versions : versions_readable t;
  ok_sections : sections_whole t
}.

(** What a document must be like not to make a step raise [e]. *)
Definition tolerable (e : exn) (t : tree) : Prop :=
  match e with
  | ValueError => types_readable t /\ versions_readable t /\ sources_plain t /\ sections_whole t
  | KeyError => prefixes_on_root t /\ sources_plain t
  | TypeError => no_broken_reference t
  | IndexError => values_present t
  | AttributeError => contributors_only t
  | XMLSyntaxError => sources_plain t
  | _ => True
  end.
