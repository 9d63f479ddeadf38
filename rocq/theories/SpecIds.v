(** * Attributes that no step may lose.

    Ids and references are attributes; [retains k w t] says that some element of
    [t] has the attribute [k] with the value [w], outside the few fields that
    a step replaces by new ones.  No proofs in this file. *)

From Coq Require Import String Ascii List Bool Arith.
From Verif Require Import Str Xml Utils Base Cybox Stix Ramrod Spec SpecDoc SpecPass SpecStep SpecTrace.
Import ListNotations.
Local Open Scope string_scope.

(** The attributes that steps set: versions, schema locations and the
    attributes of vocabulary terms. *)
Definition set_by_steps : list qname :=
  [TAG_SCHEMALOCATION; lq "version";
   lq "cybox_major_version"; lq "cybox_minor_version"; lq "cybox_update_version";
   TAG_XSI_TYPE; lq "vocab_reference"; lq "vocab_name"].

(** The fields a step replaces by new ones, by the name of the parent and the
    name of the field: four fields of HTTP sessions and mailslots, and the
    plain sources of statements, confidences and sightings. *)
Definition replaced_field (parent field : qname) : Prop :=
  In field cybox_2_0_1_replaced \/
  In parent sourced /\ field = common "Source" \/
  parent = indicator "Sighting" /\ field = indicator "Source".

(** An element with the attribute, not in a replaced field.  The attributes of
    a list of contributors itself are not counted (its contents are); an
    attribute occurs once in a tag. *)
Inductive retains (k : qname) (w : string) : tree -> Prop :=
| retains_here h ks :
    h_kind h = KElem -> h_tag h <> common "Contributors" -> NoDup (map fst (h_attr h)) ->
    attr_get k (h_attr h) = Some w -> retains k w (Node h ks)
| retains_below h ks c :
    h_kind h = KElem -> In c ks -> ~ replaced_field (h_tag h) (h_tag (head c)) ->
    retains k w c -> retains k w (Node h ks).

(** Some element has the attribute. *)
Definition shows (k : qname) (w : string) (t : tree) : Prop :=
  exists x, In x (nodes t) /\ is_elem x = true /\ attr_get k (h_attr (head x)) = Some w.

(** In a result the attribute is in the document, in a removed node, or is an
    id that the result lists as replaced. *)
Definition accounted_for (k : qname) (w : string) (s : st) (r : results) : Prop :=
  (exists new, document s (r_document r) new /\ retains k w new) \/
  (exists i x, In i (removed_nodes r) /\ document s i x /\ retains k w x) \/
  k = lq "id" /\ In w (map fst (remapped_ids r)).

(** Some element has an attribute [ref] that names [w]. *)
Definition names (ref : qname) (w : string) (t : tree) : Prop :=
  exists x, In x (nodes t) /\ In (ref, w) (h_attr (head x)).

(** Whatever an attribute [ref] names is the id of an element (outside the
    replaced fields). *)
Definition resolved (ref : qname) (t : tree) : Prop :=
  forall w, names ref w t -> retains (lq "id") w t.

(** The text of sources has no markup characters. *)
Definition sources_without_markup (t : tree) : Prop :=
  forall x s, In x (nodes t) -> named_in [common "Source"; indicator "Source"] x = true ->
  h_text (head x) = Some s -> contains "<" s = false /\ contains "&" s = false.

(** The three ways to update a document. *)
Definition entry (o : oracle) (u : docarg -> option string -> option string -> option options -> bool -> M results) : Prop :=
  u = ramrod_update o \/ u = stix_update o \/ u = cybox_update o.
