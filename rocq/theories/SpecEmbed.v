(** * CybOX content inside a STIX package.  No proofs in this file. *)

From Coq Require Import String Ascii List Bool Arith.
From Verif Require Import Str Xml Spec SpecDoc SpecPass SpecStep SpecTrace.
Import ListNotations.
Local Open Scope string_scope.

(** An element in a namespace that starts with one of the given texts. *)
Definition in_family (families : list string) (h : hdr) : Prop :=
  h_kind h = KElem /\
  exists ns f, q_ns (h_tag h) = Some ns /\ In f families /\ String.prefix f ns = true.

Definition cybox_family : list string := ["http://cybox.mitre.org/"].
Definition stix_family : list string := ["http://stix.mitre.org/"; "http://data-marking.mitre.org/"].

(** Types of STIX vocabularies that the steps from 1.0 and 1.0.1 replace. *)
Definition stix_types : list string :=
  ["MotivationVocab-1.0"; "MotivationVocab-1.0.1"; "PlanningAndOperationalSupportVocab-1.0"; "IndicatorTypeVocab-1.0"].

(** A node of pure CybOX content: not an element of STIX or of data markings,
    and not typed by one of the STIX vocabularies. *)
Definition cybox_only (h : hdr) : Prop :=
  ~ in_family stix_family h /\
  forall value alias name, In (qn "http://www.w3.org/2001/XMLSchema-instance" "type", value) (h_attr h) ->
    split_char ":" value = [alias; name] -> ~ In name stix_types.

(** A node that may be around it: an element, not of CybOX, and none of those
    which the step from STIX 1.0.1 rebuilds or may remove. *)
Definition may_contain (h : hdr) : Prop :=
  h_kind h = KElem /\ ~ in_family cybox_family h /\
  ~ In (h_tag h) [qn "http://stix.mitre.org/common-1" "Contributors";
                  qn "http://data-marking.mitre.org/Marking-1" "Controlled_Structure";
                  qn "http://data-marking.mitre.org/Marking-1" "Marking_Structure"].

(** The element [x], with [anc] above it, has the same children as the CybOX
    document [D], whose root declares the prefixes that can be used there.
    They are pure CybOX content. *)
Definition embeds (anc : list tree) (x : tree) (D : tree) : Prop :=
  map erase (kids x) = map erase (kids D) /\
  env_items [] (env_of anc x) = env_items [] (h_decl (head D)) /\
  h_kind (head D) = KElem /\ h_tag (head D) = qn "http://cybox.mitre.org/cybox-2" "Observables" /\
  (forall y, In y (x :: anc) -> may_contain (head y)) /\
  (forall y, In y (nodes D) -> cybox_only (head y)) /\
  (forall k y, In k (kids D) -> In y (nodes k) -> h_kind (head y) = KElem ->
     h_tag (head y) <> qn "http://cybox.mitre.org/cybox-2" "Observables").

(** The CybOX version that goes with a STIX version. *)
Definition content_versions : list (string * string) := [("1.0", "2.0"); ("1.0.1", "2.0.1")].
