(** * Values of outdated vocabularies.  No proofs in this file. *)

From Coq Require Import String Ascii List Bool Arith.
From Verif Require Import Str Xml Utils Base Spec SpecDoc SpecPass SpecStep SpecTrace SpecField SpecMeaning.
Import ListNotations.
Local Open Scope string_scope.

(** The namespaces of the two sets of default vocabularies, and the one the
    STIX vocabularies have from STIX 1.2.1 on. *)
Definition stix_terms : string := "http://stix.mitre.org/default_vocabularies-1".
Definition cybox_terms : string := "http://cybox.mitre.org/default_vocabularies-2".
Definition later_terms : string := "http://docs.oasis-open.org/cti/ns/stix/vocabularies-1".

(** The namespaces of a vocabulary, under its own name and the later one. *)
Definition namespaces_of (v : vocab) : list string :=
  if String.eqb (v_namespace v) stix_terms then [stix_terms; later_terms] else [v_namespace v].

(** No element of the document has a type that is an old version of one of
    the vocabularies. *)
Definition none_outdated (vs : list vocab) (t : tree) : Prop :=
  forall anc x v ns name, In (anc, x) (visits [] t) -> is_elem x = true -> In v vs ->
  In ns (namespaces_of v) -> In name (v_old_types v) -> type_named (x :: anc) <> Some (Some ns, name).

(** [prefix] is declared for [ns] by some node of the document. *)
Definition declared (t : tree) (prefix ns : string) : Prop :=
  exists x, In x (nodes t) /\ In (Some prefix, ns) (h_decl (head x)).

(** A prefix of a vocabulary namespace stands for nothing else in the document
    and is not one of the two that the step from 1.1 declares; the later
    vocabulary namespace is not declared yet. *)
Definition clear_prefixes (t : tree) : Prop :=
  (forall ns prefix other, In ns [stix_terms; cybox_terms] -> declared t prefix ns -> declared t prefix other -> other = ns) /\
  (forall ns prefix, In ns [stix_terms; cybox_terms] -> declared t prefix ns -> ~ In prefix ["stixCommon"; "indicator"]) /\
  (forall prefix, ~ declared t prefix later_terms).

(** The root has no xsi:type. *)
Definition untyped_root (t : tree) : Prop := attr_of xsi_type (head t) = None.
