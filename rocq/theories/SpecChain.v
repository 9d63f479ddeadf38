(** * Words for one step after another.

    No proofs in this file. *)

From Coq Require Import String Ascii List Bool Arith.
From Verif Require Import Str Xml Utils Base Spec SpecDoc SpecPass SpecStep SpecCheck SpecReport.
Import ListNotations.
Local Open Scope string_scope.

(** Given a document with content [e], however it is kept or passed, and
    whatever the options, the updater never complains about a version. *)
Definition versions_accepted (o : oracle) (up : updater) (e : tree) : Prop :=
  forall d opts force s t, wf_state s -> denotes s d t -> erase t = e ->
  fst (updater_update o up d opts force s) <> Err UnknownVersionError /\
  forall i a b, fst (updater_update o up d opts force s) <> Err (InvalidVersionError i a b).

(** The elements of these names declare the CybOX version [v]. *)
Definition declare_cybox (qs : list qname) (v : string) (t : tree) : Prop :=
  every (anywhere qs) t (fun x => same_version (cybox_declared x) v).

(** The two kinds of elements that hold CybOX content but get no new version in
    the step from STIX 1.0. *)
Definition forgotten : list qname := [ttp "Targeted_Technical_Details"; coa "Parameter_Observables"].

(** An error about versions. *)
Definition version_complaint (x : exn) : Prop :=
  x = UnknownVersionError \/ exists i a b, x = InvalidVersionError i a b.

(** Or one about a version that cannot be read. *)
Definition about_version (x : exn) : Prop := version_complaint x \/ x = ValueError.

(** Given a document with content [e] and asked to look at versions, the updater
    raises an error about them. *)
Definition versions_refused (o : oracle) (up : updater) (e : tree) : Prop :=
  forall d opts s t, wf_state s -> denotes s d t -> erase t = e -> check_versions (or_default o opts) = true ->
  exists x, fst (updater_update o up d opts false s) = Err x /\ about_version x.
