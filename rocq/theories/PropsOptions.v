(** * Property theorems: which options a result depends on. *)

From Coq Require Import String Ascii List Bool Arith NArith.
From Verif Require Import Str Xml XPath Utils Base Tables Cybox Stix Ramrod Spec SpecDoc SpecUpdate SpecIds SpecOptions
  Lib Samples Worked RefineUpdate Updates Switches.
Import ListNotations.
Local Open Scope string_scope.

(** ** C53: an option changes only what it is for *)

(** Checking versions only refuses: what an update returns with the check, it
    returns without it, forced or not. *)
Theorem C53_check_only_refuses : forall o update d from to p force s t r s',
  entry o update -> wf_state s -> denotes s d t ->
  update d from to (Some p) force s = (Ok r, s') ->
  exists r2 s2, update d from to (Some (unchecked p)) force s = (Ok r2, s2) /\ same_results s' r s2 r2.
Proof. exact entry_unchecked. Qed.
Print Assumptions C53_check_only_refuses.

(** Without it no error is about the version of a document, once the versions
    to update from and to are known and in order. *)
Theorem C53_stix_unchecked_versions : forall o d from to p force s t a vs x s',
  wf_state s -> denotes s d t -> stix_start from t = Some a ->
  between ["1.0"; "1.0.1"; "1.1"; "1.1.1"; "1.2"; "1.2.1"] a (match given to with Some b => b | None => "1.2.1" end) vs ->
  stix_update o d from to (Some (unchecked p)) force s = (Err x, s') -> about_versions x = false.
Proof. exact stix_versions_unchecked. Qed.
Print Assumptions C53_stix_unchecked_versions.

Theorem C53_cybox_unchecked_versions : forall o d from to p force s t a vs x s',
  wf_state s -> denotes s d t -> cybox_start from t = Some a ->
  between ["2.0"; "2.0.1"; "2.1"] a (match given to with Some b => b | None => "2.1" end) vs ->
  cybox_update o d from to (Some (unchecked p)) force s = (Err x, s') -> about_versions x = false.
Proof. exact cybox_versions_unchecked. Qed.
Print Assumptions C53_cybox_unchecked_versions.

(** The function for new ids matters only when ids are replaced: not without
    force, and not when nothing is reported as replaced. *)
Theorem C53_ids_unforced : forall o update d from to p f s t,
  entry o update -> wf_state s -> denotes s d t ->
  match update d from to (Some p) false s, update d from to (Some (with_ids f p)) false s with
  | (Ok r1, s1), (Ok r2, s2) => same_results s1 r1 s2 r2
  | (Err e1, _), (Err e2, _) => same_error e1 e2
  | _, _ => False
  end.
Proof. exact entry_ids. Qed.
Print Assumptions C53_ids_unforced.

Theorem C53_ids_forced : forall o update d from to p f force s t r s',
  entry o update -> wf_state s -> denotes s d t ->
  update d from to (Some p) force s = (Ok r, s') -> remapped_ids r = [] ->
  exists r2 s2, update d from to (Some (with_ids f p)) force s = (Ok r2, s2) /\ same_results s' r s2 r2.
Proof. exact entry_ids_forced. Qed.
Print Assumptions C53_ids_forced.

(** The package of version 1.1 is accepted either way; taken for 1.0.1 it is
    refused with the check, updated with force (the check fails, there is
    nothing to clean) and updated without the check.  Without the check an
    update can still be refused for its content. *)
Definition run (p : options) (from : option string) (force : bool) (t : tree) : res results :=
  fst (ramrod_update o0 (DFile (Some t)) from None (Some p) force (memory [])).
Definition succeeded (x : res results) : bool := match x with Ok _ => true | Err _ => false end.
Definition refused_for_version (x : res results) : bool := match x with Ok _ => false | Err e => about_versions e end.

Example C53_case :
  entry o0 (ramrod_update o0) /\ wf_state (memory []) /\
  succeeded (run (default_options o0) None false pkg_1_1) = true /\
  refused_for_version (run (default_options o0) (Some "1.0.1") false pkg_1_1) = true /\
  succeeded (run (default_options o0) (Some "1.0.1") true pkg_1_1) = true /\
  succeeded (run (unchecked (default_options o0)) (Some "1.0.1") false pkg_1_1) = true /\
  match run (default_options o0) (Some "1.0.1") true pkg_1_1 with Ok r => remapped_ids r = [] | Err _ => False end /\
  match run (unchecked (default_options o0)) None false pkg_1_0_1_bad with Err (UpdateError _ _) => True | _ => False end.
Proof. split; [left; reflexivity|]. split; [split; [constructor|intros i []]|]. vm_compute. auto 10. Qed.
