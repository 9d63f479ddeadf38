(** * One step after another: the result of a step is taken by the next one. *)

From Coq Require Import String Ascii List Bool Arith NArith.
From Verif Require Import Str Xml XPath Utils Base Tables Cybox Stix Ramrod Spec SpecDoc SpecPass SpecStep
  SpecCheck SpecUpdate SpecReport SpecTrace SpecIds SpecChain Samples Chained Refused.
Import ListNotations.
Local Open Scope string_scope.

(** ** C31: a step's output is accepted by the next step *)

(** The new CybOX document is one the step from 2.0.1 does not complain about,
    as far as versions go.  [versions_accepted] is about every later call with
    a document of this content. *)
Theorem C31_cybox : forall o opts up up' d force s t r s',
  dict_get "2.0" (CYBOX_UPDATERS o) = Some up -> dict_get "2.0.1" (CYBOX_UPDATERS o) = Some up' ->
  wf_state s -> denotes s d t ->
  updater_update o up d opts force s = (Ok r, s') ->
  exists e, document s' (r_document r) e /\ versions_accepted o up' e.
Proof. intros. eapply (cybox_next_accepts o opts "2.0"); eauto. reflexivity. Qed.
Print Assumptions C31_cybox.

(** The same for STIX from 1.0.1 to 1.1 and from 1.1.1 to 1.2, for any
    document. *)
Theorem C31_stix : forall o opts v w up up' d force s t r s',
  In (v, w) [("1.0.1", "1.1"); ("1.1.1", "1.2")] ->
  dict_get v (STIX_UPDATERS o) = Some up -> dict_get w (STIX_UPDATERS o) = Some up' ->
  wf_state s -> denotes s d t ->
  updater_update o up d opts force s = (Ok r, s') ->
  exists e, document s' (r_document r) e /\ versions_accepted o up' e.
Proof.
  intros o opts v w up up' d force s t r s' I U U' W D E.
  destruct I as [I|[I|[]]]; injection I as <- <-.
  - eapply (stix_next_accepts o opts "1.0.1" up d force s t r s' "1.1" up'); auto; intro X; discriminate X.
  - eapply (stix_next_accepts o opts "1.1.1" up d force s t r s' "1.2" up'); auto; intro X; discriminate X.
Qed.
Print Assumptions C31_stix.

(** From 1.1 to 1.1.1, for documents whose root is a package.  Other roots are
    in the next two theorems: there a text that the step pastes into XML can
    bring a package of any version into the document. *)
Theorem C31_stix_1_1_partial : forall o opts up up' d force s t r s',
  dict_get "1.1" (STIX_UPDATERS o) = Some up -> dict_get "1.1.1" (STIX_UPDATERS o) = Some up' ->
  wf_state s -> denotes s d t -> named (stix "STIX_Package") t = true ->
  updater_update o up d opts force s = (Ok r, s') ->
  exists e, document s' (r_document r) e /\ versions_accepted o up' e.
Proof. intros. eapply (stix_next_accepts o opts "1.1"); eauto; try reflexivity. intro X; discriminate X. Qed.
Print Assumptions C31_stix_1_1_partial.

(** Whatever the root, when there is no markup in the text of sources. *)
Theorem C31_stix_1_1_plain_partial : forall o opts up up' d force s t r s',
  dict_get "1.1" (STIX_UPDATERS o) = Some up -> dict_get "1.1.1" (STIX_UPDATERS o) = Some up' ->
  wf_state s -> denotes s d t -> sources_without_markup t ->
  updater_update o up d opts force s = (Ok r, s') ->
  exists e, document s' (r_document r) e /\ versions_accepted o up' e.
Proof. exact stix_1_1_next. Qed.
Print Assumptions C31_stix_1_1_plain_partial.

Theorem C31_stix_1_1_refuted : ~ (forall o opts up up' d force s t r s',
  dict_get "1.1" (STIX_UPDATERS o) = Some up -> dict_get "1.1.1" (STIX_UPDATERS o) = Some up' ->
  wf_state s -> denotes s d t -> updater_update o up d opts force s = (Ok r, s') ->
  exists e, document s' (r_document r) e /\ versions_accepted o up' e).
Proof. exact stix_1_1_not_accepted. Qed.
Print Assumptions C31_stix_1_1_refuted.

(** The step from 1.0 leaves the version of two kinds of elements as it is,
    while the step from 1.0.1 wants the new one. *)
Theorem C31_stix_1_0_refuted : ~ (forall o opts up up' d force s t r s',
  dict_get "1.0" (STIX_UPDATERS o) = Some up -> dict_get "1.0.1" (STIX_UPDATERS o) = Some up' ->
  wf_state s -> denotes s d t -> updater_update o up d opts force s = (Ok r, s') ->
  exists e, document s' (r_document r) e /\ versions_accepted o up' e).
Proof. exact stix_1_0_not_accepted. Qed.
Print Assumptions C31_stix_1_0_refuted.

(** Accepted are the documents whose elements of these two kinds, if any,
    already declare CybOX 2.0.1. *)
Theorem C31_stix_1_0_partial : forall o opts up up' d force s t r s',
  dict_get "1.0" (STIX_UPDATERS o) = Some up -> dict_get "1.0.1" (STIX_UPDATERS o) = Some up' ->
  wf_state s -> denotes s d t -> declare_cybox forgotten "2.0.1" t ->
  updater_update o up d opts force s = (Ok r, s') ->
  exists e, document s' (r_document r) e /\ versions_accepted o up' e.
Proof. intros. eapply (stix_next_accepts o opts "1.0"); eauto; try reflexivity. intro X; discriminate X. Qed.
Print Assumptions C31_stix_1_0_partial.

(** And no others: [t1] is the document the step works on (the given one, or
    with force the cleaned one).  If an element of the two kinds in it declares
    no CybOX version or another one, the next step raises an error about
    versions whenever it is asked to look at them.  (An element of these kinds
    at the root is not looked at.) *)
Theorem C31_stix_1_0_exactly : forall o opts up up' d force s t r s',
  dict_get "1.0" (STIX_UPDATERS o) = Some up -> dict_get "1.0.1" (STIX_UPDATERS o) = Some up' ->
  wf_state s -> denotes s d t -> updater_update o up d opts force s = (Ok r, s') ->
  exists t1 e, worked_on o up d opts force s t t1 /\ document s' (r_document r) e /\
    (declare_cybox forgotten "2.0.1" t1 -> versions_accepted o up' e) /\
    (named_in forgotten t1 = false -> ~ declare_cybox forgotten "2.0.1" t1 -> versions_refused o up' e).
Proof. exact stix_1_0_next. Qed.
Print Assumptions C31_stix_1_0_exactly.

(** So an update over several versions complains about versions only if they
    are wrong to begin with. *)
Theorem C31_cybox_update : forall o d from to opts force s t a vs,
  wf_state s -> denotes s d t -> cybox_start from t = Some a ->
  between ["2.0"; "2.0.1"; "2.1"] a (match given to with Some b => b | None => "2.1" end) vs ->
  cybox_versions_ok a (numbered 0 t) ->
  forall x s', cybox_update o d from to opts force s = (Err x, s') -> ~ version_complaint x.
Proof. exact cybox_update_complaint. Qed.
Print Assumptions C31_cybox_update.

Theorem C31_stix_update_refuted : ~ (forall o d from to opts force s t a vs,
  wf_state s -> denotes s d t -> named (stix "STIX_Package") t = true -> stix_start from t = Some a ->
  between ["1.0"; "1.0.1"; "1.1"; "1.1.1"; "1.2"; "1.2.1"] a
    (match given to with Some b => b | None => "1.2.1" end) vs ->
  stix_versions_ok a (numbered 0 t) ->
  forall x s', stix_update o d from to opts force s = (Err x, s') -> ~ version_complaint x).
Proof. exact stix_update_complains. Qed.
Print Assumptions C31_stix_update_refuted.

(** Missing: documents of version 1.0 with elements of the two kinds that
    declare CybOX 2.0, as they should. *)
Theorem C31_stix_update_partial : forall o d from to opts force s t a vs,
  wf_state s -> denotes s d t -> named (stix "STIX_Package") t = true -> stix_start from t = Some a ->
  between ["1.0"; "1.0.1"; "1.1"; "1.1.1"; "1.2"; "1.2.1"] a
    (match given to with Some b => b | None => "1.2.1" end) vs ->
  stix_versions_ok a (numbered 0 t) -> (a = "1.0" -> declare_cybox forgotten "2.0.1" t) ->
  forall x s', stix_update o d from to opts force s = (Err x, s') -> ~ version_complaint x.
Proof. exact stix_update_complaint. Qed.
Print Assumptions C31_stix_update_partial.

(** Documents that meet the hypotheses. *)
Example C31_case :
  (exists r s', updater_update o0 (STIX_1_0_Updater o0) (DFile (Some pkg_1_0_params)) None false (memory []) = (Ok r, s')) /\
  declare_cybox forgotten "2.0.1" pkg_1_0_params /\
  (exists r s', updater_update o0 (STIX_1_1_Updater o0) (DFile (Some (package "1.1" []))) None false (memory []) = (Ok r, s')) /\
  (exists r s', updater_update o0 Cybox_2_0_Updater (DFile (Some obs_2_0)) None false (memory []) = (Ok r, s')) /\
  stix_versions_ok "1.0" (numbered 0 pkg_1_0_params) /\
  between STIX_VERSIONS "1.0" "1.1" ["1.0"; "1.0.1"] /\
  (exists r s', stix_update o0 (DFile (Some pkg_1_0_params)) None (Some "1.1") None false (memory []) = (Ok r, s')) /\
  cybox_versions_ok "2.0" (numbered 0 obs_2_0) /\ between CYBOX_VERSIONS "2.0" "2.1" ["2.0"; "2.0.1"].
Proof. exact accepted_case. Qed.
