(** * Property theorems: nodes, versions, vocabularies and attributes through a step.

    Everywhere below [t1] is the document the step works on ([worked_on]: the
    given one, or with force the cleaned one), [e] is the new document with
    every node that comes from [t1] labelled by its place in [t1] ([labelled
    t1]), [erase e] is the new document itself. *)

From Coq Require Import String Ascii List Bool Arith NArith.
From Verif Require Import Str Xml XPath Utils Base Tables Cybox Stix Ramrod Spec SpecDoc SpecPass SpecStep
  SpecCheck SpecClean SpecUpdate SpecTrace SpecField Lib Samples Worked Marks.
Import ListNotations.
Local Open Scope string_scope.

(** ** C40: a step neither loses, copies nor reorders nodes *)

Theorem C40_stix_nodes_carried : forall o opts v up d force s t r s',
  dict_get v (STIX_UPDATERS o) = Some up -> wf_state s -> denotes s d t ->
  updater_update o up d opts force s = (Ok r, s') ->
  exists t1 e, worked_on o up d opts force s t t1 /\ document s' (r_document r) (erase e) /\
    carried (stix_gone (or_default o opts) v) (labelled t1) e.
Proof. exact stix_carried. Qed.
Print Assumptions C40_stix_nodes_carried.

Theorem C40_cybox_nodes_carried : forall o opts v up d force s t r s',
  dict_get v (CYBOX_UPDATERS o) = Some up -> wf_state s -> denotes s d t ->
  updater_update o up d opts force s = (Ok r, s') ->
  exists t1 e, worked_on o up d opts force s t t1 /\ document s' (r_document r) (erase e) /\
    carried (cybox_gone (or_default o opts) v) (labelled t1) e.
Proof. exact cybox_carried. Qed.
Print Assumptions C40_cybox_nodes_carried.

(** ** C07: versions of packages and components *)

(** [brought_to i w]: a package or versioned component has version [i] (an
    indicator) or [w] (anything else) afterwards, other nodes keep theirs. *)
Theorem C07_versions_brought : forall o opts v up i w d force s t r s',
  dict_get v (STIX_UPDATERS o) = Some up -> next_versions v = Some (i, w) ->
  wf_state s -> denotes s d t -> distinct_attributes t ->
  updater_update o up d opts force s = (Ok r, s') ->
  exists t1 e, worked_on o up d opts force s t t1 /\ document s' (r_document r) (erase e) /\
    carried (stix_gone (or_default o opts) v) (labelled t1) e /\ stems (brought_to i w) (labelled t1) e.
Proof. exact stix_versions_updated. Qed.
Print Assumptions C07_versions_brought.

(** The step from 1.2 versions the root and nothing else. *)
Theorem C07_1_2_root : forall o opts up d force s t r s',
  dict_get "1.2" (STIX_UPDATERS o) = Some up -> wf_state s -> denotes s d t -> distinct_attributes t ->
  updater_update o up d opts force s = (Ok r, s') ->
  exists t1 e, worked_on o up d opts force s t t1 /\ document s' (r_document r) (erase e) /\
    carried (fun _ => false) (labelled t1) e /\ stems root_brought (labelled t1) e.
Proof. exact stix_1_2_versions. Qed.
Print Assumptions C07_1_2_root.

(** The elements that declare the CybOX version of their content. *)
Theorem C07_stix_cybox_versions : forall o opts v up mark new d force s t r s',
  dict_get v (STIX_UPDATERS o) = Some up -> cybox_marks v = Some (mark, new) ->
  wf_state s -> denotes s d t -> distinct_attributes t ->
  updater_update o up d opts force s = (Ok r, s') ->
  exists t1 e, worked_on o up d opts force s t t1 /\ document s' (r_document r) (erase e) /\
    carried (stix_gone (or_default o opts) v) (labelled t1) e /\ stems_at (cybox_marked mark new) (labelled t1) e.
Proof. exact stix_cybox_versions. Qed.
Print Assumptions C07_stix_cybox_versions.

Theorem C07_cybox_versions : forall o opts v up mark new d force s t r s',
  dict_get v (CYBOX_UPDATERS o) = Some up -> cybox_marks v = Some (mark, new) ->
  wf_state s -> denotes s d t -> distinct_attributes t ->
  updater_update o up d opts force s = (Ok r, s') ->
  exists t1 e, worked_on o up d opts force s t t1 /\ document s' (r_document r) (erase e) /\
    carried (cybox_gone (or_default o opts) v) (labelled t1) e /\ stems_at (cybox_marked mark new) (labelled t1) e.
Proof. exact cybox_cybox_versions. Qed.
Print Assumptions C07_cybox_versions.

(** The versions are given to the components of the old document: a related
    campaign becomes a component in the step from 1.1 and keeps its version. *)
Theorem C07_new_components_refuted :
  ~ (forall o opts up d force s t r s' new x,
       dict_get "1.1" (STIX_UPDATERS o) = Some up -> wf_state s -> denotes s d t -> distinct_attributes t ->
       updater_update o up d opts force s = (Ok r, s') -> document s' (r_document r) new ->
       In x (nodes new) -> versioned (head x) = true -> q_local (h_tag (head x)) <> "Indicator" ->
       attr_of (lq "version") (head x) = Some "1.1.1").
Proof.
  intro H.
  destruct (run_document (updater_update o0 (STIX_1_1_Updater o0) (DFile (Some pkg_1_1_vocab)) None false (memory []))
    (fun new => existsb (fun x => versioned (head x) && String.eqb (q_local (h_tag (head x))) "Campaign"
                                  && ostr_eqb (attr_of (lq "version") (head x)) (Some "1.1")) (nodes new)))
    as (r & s' & new & E & D & B); [vm_compute; reflexivity|].
  apply existsb_exists in B as (x & Hx & B). apply andb_true_iff in B as [B C]. apply andb_true_iff in B as [A B].
  apply String.eqb_eq in B. apply ostr_eqb_eq in C.
  assert (X : attr_of (lq "version") (head x) = Some "1.1.1").
  { eapply (H o0 None _ (DFile (Some pkg_1_1_vocab)) _ (memory []) pkg_1_1_vocab r s' new x); [reflexivity| |reflexivity| |exact E|exact D|exact Hx|exact A|].
    - split; [constructor|intros i []].
    - apply distinct_decided. reflexivity.
    - rewrite B. discriminate. }
  congruence.
Qed.
Print Assumptions C07_new_components_refuted.

Example C07_case :
  distinct_attributes pkg_1_1_vocab /\ wf_state (memory []) /\
  next_versions "1.1" = Some ("2.1.1", "1.1.1") /\
  length (filter (fun x => versioned (head x)) (nodes pkg_1_1_vocab)) = 3 /\
  (exists r s', updater_update o0 (STIX_1_1_Updater o0) (DFile (Some pkg_1_1_vocab)) None false (memory []) = (Ok r, s')) /\
  distinct_attributes pkg_1_0_1 /\
  (exists mark new, cybox_marks "1.0.1" = Some (mark, new) /\
     existsb (fun c => mark (fst c) (snd c)) (visits [] pkg_1_0_1) = true) /\
  (exists r s', updater_update o0 (STIX_1_0_1_Updater o0) (DFile (Some pkg_1_0_1)) None false (memory []) = (Ok r, s')) /\
  (exists r s', updater_update o0 (STIX_1_2_Updater) (DFile (Some (package "1.2" []))) None false (memory []) = (Ok r, s')) /\
  (exists r s', updater_update o0 (Cybox_2_0_Updater) (DFile (Some obs_2_0)) None false (memory []) = (Ok r, s')).
Proof.
  split; [apply distinct_decided; reflexivity|]. split; [split; [constructor|intros i []]|]. split; [reflexivity|]. split; [reflexivity|].
  split; [eexists _, _; vm_compute; reflexivity|]. split; [apply distinct_decided; reflexivity|].
  split; [eexists _, _; split; reflexivity|].
  repeat split; eexists _, _; vm_compute; reflexivity.
Qed.

(** The campaign, at label 5, is wrapped: labels 1 to 7 are all there. *)
Example C40_case :
  exists f e, stix_step o0 (default_options o0) "1.1" = Some f /\ f (labelled pkg_1_1_vocab) = Ok e /\
    labels e = labels (labelled pkg_1_1_vocab) /\ length (nodes e) = S (length (nodes pkg_1_1_vocab)).
Proof. eexists _, _. split; [reflexivity|]. vm_compute. repeat split; reflexivity. Qed.

(** ** C17: controlled vocabulary values *)

(** [retyped] and [reworded] tell the type, reference, name and text of a value
    of an outdated vocabulary, and that other nodes keep theirs. *)
Theorem C17_stix_vocabularies : forall o opts v up d force s t r s',
  dict_get v (STIX_UPDATERS o) = Some up -> v <> "1.2" -> wf_state s -> denotes s d t ->
  is_elem t = true -> distinct_attributes t ->
  (v = "1.0.1" -> declares_nothing [common "Contributors"; object_name "WinMailslot" "Handle"] t) ->
  updater_update o up d opts force s = (Ok r, s') ->
  exists t1 e, worked_on o up d opts force s t t1 /\ document s' (r_document r) (erase e) /\
    carried (stix_gone (or_default o opts) v) (labelled t1) e /\
    stems_at (vocabulary_value v
                (if update_vocabularies (or_default o opts) then stix_vocabularies v else [])) (labelled t1) e.
Proof. exact stix_vocabularies_updated. Qed.
Print Assumptions C17_stix_vocabularies.

Theorem C17_cybox_vocabularies : forall o opts v up d force s t r s',
  dict_get v (CYBOX_UPDATERS o) = Some up -> wf_state s -> denotes s d t ->
  is_elem t = true -> distinct_attributes t ->
  (v = "2.0.1" -> declares_nothing [object_name "WinMailslot" "Handle"] t) ->
  updater_update o up d opts force s = (Ok r, s') ->
  exists t1 e, worked_on o up d opts force s t t1 /\ document s' (r_document r) (erase e) /\
    carried (cybox_gone (or_default o opts) v) (labelled t1) e /\
    stems_at (vocabulary_value v
                (if update_vocabularies (or_default o opts) then cybox_vocabularies v else [])) (labelled t1) e.
Proof. exact cybox_vocabularies_updated. Qed.
Print Assumptions C17_cybox_vocabularies.

(** The loss type is outdated, the category is not. *)
Example C17_case :
  is_elem pkg_1_1_vocab = true /\ distinct_attributes pkg_1_1_vocab /\
  (exists anc, In (anc, loss_elem) (visits [] pkg_1_1_vocab) /\ outdated availability_loss (anc, loss_elem) = true) /\
  length (filter (outdated availability_loss) (visits [] pkg_1_1_vocab)) = 1 /\
  declares_nothing [common "Contributors"; object_name "WinMailslot" "Handle"] pkg_1_0_1 /\
  (exists r s', updater_update o0 (STIX_1_1_Updater o0) (DFile (Some pkg_1_1_vocab)) None false (memory []) = (Ok r, s')).
Proof.
  split; [reflexivity|]. split; [apply distinct_decided; reflexivity|]. split.
  - eexists. split; [cbn; do 5 right; left; reflexivity|reflexivity].
  - split; [reflexivity|]. split; [apply declares_decided; reflexivity|]. eexists _, _; vm_compute; reflexivity.
Qed.

(** ** C41: no other attribute changes; C19: without update_vocabularies the
    vocabulary attributes are among the others *)

Theorem C41_stix_other_attributes : forall o opts v up d force s t r s',
  dict_get v (STIX_UPDATERS o) = Some up -> wf_state s -> denotes s d t -> distinct_attributes t ->
  updater_update o up d opts force s = (Ok r, s') ->
  exists t1 e, worked_on o up d opts force s t t1 /\ document s' (r_document r) (erase e) /\
    carried (stix_gone (or_default o opts) v) (labelled t1) e /\
    stems (fun h h' => forall k, ~ In k (stix_attributes v) ->
             (update_vocabularies (or_default o opts) = true -> ~ In k vocabulary_attributes) ->
             attr_of k h' = attr_of k h) (labelled t1) e.
Proof. exact stix_attributes_kept. Qed.
Print Assumptions C41_stix_other_attributes.

Theorem C41_cybox_other_attributes : forall o opts v up d force s t r s',
  dict_get v (CYBOX_UPDATERS o) = Some up -> wf_state s -> denotes s d t -> distinct_attributes t ->
  updater_update o up d opts force s = (Ok r, s') ->
  exists t1 e, worked_on o up d opts force s t t1 /\ document s' (r_document r) (erase e) /\
    carried (cybox_gone (or_default o opts) v) (labelled t1) e /\
    stems (fun h h' => forall k, ~ In k cybox_attributes ->
             (update_vocabularies (or_default o opts) = true -> ~ In k vocabulary_attributes) ->
             attr_of k h' = attr_of k h) (labelled t1) e.
Proof. exact cybox_attributes_kept. Qed.
Print Assumptions C41_cybox_other_attributes.

Theorem C19_stix_vocabularies_off : forall o opts v up d force s t r s',
  dict_get v (STIX_UPDATERS o) = Some up -> wf_state s -> denotes s d t -> distinct_attributes t ->
  update_vocabularies (or_default o opts) = false ->
  updater_update o up d opts force s = (Ok r, s') ->
  exists t1 e, worked_on o up d opts force s t t1 /\ document s' (r_document r) (erase e) /\
    carried (stix_gone (or_default o opts) v) (labelled t1) e /\
    stems (fun h h' => forall k, In k vocabulary_attributes -> attr_of k h' = attr_of k h) (labelled t1) e.
Proof. exact stix_vocabulary_off. Qed.
Print Assumptions C19_stix_vocabularies_off.

Theorem C19_cybox_vocabularies_off : forall o opts v up d force s t r s',
  dict_get v (CYBOX_UPDATERS o) = Some up -> wf_state s -> denotes s d t -> distinct_attributes t ->
  update_vocabularies (or_default o opts) = false ->
  updater_update o up d opts force s = (Ok r, s') ->
  exists t1 e, worked_on o up d opts force s t t1 /\ document s' (r_document r) (erase e) /\
    carried (cybox_gone (or_default o opts) v) (labelled t1) e /\
    stems (fun h h' => forall k, In k vocabulary_attributes -> attr_of k h' = attr_of k h) (labelled t1) e.
Proof. exact cybox_vocabulary_off. Qed.
Print Assumptions C19_cybox_vocabularies_off.

Example C19_case :
  distinct_attributes pkg_1_1_vocab /\
  update_vocabularies (or_default o0 (Some (Options true (create_new_id (o_uuid o0)) false true))) = false /\
  exists r s', updater_update o0 (STIX_1_1_Updater o0) (DFile (Some pkg_1_1_vocab))
    (Some (Options true (create_new_id (o_uuid o0)) false true)) false (memory []) = (Ok r, s').
Proof. split; [apply distinct_decided; reflexivity|]. split; [reflexivity|]. eexists _, _; vm_compute; reflexivity. Qed.
