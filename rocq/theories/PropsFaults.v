(** * Property theorems: undocumented failures of a step. *)

From Coq Require Import String Ascii List Bool Arith NArith.
From Verif Require Import Str Xml XPath Utils Base Tables Cybox Stix Ramrod Spec SpecDoc SpecPass SpecStep
  SpecCheck SpecClean SpecUpdate SpecTrace SpecField SpecFault Lib Samples Worked Faults Forced.
Import ListNotations.
Local Open Scope string_scope.

(** ** C28: a well-formed document never crashes a step *)

(** A step on an acceptable document fails only with one of the documented
    exceptions (or because 1.2 cannot be forced).  When cleaning is asked for,
    the values it may take away must not be the ones a field needs. *)
Theorem C28_stix_no_crash : forall o opts v up d force s t x s',
  dict_get v (STIX_UPDATERS o) = Some up -> wf_state s -> denotes s d t -> is_elem t = true -> distinct_attributes t ->
  acceptable t -> (force = true -> plain_values_present t) ->
  updater_update o up d opts force s = (Err x, s') ->
  documented x \/ x = NotImplementedError /\ v = "1.2" /\ force = true.
Proof. exact stix_sound. Qed.
Print Assumptions C28_stix_no_crash.

Theorem C28_cybox_no_crash : forall o opts v up d force s t x s',
  dict_get v (CYBOX_UPDATERS o) = Some up -> wf_state s -> denotes s d t -> is_elem t = true -> distinct_attributes t ->
  acceptable t -> (force = true -> plain_values_present t) ->
  updater_update o up d opts force s = (Err x, s') -> documented x.
Proof. exact cybox_sound. Qed.
Print Assumptions C28_cybox_no_crash.

(** For any document: an undocumented exception is due to the corresponding
    defect of the document worked on. *)
Theorem C28_stix_crash_explained : forall o opts v up d force s t x s',
  dict_get v (STIX_UPDATERS o) = Some up -> wf_state s -> denotes s d t -> is_elem t = true -> distinct_attributes t ->
  updater_update o up d opts force s = (Err x, s') ->
  documented x \/ (x = NotImplementedError /\ v = "1.2" /\ force = true) \/
  exists t1, worked_on o up d opts force s t t1 /\ ~ tolerable x t1.
Proof. exact stix_fault. Qed.
Print Assumptions C28_stix_crash_explained.

Theorem C28_cybox_crash_explained : forall o opts v up d force s t x s',
  dict_get v (CYBOX_UPDATERS o) = Some up -> wf_state s -> denotes s d t -> is_elem t = true -> distinct_attributes t ->
  updater_update o up d opts force s = (Err x, s') ->
  documented x \/ exists t1, worked_on o up d opts force s t t1 /\ ~ tolerable x t1.
Proof. exact cybox_fault. Qed.
Print Assumptions C28_cybox_crash_explained.

(** The hypotheses are met by documents with vocabulary values, contributors,
    sources and HTTP fields. *)
Definition HTTP_NS := "http://cybox.mitre.org/objects#HTTPSessionObject-2".
Definition URI_NS := "http://cybox.mitre.org/objects#URIObject-2".
Definition dnt (ks : list tree) : tree := el (qn HTTP_NS "DNT") [] [] None ks.
Definition uri_value (decl : list (option string * string)) (attrs : list (qname * string)) : tree := el (qn URI_NS "Value") decl attrs (Some "1") [].
Definition obs_2_0_1 (ks : list tree) : tree :=
  observables [(lq "cybox_major_version", "2"); (lq "cybox_minor_version", "0"); (lq "cybox_update_version", "1")] ks.

Example C28_case_1_1_vocab : is_elem pkg_1_1_vocab = true /\ distinct_attributes pkg_1_1_vocab /\ acceptable pkg_1_1_vocab /\ plain_values_present pkg_1_1_vocab.
Proof. split; [reflexivity|split; [apply distinct_decided|split; [apply acceptable_decided|apply plain_values_decided]]]; vm_compute; reflexivity. Qed.
Example C28_case_1_1 : is_elem pkg_1_1 = true /\ distinct_attributes pkg_1_1 /\ acceptable pkg_1_1 /\ plain_values_present pkg_1_1.
Proof. split; [reflexivity|split; [apply distinct_decided|split; [apply acceptable_decided|apply plain_values_decided]]]; vm_compute; reflexivity. Qed.
Example C28_case_1_0_1 : is_elem pkg_1_0_1 = true /\ distinct_attributes pkg_1_0_1 /\ acceptable pkg_1_0_1 /\ plain_values_present pkg_1_0_1.
Proof. split; [reflexivity|split; [apply distinct_decided|split; [apply acceptable_decided|apply plain_values_decided]]]; vm_compute; reflexivity. Qed.
Definition obs_dnt : tree := obs_2_0_1 [dnt [comment "c"; uri_value [] []]; el (qn CYBOX_NS "Relationship") [] [(TAG_XSI_TYPE, "cyboxVocabs:ObjectRelationshipVocab-1.0")] (Some "Created") []].
Example C28_case_cybox : is_elem obs_dnt = true /\ distinct_attributes obs_dnt /\ acceptable obs_dnt /\ plain_values_present obs_dnt.
Proof. split; [reflexivity|split; [apply distinct_decided|split; [apply acceptable_decided|apply plain_values_decided]]]; vm_compute; reflexivity. Qed.
(** They can fail for a documented reason. *)
Example C28_case_fails : fst (updater_update o0 (STIX_1_0_1_Updater o0) (DFile (Some pkg_1_0_1_bad)) None false (memory [])) <> Err ValueError /\
  acceptable pkg_1_0_1_bad /\ exists x, fst (updater_update o0 (STIX_1_0_1_Updater o0) (DFile (Some pkg_1_0_1_bad)) None false (memory [])) = Err x /\ documented x.
Proof.
  split; [vm_compute; discriminate|split; [apply acceptable_decided; vm_compute; reflexivity|]].
  eexists. split; [vm_compute; reflexivity|]. constructor.
Qed.

(** Each of the eight conditions is needed: for each there is a document that
    meets the other seven and makes a step fail with an undocumented exception. *)
Definition typed (v : string) : tree := el (qn STIX_NS "Note") [] [(TAG_XSI_TYPE, v)] None [].
Definition bad_type := package "1.1" [typed "nocolon"].
Definition bad_prefix := package "1.1" [typed "zz:T"].
Definition bad_reference := obs_2_0_1
  [el (qn CYBOX_NS "Relationship") [] [(TAG_XSI_TYPE, "cyboxVocabs:ObjectRelationshipVocab-1.0"); (lq "vocab_reference", "http://r")] (Some "Created") []].
Definition bad_value := obs_2_0_1 [dnt [el (qn URI_NS "Other") [] [] None []]].
Definition bad_contributors := package "1.0.1" [el (qn COMMON_NS "Contributors") [] [] None [comment "c"]].
Definition bad_source := package "1.1" [indicator_elem [el (qn INDICATOR_NS "Sighting") [] [] None [el (qn INDICATOR_NS "Source") [] [] (Some "A & B") []]]].
Definition bad_version := package "one" [].
Definition with_section (t : tree) : tree :=
  Node (let h := head t in Hdr (h_id h) (h_kind h) (h_tag h) (h_decl h) (h_attr h) (h_text h) true (h_tail h)) (kids t).
Definition bad_section := package "1.2" [with_section (el (qn STIX_NS "Note") [] [] (Some "a[b[0]]>c") [])].
Definition conditions : list (tree -> bool) := [b_types; b_prefixes; b_references; b_values; b_contributors; b_sources; b_versions; b_sections].
Definition step_on (up : updater) (t : tree) : option exn :=
  match fst (updater_update o0 up (DFile (Some t)) None false (memory [])) with Ok _ => None | Err x => Some x end.

Example C28_each_condition_needed :
  (map (fun b => b bad_type) conditions = [false; true; true; true; true; true; true; true] /\ step_on (STIX_1_1_Updater o0) bad_type = Some ValueError) /\
  (map (fun b => b bad_prefix) conditions = [true; false; true; true; true; true; true; true] /\ step_on (STIX_1_1_Updater o0) bad_prefix = Some KeyError) /\
  (map (fun b => b bad_reference) conditions = [true; true; false; true; true; true; true; true] /\ step_on (Cybox_2_0_1_Updater o0) bad_reference = Some TypeError) /\
  (map (fun b => b bad_value) conditions = [true; true; true; false; true; true; true; true] /\ step_on (Cybox_2_0_1_Updater o0) bad_value = Some IndexError) /\
  (map (fun b => b bad_contributors) conditions = [true; true; true; true; false; true; true; true] /\ step_on (STIX_1_0_1_Updater o0) bad_contributors = Some AttributeError) /\
  (map (fun b => b bad_source) conditions = [true; true; true; true; true; false; true; true] /\ step_on (STIX_1_1_Updater o0) bad_source = Some XMLSyntaxError) /\
  (map (fun b => b bad_version) conditions = [true; true; true; true; true; true; false; true] /\ step_on (STIX_1_1_Updater o0) bad_version = Some ValueError) /\
  (map (fun b => b bad_section) conditions = [true; true; true; true; true; true; true; false] /\ step_on STIX_1_2_Updater bad_section = Some ValueError).
Proof. vm_compute. repeat split. Qed.

(** A prefix declared where it is used, but not on the root, is not enough:
    the value of a DNT field is moved out of the reach of its declaration. *)
Definition obs_inner_prefix : tree := obs_2_0_1 [dnt [uri_value [(Some "my", "urn:my")] [(TAG_XSI_TYPE, "my:T")]]].
Theorem C28_inner_prefix_refuted : exists t x v a n ns,
  has_type t x v /\ split_char ":" v = [a; n] /\ In (Some a, ns) (h_decl (head x)) /\
  types_readable t /\ no_broken_reference t /\ values_present t /\ contributors_only t /\ sources_plain t /\ versions_readable t /\ sections_whole t /\
  fst (updater_update o0 (Cybox_2_0_1_Updater o0) (DFile (Some t)) None false (memory [])) = Err KeyError.
Proof.
  exists obs_inner_prefix, (uri_value [(Some "my", "urn:my")] [(TAG_XSI_TYPE, "my:T")]), "my:T", "my", "T", "urn:my".
  split; [split; [vm_compute; auto|reflexivity]|]. split; [reflexivity|]. split; [left; reflexivity|].
  split; [apply types_decided; vm_compute; reflexivity|]. split; [apply references_decided; vm_compute; reflexivity|].
  split; [apply values_decided; vm_compute; reflexivity|]. split; [apply contributors_decided; vm_compute; reflexivity|].
  split; [apply sources_decided; vm_compute; reflexivity|]. split; [apply versions_decided; vm_compute; reflexivity|]. split; [apply sections_decided; vm_compute; reflexivity|].
  vm_compute. reflexivity.
Qed.
Print Assumptions C28_inner_prefix_refuted.

(** ** C18: a vocabulary reference never breaks an update *)

(** False of the code: for two vocabularies the new reference is a tuple, and
    storing it fails. *)
Definition pkg_1_0_reference : tree := package "1.0"
  [el (qn STIX_NS "TTP") [] [(lq "id", "ex:t1")] None
     [el (qn TTP_NS "Type") [] [(TAG_XSI_TYPE, "stixVocabs:PlanningAndOperationalSupportVocab-1.0"); (lq "vocab_reference", "http://r")] (Some "Planning") []]].
Theorem C18_stix_reference_refuted : exists t, is_elem t = true /\ distinct_attributes t /\
  types_readable t /\ prefixes_on_root t /\
  fst (updater_update o0 (STIX_1_0_Updater o0) (DFile (Some t)) None false (memory [])) = Err TypeError.
Proof.
  exists pkg_1_0_reference. split; [reflexivity|]. split; [apply distinct_decided; vm_compute; reflexivity|].
  split; [apply types_decided; vm_compute; reflexivity|]. split; [apply prefixes_decided; vm_compute; reflexivity|]. vm_compute. reflexivity.
Qed.
Print Assumptions C18_stix_reference_refuted.

Theorem C18_cybox_reference_refuted : exists t, is_elem t = true /\ distinct_attributes t /\
  types_readable t /\ prefixes_on_root t /\
  fst (updater_update o0 (Cybox_2_0_1_Updater o0) (DFile (Some t)) None false (memory [])) = Err TypeError.
Proof.
  exists bad_reference. split; [reflexivity|]. split; [apply distinct_decided; vm_compute; reflexivity|].
  split; [apply types_decided; vm_compute; reflexivity|]. split; [apply prefixes_decided; vm_compute; reflexivity|]. vm_compute. reflexivity.
Qed.
Print Assumptions C18_cybox_reference_refuted.

(** For every other vocabulary it holds: a document in which no value of those
    two vocabularies has a reference never makes a step fail in this way, in
    any version, forced or not.  (That a successful step stores the new
    reference as a string is part of [C17].) *)
Theorem C18_stix_reference_partial : forall o opts v up d force s t,
  dict_get v (STIX_UPDATERS o) = Some up -> wf_state s -> denotes s d t -> is_elem t = true -> distinct_attributes t ->
  no_broken_reference t -> fst (updater_update o up d opts force s) <> Err TypeError.
Proof. exact stix_reference. Qed.
Print Assumptions C18_stix_reference_partial.

Theorem C18_cybox_reference_partial : forall o opts v up d force s t,
  dict_get v (CYBOX_UPDATERS o) = Some up -> wf_state s -> denotes s d t -> is_elem t = true -> distinct_attributes t ->
  no_broken_reference t -> fst (updater_update o up d opts force s) <> Err TypeError.
Proof. exact cybox_reference. Qed.
Print Assumptions C18_cybox_reference_partial.

(** The condition is exact: a step that updates vocabularies never succeeds on a
    document with such a value, unless the value is among the fields that the
    step replaces by new ones or removes.  [t1] is the document the step works
    on, [labelled] for telling its nodes apart. *)
Theorem C18_stix_broken_never_succeeds : forall o opts v up d force s t r s',
  dict_get v (STIX_UPDATERS o) = Some up -> wf_state s -> denotes s d t -> is_elem t = true -> distinct_attributes t ->
  (v = "1.0.1" -> declares_nothing [common "Contributors"; object_name "WinMailslot" "Handle"] t) ->
  update_vocabularies (or_default o opts) = true -> updater_update o up d opts force s = (Ok r, s') ->
  exists t1, worked_on o up d opts force s t t1 /\
  forall anc x, In (anc, x) (visits [] (labelled t1)) ->
  (forall z, In z (x :: anc) -> stix_gone (or_default o opts) v (head z) = false) -> ~ broken_value v anc x.
Proof. exact stix_unbroken. Qed.
Print Assumptions C18_stix_broken_never_succeeds.

Theorem C18_cybox_broken_never_succeeds : forall o opts v up d force s t r s',
  dict_get v (CYBOX_UPDATERS o) = Some up -> wf_state s -> denotes s d t -> is_elem t = true -> distinct_attributes t ->
  (v = "2.0.1" -> declares_nothing [object_name "WinMailslot" "Handle"] t) ->
  update_vocabularies (or_default o opts) = true -> updater_update o up d opts force s = (Ok r, s') ->
  exists t1, worked_on o up d opts force s t t1 /\
  forall anc x, In (anc, x) (visits [] (labelled t1)) ->
  (forall z, In z (x :: anc) -> cybox_gone (or_default o opts) v (head z) = false) -> ~ broken_value v anc x.
Proof. exact cybox_unbroken. Qed.
Print Assumptions C18_cybox_broken_never_succeeds.

(** The value of [pkg_1_0_reference] is one, and kept.  Without its reference
    the update succeeds. *)
Definition pkg_1_0_no_reference : tree := package "1.0"
  [el (qn STIX_NS "TTP") [] [(lq "id", "ex:t1")] None
     [el (qn TTP_NS "Type") [] [(TAG_XSI_TYPE, "stixVocabs:PlanningAndOperationalSupportVocab-1.0")] (Some "Planning") []]].
Example C18_broken_case :
  (exists anc x, In (anc, x) (visits [] (labelled pkg_1_0_reference)) /\
     (forall z, In z (x :: anc) -> stix_gone (default_options o0) "1.0" (head z) = false) /\ broken_value "1.0" anc x) /\
  is_elem pkg_1_0_no_reference = true /\ distinct_attributes pkg_1_0_no_reference /\
  (exists c, In c (visits [] (labelled pkg_1_0_no_reference)) /\ outdated operational_support c = true) /\
  exists r s', updater_update o0 (STIX_1_0_Updater o0) (DFile (Some pkg_1_0_no_reference)) None false (memory []) = (Ok r, s').
Proof.
  split; [|split; [reflexivity|split; [apply distinct_decided; vm_compute; reflexivity|split]]].
  - set (c := nth 2 (visits [] (labelled pkg_1_0_reference)) ([], pkg_1_0_reference)). exists (fst c), (snd c).
    split; [vm_compute; auto|]. split; [intros z Hz; reflexivity|].
    split; [exists operational_support; split; [left; reflexivity|vm_compute; reflexivity]|vm_compute; reflexivity].
  - exists (nth 2 (visits [] (labelled pkg_1_0_no_reference)) ([], pkg_1_0_no_reference)). split; [vm_compute; auto|vm_compute; reflexivity].
  - eexists. eexists. vm_compute. reflexivity.
Qed.

(** A document with references for other vocabularies meets the hypotheses. *)
Definition pkg_1_1_reference : tree := package "1.1"
  [el (qn "http://stix.mitre.org/Incident-1" "Availability_Loss_Type") []
     [(TAG_XSI_TYPE, "stixVocabs:AvailabilityLossTypeVocab-1.0"); (lq "vocab_reference", "http://r")] (Some "Degredation") []].
Example C18_case : no_broken_reference pkg_1_1_reference /\ distinct_attributes pkg_1_1_reference /\
  exists r s', updater_update o0 (STIX_1_1_Updater o0) (DFile (Some pkg_1_1_reference)) None false (memory []) = (Ok r, s') .
Proof.
  split; [apply references_decided; vm_compute; reflexivity|]. split; [apply distinct_decided; vm_compute; reflexivity|].
  eexists. eexists. vm_compute. reflexivity.
Qed.
