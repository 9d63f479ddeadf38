(** * Property theorems: a well-formed document never crashes an update. *)

From Coq Require Import String Ascii List Bool Arith NArith.
From Verif Require Import Str Xml XPath Utils Base Tables Cybox Stix Ramrod Spec SpecDoc SpecPass SpecStep
  SpecCheck SpecClean SpecUpdate SpecTrace SpecField SpecFault SpecIds Lib Samples Worked Faults Forced PropsFaults Plain Sound.
Import ListNotations.
Local Open Scope string_scope.

(** ** C48: a well-formed document never crashes an update *)

(** From any version to any other, through any number of steps. *)
Theorem C48_update_no_crash : forall o update d from to opts force s t x s',
  entry o update -> wf_state s -> denotes s d t -> is_elem t = true -> distinct_attributes t ->
  acceptable t -> (force = true -> plain_values_present t) ->
  update d from to opts force s = (Err x, s') ->
  documented x \/ x = NotImplementedError /\ force = true.
Proof. exact entry_sound. Qed.
Print Assumptions C48_update_no_crash.

(** An update that is not forced fails with a documented exception or succeeds. *)
Theorem C48_unforced : forall o update d from to opts s t,
  entry o update -> wf_state s -> denotes s d t -> is_elem t = true -> distinct_attributes t -> acceptable t ->
  (exists r s', update d from to opts false s = (Ok r, s')) \/
  (exists x s', update d from to opts false s = (Err x, s') /\ documented x).
Proof.
  intros o update d from to opts s t En W D El Di A. destruct (update d from to opts false s) as [[r|x] s'] eqn:E; [left; eauto|].
  right. exists x, s'. split; auto. destruct (entry_sound o update d from to opts false s t x s' En W D El Di A) as [K|[_ K]]; auto; discriminate.
Qed.
Print Assumptions C48_unforced.

(** A forced CybOX update has no further exception. *)
Theorem C48_cybox_no_crash : forall o d from to opts force s t x s',
  wf_state s -> denotes s d t -> is_elem t = true -> distinct_attributes t ->
  acceptable t -> (force = true -> plain_values_present t) ->
  cybox_update o d from to opts force s = (Err x, s') -> documented x.
Proof. exact cybox_never. Qed.
Print Assumptions C48_cybox_no_crash.

(** Each single step keeps the conditions: the result of a successful step of
    an acceptable document has readable types, declared prefixes, no broken
    reference, plain sources, readable versions and whole sections again. *)
Theorem C48_stix_step_keeps : forall o opts v up d force s t r s' new,
  dict_get v (STIX_UPDATERS o) = Some up -> v <> "1.2" -> wf_state s -> denotes s d t -> is_elem t = true -> distinct_attributes t -> acceptable t ->
  updater_update o up d opts force s = (Ok r, s') -> document s' (r_document r) new ->
  is_elem new = true /\ distinct_attributes new /\ types_readable new /\ prefixes_on_root new /\ no_broken_reference new /\
  sources_plain new /\ versions_readable new /\ sections_whole new.
Proof. exact step_keeps. Qed.
Print Assumptions C48_stix_step_keeps.

Theorem C48_cybox_step_keeps : forall o opts v up d force s t r s' new,
  dict_get v (CYBOX_UPDATERS o) = Some up -> wf_state s -> denotes s d t -> is_elem t = true -> distinct_attributes t -> acceptable t ->
  updater_update o up d opts force s = (Ok r, s') -> document s' (r_document r) new ->
  is_elem new = true /\ distinct_attributes new /\ types_readable new /\ prefixes_on_root new /\ no_broken_reference new /\
  sources_plain new /\ versions_readable new /\ sections_whole new.
Proof. exact cybox_step_keeps. Qed.
Print Assumptions C48_cybox_step_keeps.

(** The hypotheses are met by documents with vocabulary values, contributors,
    sources and HTTP fields, and those are updated to the newest version. *)
Definition fully (update : docarg -> option string -> option string -> option options -> bool -> M results) (force : bool) (t : tree) : option exn :=
  match fst (update (DFile (Some t)) None None None force (memory [])) with Ok _ => None | Err x => Some x end.

Example C48_cases :
  (acceptable pkg_1_0_1 /\ plain_values_present pkg_1_0_1 /\ distinct_attributes pkg_1_0_1 /\ fully (ramrod_update o0) false pkg_1_0_1 = None) /\
  (acceptable pkg_1_1_vocab /\ plain_values_present pkg_1_1_vocab /\ distinct_attributes pkg_1_1_vocab /\ fully (stix_update o0) false pkg_1_1_vocab = None) /\
  (acceptable obs_dnt /\ plain_values_present obs_dnt /\ distinct_attributes obs_dnt /\ fully (cybox_update o0) true obs_dnt = None).
Proof.
  split; [|split]; (split; [apply acceptable_decided; vm_compute; reflexivity|]); (split; [apply plain_values_decided; vm_compute; reflexivity|]);
    (split; [apply distinct_decided; vm_compute; reflexivity|]); vm_compute; reflexivity.
Qed.

(** The same package can fail for a documented reason, or be forced. *)
Example C48_documented : acceptable pkg_1_0_1_bad /\ plain_values_present pkg_1_0_1_bad /\
  (exists x, fully (ramrod_update o0) false pkg_1_0_1_bad = Some x /\ documented x) /\ fully (ramrod_update o0) true pkg_1_0_1_bad = None.
Proof.
  split; [apply acceptable_decided; vm_compute; reflexivity|]. split; [apply plain_values_decided; vm_compute; reflexivity|].
  split; [|vm_compute; reflexivity]. eexists. split; [vm_compute; reflexivity|constructor].
Qed.

(** The exception of the forced case does occur: the 1.2 step cannot be forced
    on a document of another version. *)
Example C48_not_implemented :
  acceptable pkg_1_1 /\ fst (stix_update o0 (DFile (Some pkg_1_1)) (Some "1.2") None None true (memory [])) = Err NotImplementedError.
Proof. split; [apply acceptable_decided|]; vm_compute; reflexivity. Qed.

(** Each of the eight conditions is needed for whole updates too. *)
Example C48_each_condition_needed :
  (map (fun b => b bad_type) conditions = [false; true; true; true; true; true; true; true] /\ fully (ramrod_update o0) false bad_type = Some ValueError) /\
  (map (fun b => b bad_prefix) conditions = [true; false; true; true; true; true; true; true] /\ fully (ramrod_update o0) false bad_prefix = Some KeyError) /\
  (map (fun b => b bad_reference) conditions = [true; true; false; true; true; true; true; true] /\ fully (ramrod_update o0) false bad_reference = Some TypeError) /\
  (map (fun b => b bad_value) conditions = [true; true; true; false; true; true; true; true] /\ fully (ramrod_update o0) false bad_value = Some IndexError) /\
  (map (fun b => b bad_contributors) conditions = [true; true; true; true; false; true; true; true] /\ fully (ramrod_update o0) false bad_contributors = Some AttributeError) /\
  (map (fun b => b bad_source) conditions = [true; true; true; true; true; false; true; true] /\ fully (ramrod_update o0) false bad_source = Some XMLSyntaxError) /\
  (map (fun b => b bad_version) conditions = [true; true; true; true; true; true; false; true] /\
   fst (ramrod_update o0 (DFile (Some bad_version)) (Some "1.1") None None false (memory [])) = Err ValueError) /\
  (map (fun b => b bad_section) conditions = [true; true; true; true; true; true; true; false] /\ fully (ramrod_update o0) false bad_section = Some ValueError).
Proof. vm_compute. repeat split. Qed.
