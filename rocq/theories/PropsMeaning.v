(** * Property theorems: what prefixes and types mean after a step.

    [t1], [e] and labels as in PropsFields.v: [stems_in R] relates every node
    of the new document that comes from the document worked on to that node,
    each with the nodes above it. *)

From Coq Require Import String Ascii List Bool Arith NArith.
From Verif Require Import Str Xml XPath Utils Base Tables Cybox Stix Ramrod Spec SpecDoc SpecPass SpecStep
  SpecCheck SpecClean SpecUpdate SpecTrace SpecField SpecMeaning Lib Samples Worked Meaning.
Import ListNotations.
Local Open Scope string_scope.

(** ** C51: a prefix and a type keep their meaning *)

(** Every prefix stands for what it stood for, up to the namespaces that the
    step replaces. *)
Theorem C51_stix_prefixes_partial : forall o opts v up d force s t r s',
  dict_get v (STIX_UPDATERS o) = Some up -> wf_state s -> denotes s d t -> is_elem t = true ->
  (v = "1.0.1" -> declares_nothing [common "Contributors"; object_name "WinMailslot" "Handle"] t) ->
  updater_update o up d opts force s = (Ok r, s') ->
  exists t1 e, worked_on o up d opts force s t t1 /\ document s' (r_document r) (erase e) /\
    carried (stix_gone (or_default o opts) v) (labelled t1) e /\
    stems_in (prefixes_follow (replaced_namespaces v)) (labelled t1) e.
Proof. exact stix_prefixes_followed. Qed.
Print Assumptions C51_stix_prefixes_partial.

Theorem C51_cybox_prefixes_partial : forall o opts v up d force s t r s',
  dict_get v (CYBOX_UPDATERS o) = Some up -> wf_state s -> denotes s d t -> is_elem t = true ->
  (v = "2.0.1" -> declares_nothing [object_name "WinMailslot" "Handle"] t) ->
  updater_update o up d opts force s = (Ok r, s') ->
  exists t1 e, worked_on o up d opts force s t t1 /\ document s' (r_document r) (erase e) /\
    carried (cybox_gone (or_default o opts) v) (labelled t1) e /\
    stems_in (prefixes_follow (replaced_namespaces v)) (labelled t1) e.
Proof. exact cybox_prefixes_followed. Qed.
Print Assumptions C51_cybox_prefixes_partial.

(** In a document that declares no prefix for a replaced namespace every prefix
    stands for exactly what it stood for. *)
Theorem C51_stix_prefixes_kept_partial : forall o opts v up d force s t r s',
  dict_get v (STIX_UPDATERS o) = Some up -> wf_state s -> denotes s d t -> is_elem t = true ->
  (v = "1.0.1" -> declares_nothing [common "Contributors"; object_name "WinMailslot" "Handle"] t) ->
  declares_no_replaced (replaced_namespaces v) t ->
  updater_update o up d opts force s = (Ok r, s') ->
  exists t1 e, worked_on o up d opts force s t t1 /\ document s' (r_document r) (erase e) /\
    carried (stix_gone (or_default o opts) v) (labelled t1) e /\
    stems_in (fun line line' => forall prefix, meaning prefix line' = meaning prefix line) (labelled t1) e.
Proof. exact stix_prefixes_kept. Qed.
Print Assumptions C51_stix_prefixes_kept_partial.

Theorem C51_cybox_prefixes_kept_partial : forall o opts v up d force s t r s',
  dict_get v (CYBOX_UPDATERS o) = Some up -> wf_state s -> denotes s d t -> is_elem t = true ->
  (v = "2.0.1" -> declares_nothing [object_name "WinMailslot" "Handle"] t) ->
  declares_no_replaced (replaced_namespaces v) t ->
  updater_update o up d opts force s = (Ok r, s') ->
  exists t1 e, worked_on o up d opts force s t t1 /\ document s' (r_document r) (erase e) /\
    carried (cybox_gone (or_default o opts) v) (labelled t1) e /\
    stems_in (fun line line' => forall prefix, meaning prefix line' = meaning prefix line) (labelled t1) e.
Proof. exact cybox_prefixes_kept. Qed.
Print Assumptions C51_cybox_prefixes_kept_partial.

(** The type an element names: a value of an outdated vocabulary has the new
    type of that vocabulary's namespace, any other element the type it had. *)
Theorem C51_stix_types_partial : forall o opts v up d force s t r s',
  dict_get v (STIX_UPDATERS o) = Some up -> wf_state s -> denotes s d t -> is_elem t = true -> distinct_attributes t ->
  (v = "1.0.1" -> declares_nothing [common "Contributors"; object_name "WinMailslot" "Handle"] t) ->
  updater_update o up d opts force s = (Ok r, s') ->
  exists t1 e, worked_on o up d opts force s t t1 /\ document s' (r_document r) (erase e) /\
    carried (stix_gone (or_default o opts) v) (labelled t1) e /\
    stems_in (types_follow (if update_vocabularies (or_default o opts) then stix_vocabularies v else [])
                (replaced_namespaces v)) (labelled t1) e.
Proof. exact stix_types_followed. Qed.
Print Assumptions C51_stix_types_partial.

Theorem C51_cybox_types_partial : forall o opts v up d force s t r s',
  dict_get v (CYBOX_UPDATERS o) = Some up -> wf_state s -> denotes s d t -> is_elem t = true -> distinct_attributes t ->
  (v = "2.0.1" -> declares_nothing [object_name "WinMailslot" "Handle"] t) ->
  updater_update o up d opts force s = (Ok r, s') ->
  exists t1 e, worked_on o up d opts force s t t1 /\ document s' (r_document r) (erase e) /\
    carried (cybox_gone (or_default o opts) v) (labelled t1) e /\
    stems_in (types_follow (if update_vocabularies (or_default o opts) then cybox_vocabularies v else [])
                (replaced_namespaces v)) (labelled t1) e.
Proof. exact cybox_types_followed. Qed.
Print Assumptions C51_cybox_types_partial.

(** From 1.2, in a package that declares all its namespaces on the root, every
    type is the same type of the successor of its namespace. *)
Theorem C51_stix_1_2_types : forall o opts up d s t r s',
  dict_get "1.2" (STIX_UPDATERS o) = Some up -> wf_state s -> denotes s d t -> is_elem t = true -> distinct_attributes t ->
  replaced stix_1_2_ns_map [t] = true -> declared_on_root t ->
  updater_update o up d opts false s = (Ok r, s') ->
  exists e, document s' (r_document r) (erase e) /\ carried (fun _ => false) (labelled t) e /\
    stems_in (fun line line' => type_named line' = option_map (in_successor stix_1_2_ns_map) (type_named line)) (labelled t) e.
Proof. exact stix_1_2_types. Qed.
Print Assumptions C51_stix_1_2_types.

(** False of the code for the driver objects of CybOX 2.0.1: their content
    moves to the new namespace, but the type of the object, written on an
    element of CybOX itself, stays in the old one, even when every namespace is
    declared on the root. *)
Definition DRIVER_2 : string := "http://cybox.mitre.org/objects#WinDriverObject-2".
Definition obs_driver : tree :=
  el (qn CYBOX_NS "Observables") ((Some "WinDriverObj", DRIVER_2) :: std_decl)
     [(lq "cybox_major_version", "2"); (lq "cybox_minor_version", "0"); (lq "cybox_update_version", "1")] None
    [el (qn CYBOX_NS "Object") [] [] None
       [el (qn CYBOX_NS "Properties") [] [(TAG_XSI_TYPE, "WinDriverObj:WindowsDriverObjectType")] None
          [el (qn DRIVER_2 "Driver_Name") [] [] (Some "d") []]]].

Theorem C51_driver_type_refuted :
  ~ (forall o opts up d force s t r s' new anc x name,
       dict_get "2.0.1" (CYBOX_UPDATERS o) = Some up -> wf_state s -> denotes s d t ->
       is_elem t = true -> distinct_attributes t -> declared_on_root t ->
       updater_update o up d opts force s = (Ok r, s') -> document s' (r_document r) new ->
       In (anc, x) (visits [] new) ->
       type_named (x :: anc) <> Some (Some "http://cybox.mitre.org/objects#WinDriverObject-2", name)).
Proof.
  intro H.
  destruct (run_document (updater_update o0 (Cybox_2_0_1_Updater o0) (DFile (Some obs_driver)) None false (memory []))
    (fun new => existsb (fun c => match type_named (snd c :: fst c) with
                                  | Some (Some u, n) => String.eqb u DRIVER_2 && String.eqb n "WindowsDriverObjectType"
                                  | _ => false end) (visits [] new)))
    as (r & s' & new & E & D & B); [vm_compute; reflexivity|].
  apply existsb_exists in B as ([anc x] & Hx & B). cbn [fst snd] in B.
  destruct (type_named (x :: anc)) as [[[u|] n]|] eqn:T; try discriminate B. apply andb_true_iff in B as [A B].
  apply String.eqb_eq in A, B. subst.
  refine (H o0 None (Cybox_2_0_1_Updater o0) (DFile (Some obs_driver)) _ (memory []) obs_driver r s' new anc x _ eq_refl _ eq_refl eq_refl _ _ E D Hx T).
  - split; [constructor|intros i []].
  - apply distinct_decided. reflexivity.
  - intros y Hy. vm_compute in Hy. decompose [or] Hy; subst; try reflexivity; contradiction.
Qed.
Print Assumptions C51_driver_type_refuted.

(** The elements that are taken away must declare nothing: what they declare
    is lost for the nodes they held. *)
Definition pkg_inner_contributors : tree :=
  package "1.0.1"
    [el (qn COMMON_NS "Contributors") [(Some "my", "urn:my")] [] None
       [el (qn COMMON_NS "Contributor") [] [(TAG_XSI_TYPE, "my:IdentityType")] (Some "A") []]].
Definition no_vocabularies : options := Options true (fun _ s => s) false true.

Theorem C51_contributors_refuted :
  ~ (forall o opts up d force s t r s' new,
       dict_get "1.0.1" (STIX_UPDATERS o) = Some up -> wf_state s -> denotes s d t ->
       is_elem t = true -> distinct_attributes t ->
       (forall anc x name, In (anc, x) (visits [] t) -> type_named (x :: anc) <> Some (None, name)) ->
       updater_update o up d opts force s = (Ok r, s') -> document s' (r_document r) new ->
       forall anc x name, In (anc, x) (visits [] new) -> type_named (x :: anc) <> Some (None, name)).
Proof.
  intro H.
  destruct (run_document (updater_update o0 (STIX_1_0_1_Updater o0) (DFile (Some pkg_inner_contributors)) (Some no_vocabularies) false (memory []))
    (fun new => existsb (fun c => match type_named (snd c :: fst c) with
                                  | Some (None, n) => true
                                  | _ => false end) (visits [] new)))
    as (r & s' & new & E & D & B); [vm_compute; reflexivity|].
  apply existsb_exists in B as ([anc x] & Hx & B). cbn [fst snd] in B.
  destruct (type_named (x :: anc)) as [[[u|] n]|] eqn:T; try discriminate B.
  refine (H o0 (Some no_vocabularies) (STIX_1_0_1_Updater o0) (DFile (Some pkg_inner_contributors)) _ (memory []) pkg_inner_contributors r s' new eq_refl _ eq_refl eq_refl _ _ E D anc x n Hx T).
  - split; [constructor|intros i []].
  - apply distinct_decided. reflexivity.
  - intros b y m Hy T'.
    assert (B' : forallb (fun c => match type_named (snd c :: fst c) with Some (None, _) => false | _ => true end)
                   (visits [] pkg_inner_contributors) = true) by (vm_compute; reflexivity).
    rewrite forallb_forall in B'. specialize (B' (b, y) Hy). cbn [fst snd] in B'. rewrite T' in B'. discriminate.
Qed.
Print Assumptions C51_contributors_refuted.

(** An outdated type, a type kept, and in the 1.2 package a type whose
    namespace is replaced. *)
Definition pkg_1_2_typed : tree :=
  package "1.2"
    [el (qn STIX_NS "Indicator") [] [(lq "id", "ex:i1"); (TAG_XSI_TYPE, "indicator:IndicatorType")] None
       [el (qn INDICATOR_NS "Type") [] [(TAG_XSI_TYPE, "stixVocabs:IndicatorTypeVocab-1.1")] (Some "IP Watchlist") []]].

Example C51_case :
  wf_state (memory []) /\
  (is_elem pkg_1_1_vocab = true /\ distinct_attributes pkg_1_1_vocab /\
   declares_no_replaced (replaced_namespaces "1.1") pkg_1_1_vocab /\
   (exists anc, In (anc, loss_elem) (visits [] pkg_1_1_vocab) /\
      type_named (loss_elem :: anc) = Some (Some "http://stix.mitre.org/default_vocabularies-1", "AvailabilityLossTypeVocab-1.0") /\
      outdated availability_loss (anc, loss_elem) = true) /\
   exists r s', updater_update o0 (STIX_1_1_Updater o0) (DFile (Some pkg_1_1_vocab)) None false (memory []) = (Ok r, s')) /\
  (declares_nothing [common "Contributors"; object_name "WinMailslot" "Handle"] pkg_1_0_1 /\
   declares_no_replaced (replaced_namespaces "1.0.1") pkg_1_0_1 /\
   exists r s', updater_update o0 (STIX_1_0_1_Updater o0) (DFile (Some pkg_1_0_1)) None false (memory []) = (Ok r, s')) /\
  (declares_nothing [object_name "WinMailslot" "Handle"] obs_driver /\
   (exists c, In c (visits [] obs_driver) /\ replaced (replaced_namespaces "2.0.1") (snd c :: fst c) = true /\
      meaning_after (replaced_namespaces "2.0.1") "WinDriverObj" (snd c :: fst c) = Some "http://cybox.mitre.org/objects#WinDriverObject-3") /\
   exists r s', updater_update o0 (Cybox_2_0_1_Updater o0) (DFile (Some obs_driver)) None false (memory []) = (Ok r, s')) /\
  (is_elem pkg_1_2_typed = true /\ distinct_attributes pkg_1_2_typed /\ replaced stix_1_2_ns_map [pkg_1_2_typed] = true /\
   declared_on_root pkg_1_2_typed /\
   (exists c, In c (visits [] pkg_1_2_typed) /\
      option_map (in_successor stix_1_2_ns_map) (type_named (snd c :: fst c))
      = Some (Some "http://docs.oasis-open.org/cti/ns/stix/indicator-1", "IndicatorType")) /\
   exists r s', updater_update o0 STIX_1_2_Updater (DFile (Some pkg_1_2_typed)) None false (memory []) = (Ok r, s')).
Proof.
  split; [split; [constructor|intros i []]|]. split.
  { split; [reflexivity|]. split; [apply distinct_decided; reflexivity|]. split; [intros x _ p ns _ []|]. split.
    - eexists. split; [cbn; do 5 right; left; reflexivity|]. split; reflexivity.
    - eexists _, _; vm_compute; reflexivity. }
  split.
  { split; [apply declares_decided; reflexivity|]. split.
    - intros x Hx p ns I. vm_compute in Hx. decompose [or] Hx; subst; try contradiction; vm_compute in I; decompose [or] I; try contradiction;
        match goal with X : (_, _) = (_, _) |- _ => injection X as <- <- end; intro J; vm_compute in J; decompose [or] J; try discriminate; auto.
    - eexists _, _; vm_compute; reflexivity. }
  split.
  { split; [apply declares_decided; reflexivity|]. split.
    - eexists. split; [cbn; do 3 right; left; reflexivity|]. split; reflexivity.
    - eexists _, _; vm_compute; reflexivity. }
  split; [reflexivity|]. split; [apply distinct_decided; reflexivity|]. split; [reflexivity|]. split.
  { intros y Hy. vm_compute in Hy. decompose [or] Hy; subst; try reflexivity; contradiction. }
  split; [|eexists _, _; vm_compute; reflexivity].
  eexists. split; [cbn; do 1 right; left; reflexivity|]. vm_compute. reflexivity.
Qed.
