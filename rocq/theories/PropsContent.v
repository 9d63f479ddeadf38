(** * Property theorems: locations, declared versions, names and text.

    As in PropsFields, [t1] is the document the step works on, [e] the new
    document with its nodes labelled by their place in [t1]. *)

From Coq Require Import String Ascii List Bool Arith NArith.
From Verif Require Import Str Xml XPath Utils Base Tables Cybox Stix Ramrod Spec SpecDoc SpecPass SpecStep
  SpecCheck SpecClean SpecUpdate SpecTrace SpecField SpecLocation Lib Samples Worked Marks Located Api Declared.
Import ListNotations.
Local Open Scope string_scope.

(** ** C22: schemaLocation *)

(** [relocated_root v]: the root (label 1) lists the same pairs without the
    dropped ones, under the new namespaces and with the new locations
    ([relisted]); every other node keeps its attribute. *)
Theorem C22_stix_locations : forall o opts v up d force s t r s',
  dict_get v (STIX_UPDATERS o) = Some up -> wf_state s -> denotes s d t -> distinct_attributes t ->
  updater_update o up d opts force s = (Ok r, s') ->
  exists t1 e, worked_on o up d opts force s t t1 /\ document s' (r_document r) (erase e) /\
    carried (stix_gone (or_default o opts) v) (labelled t1) e /\
    tid e = 1 /\ stems (relocated_root v) (labelled t1) e.
Proof. exact stix_locations. Qed.
Print Assumptions C22_stix_locations.

Theorem C22_cybox_locations : forall o opts v up d force s t r s',
  dict_get v (CYBOX_UPDATERS o) = Some up -> wf_state s -> denotes s d t -> distinct_attributes t ->
  updater_update o up d opts force s = (Ok r, s') ->
  exists t1 e, worked_on o up d opts force s t t1 /\ document s' (r_document r) (erase e) /\
    carried (cybox_gone (or_default o opts) v) (labelled t1) e /\
    tid e = 1 /\ stems (relocated_root v) (labelled t1) e.
Proof. exact cybox_locations. Qed.
Print Assumptions C22_cybox_locations.

(** Both sides of [relisted] are determined by the attribute value. *)
Theorem C22_words_determined : forall s l l', words s l -> words s l' -> l = l'.
Proof. intros s l l' H H'. rewrite <- (words_split s l H). apply words_split. exact H'. Qed.
Print Assumptions C22_words_determined.

Theorem C22_lists_determined : forall s l l', lists s l -> lists s l' -> l = l'.
Proof. intros s l l' H H'. rewrite <- (lists_unique s l H). apply lists_unique. exact H'. Qed.
Print Assumptions C22_lists_determined.

(** The CAPEC 2.7 extension came with STIX 1.1, but the step to 1.1 does not
    give it its location: its namespace is misspelt in the table. *)
Definition capec_2_7 : string := mitre "extensions/AP#CAPEC2.7-1".
Definition capec_2_7_in_1_1 : string :=
  stix_xsd "extensions/attack_pattern/capec_2.7" "1.0" "capec_2.7_attack_pattern".

Definition pkg_capec : tree :=
  el (qn STIX_NS "STIX_Package") std_decl
    [(lq "version", "1.0.1"); (TAG_SCHEMALOCATION, capec_2_7 ++ " capec.xsd")] None [].

Theorem C22_capec_refuted :
  ~ (forall o opts up d force s t r s' new v' l loc,
       dict_get "1.0.1" (STIX_UPDATERS o) = Some up -> wf_state s -> denotes s d t -> distinct_attributes t ->
       updater_update o up d opts force s = (Ok r, s') -> document s' (r_document r) new ->
       attr_of TAG_SCHEMALOCATION (head new) = Some v' -> lists v' l -> In (capec_2_7, loc) l ->
       loc = capec_2_7_in_1_1).
Proof.
  intro H.
  destruct (run_document (updater_update o0 (STIX_1_0_1_Updater o0) (DFile (Some pkg_capec)) None false (memory []))
    (fun new => ostr_eqb (attr_of TAG_SCHEMALOCATION (head new)) (Some (capec_2_7 ++ " capec.xsd"))))
    as (r & s' & new & E & D & B); [vm_compute; reflexivity|].
  apply ostr_eqb_eq in B.
  assert (X : "capec.xsd" = capec_2_7_in_1_1).
  { eapply (H o0 None _ (DFile (Some pkg_capec)) _ (memory []) pkg_capec r s' new _ (in_pairs (split_ws (capec_2_7 ++ " capec.xsd"))));
      [reflexivity| |reflexivity| |exact E|exact D|exact B| |vm_compute; left; reflexivity].
    - split; [constructor|intros i []].
    - apply distinct_decided. reflexivity.
    - exact (lists_pairs (capec_2_7 ++ " capec.xsd")). }
  discriminate X.
Qed.
Print Assumptions C22_capec_refuted.

Definition pkg_listed : tree :=
  el (qn STIX_NS "STIX_Package") std_decl
    [(lq "version", "1.0.1");
     (TAG_SCHEMALOCATION, " http://stix.mitre.org/stix-1 a.xsd
       http://stix.mitre.org/extensions/AP#CAPEC2.6-1 b.xsd http://cybox.mitre.org/objects#WinDriverObject-2	c.xsd urn:x d.xsd")]
    None [].

(** Four pairs, one dropped, one moved to a new namespace, one unknown. *)
Example C22_case :
  wf_state (memory []) /\ distinct_attributes pkg_listed /\
  (exists s l, attr_of TAG_SCHEMALOCATION (head pkg_listed) = Some s /\ lists s l /\ length l = 4 /\
     map (entry "1.0.1") (filter (fun p => negb (mem_str (fst p) (dropped "1.0.1"))) l)
     = [("http://stix.mitre.org/stix-1", "http://stix.mitre.org/XMLSchema/core/1.1/stix_core.xsd");
        ("http://cybox.mitre.org/objects#WinDriverObject-3",
         "http://cybox.mitre.org/XMLSchema/objects/Win_Driver/3.0/Win_Driver_Object.xsd");
        ("urn:x", "d.xsd")]) /\
  (exists r s', updater_update o0 (STIX_1_0_1_Updater o0) (DFile (Some pkg_listed)) None false (memory []) = (Ok r, s')) /\
  (exists r s', updater_update o0 (Cybox_2_0_Updater) (DFile (Some obs_2_0)) None false (memory []) = (Ok r, s')).
Proof.
  split; [split; [constructor|intros i []]|]. split; [apply distinct_decided; reflexivity|]. split.
  - eexists _, _. split; [reflexivity|]. split; [apply lists_pairs|]. vm_compute. split; reflexivity.
  - split; eexists _, _; vm_compute; reflexivity.
Qed.

(** ** C06: the declared version *)

Theorem C06_stix_declares_target : forall o d from to opts force s t r s',
  wf_state s -> denotes s d t -> named (stix "STIX_Package") t = true ->
  stix_update o d from to opts force s = (Ok r, s') ->
  exists new, document s' (r_document r) new /\
    attr_of (lq "version") (head new) = Some (match given to with Some b => b | None => "1.2.1" end).
Proof. exact stix_declares. Qed.
Print Assumptions C06_stix_declares_target.

(** [cybox_declared] reads the three version attributes of the root. *)
Theorem C06_cybox_declares_target : forall o d from to opts force s t r s',
  wf_state s -> denotes s d t -> named (cybox "Observables") t = true ->
  NoDup (map fst (h_attr (head t))) ->
  cybox_update o d from to opts force s = (Ok r, s') ->
  exists new, document s' (r_document r) new /\
    cybox_declared new = Some (match given to with Some b => b | None => "2.1" end).
Proof. exact cybox_declares. Qed.
Print Assumptions C06_cybox_declares_target.

(** Through the common entry point. *)
Theorem C06_update_declares_target : forall o d from to opts force s t r s',
  wf_state s -> denotes s d t -> NoDup (map fst (h_attr (head t))) ->
  ramrod_update o d from to opts force s = (Ok r, s') ->
  (named (stix "STIX_Package") t = true ->
   exists new, document s' (r_document r) new /\
     attr_of (lq "version") (head new) = Some (match given to with Some b => b | None => "1.2.1" end)) /\
  (named (cybox "Observables") t = true ->
   exists new, document s' (r_document r) new /\
     cybox_declared new = Some (match given to with Some b => b | None => "2.1" end)).
Proof.
  intros o d from to opts force s t r s' W D N E. split; intro Nm; pose proof Nm as C; apply named_called in C; injection C as _ C.
  - rewrite (ramrod_is_stix o d from to opts force s t W D) in E by (rewrite C; reflexivity). eapply stix_declares; eauto.
  - rewrite (ramrod_is_cybox o d from to opts force s t W D) in E by (rewrite C; reflexivity). eapply cybox_declares; eauto.
Qed.
Print Assumptions C06_update_declares_target.

(** Not for other roots: an update of a STIX fragment leaves the version of its
    root alone. *)
Definition fragment : tree :=
  el (qn STIX_NS "STIX_Header") std_decl [(lq "version", "1.1.1")] None [].

Theorem C06_other_roots_refuted :
  ~ (forall o d from to opts force s t r s' new,
       wf_state s -> denotes s d t -> q_ns (h_tag (head t)) = Some "http://stix.mitre.org/stix-1" ->
       stix_update o d from to opts force s = (Ok r, s') -> document s' (r_document r) new ->
       attr_of (lq "version") (head new) = Some (match given to with Some b => b | None => "1.2.1" end)).
Proof.
  intro H.
  destruct (run_document (stix_update o0 (DFile (Some fragment)) None (Some "1.2") None false (memory []))
    (fun new => ostr_eqb (attr_of (lq "version") (head new)) (Some "1.1.1"))) as (r & s' & new & E & D & B); [vm_compute; reflexivity|].
  apply ostr_eqb_eq in B.
  assert (X : attr_of (lq "version") (head new) = Some "1.2").
  { eapply (H o0 (DFile (Some fragment)) None (Some "1.2") None false (memory []) fragment r s' new); [|reflexivity|reflexivity|exact E|exact D].
    split; [constructor|intros i []]. }
  congruence.
Qed.
Print Assumptions C06_other_roots_refuted.

Example C06_case :
  wf_state (memory []) /\ named (stix "STIX_Package") pkg_1_0_1_bad = true /\ named (cybox "Observables") obs_2_0 = true /\
  NoDup (map fst (h_attr (head obs_2_0))) /\
  (exists r s', stix_update o0 (DFile (Some pkg_1_0_1_bad)) None (Some "1.2") None true (memory []) = (Ok r, s')) /\
  (exists r s', stix_update o0 (DFile (Some pkg_1_1_vocab)) None None None false (memory []) = (Ok r, s')) /\
  (exists r s', ramrod_update o0 (DFile (Some obs_2_0)) None None None false (memory []) = (Ok r, s')).
Proof.
  split; [split; [constructor|intros i []]|]. split; [reflexivity|]. split; [reflexivity|]. split.
  - apply nodupb_NoDup. reflexivity.
  - repeat split; eexists _, _; vm_compute; reflexivity.
Qed.
