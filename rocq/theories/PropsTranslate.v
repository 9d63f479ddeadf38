(** * Property theorems: translated fields.

    [labelled t1] is the document the step works on.  It is first relabelled
    with the new versions, locations and namespaces ([a]), then the fields are
    translated ([b]), then come vocabularies and optional elements. *)

From Coq Require Import String Ascii List Bool Arith.
From Verif Require Import Str Xml XPath Utils Base Tables Cybox Stix Ramrod Spec SpecDoc SpecPass SpecStep
  SpecCheck SpecClean SpecUpdate SpecTrace SpecTranslate Lib Samples Worked Translated SpecRead Reading.
Import ListNotations.
Local Open Scope string_scope.

(** ** C26: translated fields keep their value *)

(** CybOX 2.0.1 to 2.1.  [all_done cybox_2_0_1_translations a b] (SpecTranslate):
    DNT and Vary take the text and attributes of their value, Refresh becomes a
    string, four fields are renamed, a handle list becomes its handle; nothing
    else is changed. *)
Theorem C26_cybox_2_0_1 : forall o opts up d force s t r s',
  dict_get "2.0.1" (CYBOX_UPDATERS o) = Some up -> wf_state s -> denotes s d t ->
  updater_update o up d opts force s = (Ok r, s') ->
  exists t1 a b e, worked_on o up d opts force s t t1 /\
    in_order [namespaces_pass [] driver_ns; always (schemaloc_pass [] driver_ns cybox_2_0_1_schemaloc_map);
              always (edit_where (anywhere [cybox "Observables"]) stamp_cybox_2_1)] (labelled t1) = Ok a /\
    all_done cybox_2_0_1_translations a b /\
    in_order [when (update_vocabularies (or_default o opts)) (passes vocab_pass [object_relationship; tool_type; action_name]);
              when (remove_optionals (or_default o opts)) (always (optional_pass (any_inside cybox_2_1_optional)))] b = Ok e /\
    document s' (r_document r) (erase e).
Proof.
  intros o opts up d force s t r s' U W D E.
  destruct (cybox_step_worked o opts "2.0.1" up _ d force s t r s' U eq_refl W D E) as (t1 & e & Wk & _ & F & Doc).
  destruct (cybox_2_0_1_translated _ _ _ _ F) as (a & b & A & B & C). exists t1, a, b, e. auto 6.
Qed.
Print Assumptions C26_cybox_2_0_1.

(** STIX 1.0.1 to 1.1: first the CybOX content as above ([c]), then contributors
    and exploit targets are wrapped, with their full content. *)
Theorem C26_stix_1_0_1 : forall o opts up d force s t r s',
  dict_get "1.0.1" (STIX_UPDATERS o) = Some up -> wf_state s -> denotes s d t ->
  updater_update o up d opts force s = (Ok r, s') ->
  exists t1 a b c a' b' e, worked_on o up d opts force s t t1 /\
    in_order [namespaces_pass [] driver_ns; always (schemaloc_pass [] driver_ns cybox_2_0_1_schemaloc_map);
              always (edit_where (any_inside cybox_in_stix_1_0_1) stamp_cybox_2_1)] (labelled t1) = Ok a /\
    all_done cybox_2_0_1_translations a b /\
    in_order [when (update_vocabularies (or_default o opts)) (passes vocab_pass [object_relationship; tool_type; action_name]);
              when (remove_optionals (or_default o opts)) (always (optional_pass (any_inside cybox_2_1_optional)))] b = Ok c /\
    in_order [always (schemaloc_pass ["http://stix.mitre.org/extensions/AP#CAPEC2.6-1";
                        "http://stix.mitre.org/extensions/Malware#MAEC4.0-1"] [] stix_1_0_1_schemaloc_map);
              always (edit_where carries_version (stamp_stix "2.1" "1.1"))] c = Ok a' /\
    all_done stix_1_0_1_translations a' b' /\
    in_order [when (update_vocabularies (or_default o opts)) (passes vocab_pass [motivation_1_1; indicator_type]);
              when (remove_optionals (or_default o opts))
                (always (optional_pass (any_inside [marking "Controlled_Structure"; marking "Marking_Structure"])))] b' = Ok e /\
    document s' (r_document r) (erase e).
Proof.
  intros o opts up d force s t r s' U W D E.
  destruct (stix_step_worked o opts "1.0.1" up _ d force s t r s' U eq_refl W D E) as (t1 & e & Wk & _ & F & Doc).
  destruct (stix_1_0_1_translated _ _ _ F) as (c & a' & b' & C & A' & B' & E').
  destruct (cybox_2_0_1_translated _ _ _ _ C) as (a & b & A & B & C').
  exists t1, a, b, c, a', b', e. auto 10.
Qed.
Print Assumptions C26_stix_1_0_1.

(** STIX 1.1 to 1.1.1.  Partial: [becomes_source] says that the text of a source
    is read as XML once more; it keeps its value only where it is plain
    ([C26_plain_text_kept], and the refutations below for the others). *)
Theorem C26_stix_1_1_partial : forall o opts up d force s t r s',
  dict_get "1.1" (STIX_UPDATERS o) = Some up -> wf_state s -> denotes s d t ->
  updater_update o up d opts force s = (Ok r, s') ->
  exists t1 a b e, worked_on o up d opts force s t t1 /\
    in_order [always (schemaloc_pass [] driver_ns cybox_2_0_1_schemaloc_map);
              always (schemaloc_pass [] [] stix_1_1_schemaloc_map);
              always (edit_where carries_version (stamp_stix "2.1.1" "1.1.1"))] (labelled t1) = Ok a /\
    all_done stix_1_1_translations a b /\
    in_order [when (update_vocabularies (or_default o opts)) (vocab_pass availability_loss);
              when (remove_optionals (or_default o opts)) (optional_in_type "GenericTestMechanismType"
                "http://stix.mitre.org/extensions/TestMechanism#Generic-1")] b = Ok e /\
    document s' (r_document r) (erase e).
Proof.
  intros o opts up d force s t r s' U W D E.
  destruct (stix_step_worked o opts "1.1" up _ d force s t r s' U eq_refl W D E) as (t1 & e & Wk & _ & F & Doc).
  destruct (stix_1_1_translated _ _ _ _ F) as (a & b & A & B & C). exists t1, a, b, e. auto 6.
Qed.
Print Assumptions C26_stix_1_1_partial.

(** The relations leave no choice. *)
Theorem C26_replaced_determined : forall (field : list tree -> tree -> Prop) (becomes : tree -> tree -> Prop),
  (forall x a b, becomes x a -> becomes x b -> a = b) ->
  forall t anc a b, replaced_in field becomes anc t a -> replaced_in field becomes anc t b -> a = b.
Proof. exact replaced_unique. Qed.
Print Assumptions C26_replaced_determined.

Theorem C26_renamed_determined : forall (field : list tree -> tree -> Prop) q t anc a b,
  renamed_in field q anc t a -> renamed_in field q anc t b -> a = b.
Proof. exact renamed_unique. Qed.
Print Assumptions C26_renamed_determined.

(** Plain text is read as itself, and any text is read in at most one way. *)
Theorem C26_plain_text_kept : forall s, plain_text s -> read_as s s.
Proof. exact read_plain. Qed.
Print Assumptions C26_plain_text_kept.

Theorem C26_reading_determined : forall s n m, read_as s n -> read_as s m -> n = m.
Proof. exact read_unique. Qed.
Print Assumptions C26_reading_determined.

(** Conversely, text that is kept contains no character that would be read
    otherwise. *)
Theorem C26_only_plain_text_kept : forall s, read_as s s -> contains "<" s = false /\ contains "&" s = false /\
  contains (String carriage_return "") s = false.
Proof. exact read_fixed. Qed.
Print Assumptions C26_only_plain_text_kept.

(** An entity is read as its character, and a lone ampersand not at all. *)
Example C26_reading_case : read_as "a &lt; b" "a < b" /\ without_tags "a & b" /\ (forall n, ~ read_as "a & b" n) /\ plain_text "ACME Corp.".
Proof.
  split; [|split; [split; reflexivity|split; [|repeat split; reflexivity]]].
  - do 2 (apply read_char; try discriminate). apply (read_lt " b" " b"). do 2 (apply read_char; try discriminate). constructor.
  - intros n R. apply read_decode in R. discriminate R.
Qed.

(** The text of a source is not kept in general: it is pasted into XML
    unescaped, so text that looks like an entity is changed. *)
Theorem C26_source_text_refuted :
  ~ (forall o opts up d force s t r s' new anc x txt,
       dict_get "1.1" (STIX_UPDATERS o) = Some up -> wf_state s -> denotes s d t ->
       updater_update o up d opts force s = (Ok r, s') -> document s' (r_document r) new ->
       In (anc, x) (visits [] t) -> field_of [indicator "Sighting"] (indicator "Source") anc x ->
       h_text (head x) = Some txt ->
       exists y, In y (nodes new) /\ h_text (head y) = Some txt).
Proof.
  intro H. set (t := sighting_source (Some "a &lt; b")).
  destruct (run_document (updater_update o0 (STIX_1_1_Updater o0) (DFile (Some t)) None false (memory []))
    (fun new => forallb (fun y => negb (ostr_eqb (h_text (head y)) (Some "a &lt; b"))) (nodes new)))
    as (r & s' & new & E & D & B); [vm_compute; reflexivity|].
  destruct (H o0 None (STIX_1_1_Updater o0) (DFile (Some t)) false (memory []) t r s' new (fst (nth 3 (visits [] t) ([], t))) (snd (nth 3 (visits [] t) ([], t))) "a &lt; b") as (y & Y & T);
    [reflexivity|split; [constructor|intros i []]|reflexivity|exact E|exact D|right; right; right; left; reflexivity| |reflexivity|].
  - apply field_of_iff. reflexivity.
  - rewrite forallb_forall in B. specialize (B y Y). rewrite T in B. discriminate B.
Qed.
Print Assumptions C26_source_text_refuted.

(** A source without text gets the name "None". *)
Theorem C26_missing_source_refuted :
  ~ (forall o opts up d force s t r s' new y txt,
       dict_get "1.1" (STIX_UPDATERS o) = Some up -> wf_state s -> denotes s d t ->
       updater_update o up d opts force s = (Ok r, s') -> document s' (r_document r) new ->
       (forall x, In x (nodes t) -> h_text (head x) = None) ->
       In y (nodes new) -> element_named (common "Name") y -> h_text (head y) = Some txt -> False).
Proof.
  intro H. set (t := sighting_source None).
  destruct (run_document (updater_update o0 (STIX_1_1_Updater o0) (DFile (Some t)) None false (memory []))
    (fun new => existsb (fun y => named (common "Name") y && ostr_eqb (h_text (head y)) (Some "None")) (nodes new)))
    as (r & s' & new & E & D & B); [vm_compute; reflexivity|].
  apply existsb_exists in B as (y & Y & B). apply andb_true_iff in B as [N T].
  assert (T' : h_text (head y) = Some "None").
  { destruct (h_text (head y)) as [x|]; [|discriminate]. simpl in T. apply String.eqb_eq in T. congruence. }
  eapply (H o0 None (STIX_1_1_Updater o0) (DFile (Some t)) false (memory []) t r s' new y "None");
    [reflexivity|split; [constructor|intros i []]|reflexivity|exact E|exact D| |exact Y|apply named_iff; exact N|exact T'].
  intros x X. vm_compute in X. repeat (destruct X as [<-|X]; [reflexivity|]). destruct X.
Qed.
Print Assumptions C26_missing_source_refuted.

(** Documents whose fields are translated. *)
Example C26_case :
  (exists r s' new, updater_update o0 (STIX_1_0_1_Updater o0) (DFile (Some pkg_1_0_1_fields)) None false (memory []) = (Ok r, s') /\
     document s' (r_document r) new /\
     map (fun q => length (filter (named q) (nodes new)))
       [http_name "DNT"; uri_value; http_name "X_Requested_For"; http_name "X_Forwarded_For"; mailslot;
        object_name "WinHandle" "Handle"; ttp "Exploit_Target"; common "Exploit_Target"; common "Contributor"; common "Identity"]
     = [1; 1; 0; 1; 1; 0; 1; 1; 0; 1]) /\
  (exists r s' new, updater_update o0 (STIX_1_1_Updater o0) (DFile (Some pkg_1_1)) None false (memory []) = (Ok r, s') /\
     document s' (r_document r) new /\
     existsb (fun y => named (common "Name") y && ostr_eqb (h_text (head y)) (Some "ACME")) (nodes new) = true) /\
  plain_text "ACME".
Proof.
  split; [|split; [|repeat split; reflexivity]].
  - destruct (run_document (updater_update o0 (STIX_1_0_1_Updater o0) (DFile (Some pkg_1_0_1_fields)) None false (memory []))
      (fun new => forallb (fun p => Nat.eqb (length (filter (named (fst p)) (nodes new))) (snd p))
         (combine [http_name "DNT"; uri_value; http_name "X_Requested_For"; http_name "X_Forwarded_For"; mailslot;
        object_name "WinHandle" "Handle"; ttp "Exploit_Target"; common "Exploit_Target"; common "Contributor"; common "Identity"]
          [1; 1; 0; 1; 1; 0; 1; 1; 0; 1]))) as (r & s' & new & E & D & B); [vm_compute; reflexivity|].
    exists r, s', new. split; [exact E|]. split; [exact D|]. cbn [combine forallb fst snd] in B.
    repeat (apply andb_true_iff in B as [?X B]). repeat match goal with H : Nat.eqb _ _ = true |- _ => apply Nat.eqb_eq in H end.
    cbn [map]. congruence.
  - exact (run_document (updater_update o0 (STIX_1_1_Updater o0) (DFile (Some pkg_1_1)) None false (memory []))
      (fun new => existsb (fun y => named (common "Name") y && ostr_eqb (h_text (head y)) (Some "ACME")) (nodes new)) eq_refl).
Qed.
