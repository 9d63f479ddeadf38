(** * Property theorems: cleaning over and over. *)

From Coq Require Import String Ascii List Bool Arith.
From Verif Require Import Str Xml XPath Utils Base Tables Cybox Stix Spec SpecDoc SpecPass SpecStep SpecCheck SpecClean
  SpecUpdate SpecReport SpecCleaned SpecTrace SpecRounds Lib Samples Api Cleaned Emptied Rounds.
Import ListNotations.
Local Open Scope string_scope.

(** ** C63: cleaning over and over comes to an end *)

(** After one successful cleaning, fewer further ones than the document has
    nodes lead to a document in which nothing is left to clean; all of them
    succeed. *)
Theorem C63_stix_1_0 : forall o opts up d s t r s1,
  dict_get "1.0" (STIX_UPDATERS o) = Some up -> wf_state s -> denotes s d t -> clean o up d opts s = (Ok r, s1) ->
  exists n s' j e, n < List.length (nodes t) /\ cleaned_over o up opts n s1 (r_document r) s' j /\ document s' j e /\
    nothing_untranslatable_left stix_1_0_rules e /\ clean_again_idle o up j e s'.
Proof. exact rounds_1_0. Qed.
Print Assumptions C63_stix_1_0.

(** STIX 1.0.1: provided the ids the first cleaning has asked for were new and
    different from each other. *)
Theorem C63_stix_1_0_1 : forall o opts up d s t r s1,
  dict_get "1.0.1" (STIX_UPDATERS o) = Some up -> wf_state s -> denotes s d t -> clean o up d opts s = (Ok r, s1) ->
  fresh_for (new_id_func (or_default o opts)) (gen s) (gen s1) t ->
  exists n s' j e, n < List.length (nodes t) /\ cleaned_over o up opts n s1 (r_document r) s' j /\ document s' j e /\
    nothing_untranslatable_left (stix_1_0_1_rules o) e /\ no_id_shared (stix_namespaces ++ cybox_namespaces) e /\
    clean_again_idle o up j e s'.
Proof. exact rounds_1_0_1. Qed.
Print Assumptions C63_stix_1_0_1.

(** What [n] cleanings lead to is determined. *)
Theorem C63_determined : forall o up opts n s i s1 j1, cleaned_over o up opts n s i s1 j1 -> forall s2 j2,
  cleaned_over o up opts n s i s2 j2 -> s1 = s2 /\ j1 = j2.
Proof. exact cleaned_over_same. Qed.
Print Assumptions C63_determined.

(** No fixed number of cleanings is enough: for every number there is a
    document which, cleaned that often, still holds an untranslatable node. *)
Theorem C63_no_fixed_number : forall o opts up n, dict_get "1.0" (STIX_UPDATERS o) = Some up ->
  exists t, forall s i, wf_state s -> document s i t ->
  exists s' j e, cleaned_over o up opts n s i s' j /\ document s' j e /\ ~ nothing_untranslatable_left stix_1_0_rules e.
Proof. exact rounds_unbounded. Qed.
Print Assumptions C63_no_fixed_number.

(** Documents that are cleaned once with success and need another cleaning: it
    removes one more node. *)
Example C63_case :
  (exists r s1 r2 s2, clean o1 (STIX_1_0_Updater o1) (DFile (Some (nested 2))) (Some counting) (memory []) = (Ok r, s1) /\
     List.length (removed_nodes r) = 1 /\
     clean o1 (STIX_1_0_Updater o1) (DElem (r_document r)) (Some counting) s1 = (Ok r2, s2) /\
     List.length (removed_nodes r2) = 1 /\
     cleaned_over o1 (STIX_1_0_Updater o1) (Some counting) 1 s1 (r_document r) s2 (r_document r2)) /\
  (exists r s1 r2 s2, clean o1 (STIX_1_0_1_Updater o1) (DFile (Some pkg_hollow)) (Some counting) (memory []) = (Ok r, s1) /\
     fresh_for (new_id_func (or_default o1 (Some counting))) 0 (gen s1) pkg_hollow /\
     List.length (removed_nodes r) = 1 /\
     clean o1 (STIX_1_0_1_Updater o1) (DElem (r_document r)) (Some counting) s1 = (Ok r2, s2) /\
     List.length (removed_nodes r2) = 1) /\
  (exists s i, wf_state s /\ document s i (nested 3)) /\
  dict_get "1.0" (STIX_UPDATERS o1) = Some (STIX_1_0_Updater o1) /\
  dict_get "1.0.1" (STIX_UPDATERS o1) = Some (STIX_1_0_1_Updater o1) /\
  wf_state (memory []) /\ denotes (memory []) (DFile (Some (nested 2))) (nested 2).
Proof.
  split; [|split; [|split; [|split; [reflexivity|split; [reflexivity|split; [apply memory_wf|reflexivity]]]]]].
  - eexists _, _, _, _. split; [vm_compute; reflexivity|]. split; [reflexivity|]. split; [vm_compute; reflexivity|].
    split; [reflexivity|]. eapply cleaned_more; [vm_compute; reflexivity|]. constructor.
  - eexists _, _, _, _. split; [vm_compute; reflexivity|]. split; [apply counting_fresh; reflexivity|]. split; [reflexivity|].
    split; [vm_compute; reflexivity|reflexivity].
  - exists (memory [nested 3]), 0. split; [apply memory_wf|]. eexists. split; [left; reflexivity|]. split; reflexivity.
Qed.
