(** * Property theorems: entry points. *)

From Coq Require Import String Ascii List Bool Arith.
From Verif Require Import Str Xml XPath Utils Base Cybox Stix Ramrod Spec Lib Frame Api Samples.
Import ListNotations.
Local Open Scope string_scope.

(** ** C01: the caller's documents are never modified.
    [heap s] lists every tree that exists before the call; afterwards the same
    trees are there, unchanged, followed by new ones, whatever the outcome. *)
Theorem C01_update_keeps_documents : forall o d from to opts force s,
  wf_state s ->
  exists new, heap (snd (ramrod_update o d from to opts force s)) = (heap s ++ new)%list.
Proof.
  exact (fun o d from to opts force s W =>
    bounded_extends _ s W (fun old => safe_ramrod_update old o d from to opts force)).
Qed.
Print Assumptions C01_update_keeps_documents.

Theorem C01_stix_update_keeps_documents : forall o d from to opts force s,
  wf_state s ->
  exists new, heap (snd (stix_update o d from to opts force s)) = (heap s ++ new)%list.
Proof.
  exact (fun o d from to opts force s W =>
    bounded_extends _ s W (fun old => safe_stix_update old o d from to opts force)).
Qed.
Print Assumptions C01_stix_update_keeps_documents.

Theorem C01_cybox_update_keeps_documents : forall o d from to opts force s,
  wf_state s ->
  exists new, heap (snd (cybox_update o d from to opts force s)) = (heap s ++ new)%list.
Proof.
  exact (fun o d from to opts force s W =>
    bounded_extends _ s W (fun old => safe_cybox_update old o d from to opts force)).
Qed.
Print Assumptions C01_cybox_update_keeps_documents.

(** The seven updaters registered for the versions. *)
Definition registered (o : oracle) (up : updater) : Prop :=
  In up (map snd (STIX_UPDATERS o) ++ map snd (CYBOX_UPDATERS o)).

Theorem C01_updater_keeps_documents : forall o up d opts force s,
  registered o up -> wf_state s ->
  (exists new, heap (snd (updater_update o up d opts force s)) = (heap s ++ new)%list) /\
  (exists new, heap (snd (clean o up d opts s)) = (heap s ++ new)%list).
Proof.
  exact (fun o up d opts force s R W =>
    conj (bounded_extends _ s W (fun old => safe_updater_update old o up d opts force
                                   (registered_safe o up R old)))
         (bounded_extends _ s W (fun old => safe_clean old o up d opts
                                   (registered_safe o up R old)))).
Qed.
Print Assumptions C01_updater_keeps_documents.

(** A memory with two documents; one update returns, the other raises, and
    both create new trees. *)
Example C01_case :
  wf_state (memory [pkg_1_1; pkg_1_0_1_bad]) /\
  (exists r s', ramrod_update o0 (DElem 0) None None None false
                  (memory [pkg_1_1; pkg_1_0_1_bad]) = (Ok r, s')
                /\ length (heap s') > 2) /\
  (exists e s', ramrod_update o0 (DElem 5) None None None false
                  (memory [pkg_1_1; pkg_1_0_1_bad]) = (Err e, s')
                /\ length (heap s') > 2).
Proof.
  split; [apply memory_wf|]. split.
  - eexists _, _. split; [vm_compute; reflexivity|]. vm_compute. auto with arith.
  - eexists _, _. split; [vm_compute; reflexivity|]. vm_compute. auto with arith.
Qed.

(** ** C02: the local name of the root selects the language. *)
Theorem C02_root_selects_language : forall o d from to opts force s t,
  wf_state s -> denotes s d t ->
  (q_local (h_tag (head t)) = "STIX_Package" ->
   ramrod_update o d from to opts force s = stix_update o d from to opts force s) /\
  (q_local (h_tag (head t)) = "Observables" ->
   ramrod_update o d from to opts force s = cybox_update o d from to opts force s) /\
  (q_local (h_tag (head t)) <> "STIX_Package" -> q_local (h_tag (head t)) <> "Observables" ->
   fst (ramrod_update o d from to opts force s) = Err (UpdateError None None)).
Proof.
  exact (fun o d from to opts force s t W D =>
    conj (ramrod_is_stix o d from to opts force s t W D)
      (conj (ramrod_is_cybox o d from to opts force s t W D)
            (ramrod_other o d from to opts force s t W D))).
Qed.
Print Assumptions C02_root_selects_language.

Example C02_case :
  denotes (memory [pkg_1_1; obs_2_0]) (DElem 0) (fst (renum 0 pkg_1_1)) /\
  denotes (memory [pkg_1_1; obs_2_0]) (DFile (Some obs_2_0)) obs_2_0.
Proof.
  split; [|reflexivity].
  exists [], (fst (renum 0 pkg_1_1)). repeat split; vm_compute; auto.
Qed.

(** ** C03: version arguments are validated first. *)
Theorem C03_stix_versions_validated : forall o d from to opts force s t,
  wf_state s -> denotes s d t ->
  let target := match given to with Some b => b | None => "1.2.1" end in
  let versions := ["1.0"; "1.0.1"; "1.1"; "1.1.1"; "1.2"; "1.2.1"] in
  (stix_start from t = None ->
   fst (stix_update o d from to opts force s) = Err UnknownVersionError) /\
  (forall a, stix_start from t = Some a -> ~ older versions a target ->
   fst (stix_update o d from to opts force s) = Err (InvalidVersionError None None None)) /\
  ((stix_start from t = None \/
    exists a, stix_start from t = Some a /\ ~ older versions a target) ->
   (forall p, d <> DFile p) ->
   snd (stix_update o d from to opts force s) = s).
Proof. exact stix_validation_cases. Qed.
Print Assumptions C03_stix_versions_validated.

Theorem C03_cybox_versions_validated : forall o d from to opts force s t,
  wf_state s -> denotes s d t ->
  let target := match given to with Some b => b | None => "2.1" end in
  let versions := ["2.0"; "2.0.1"; "2.1"] in
  (cybox_start from t = None ->
   fst (cybox_update o d from to opts force s) = Err UnknownVersionError) /\
  (forall a, cybox_start from t = Some a -> ~ older versions a target ->
   fst (cybox_update o d from to opts force s) = Err (InvalidVersionError None None None)) /\
  ((cybox_start from t = None \/
    exists a, cybox_start from t = Some a /\ ~ older versions a target) ->
   (forall p, d <> DFile p) ->
   snd (cybox_update o d from to opts force s) = s).
Proof. exact cybox_validation_cases. Qed.
Print Assumptions C03_cybox_versions_validated.

(** Without version, with a target that is too old, with an unknown one. *)
Example C03_case :
  stix_start None pkg_1_1 = Some "1.1" /\
  ~ older STIX_VERSIONS "1.1" "1.1" /\ ~ older STIX_VERSIONS "9.9" "1.2.1" /\
  older STIX_VERSIONS "1.1" "1.2.1" /\ stix_start None obs_2_0 = None.
Proof. exact older_cases. Qed.

(** ** C05: one call or two calls *)
Theorem C05_stix_composition : forall o d opts force s a b c,
  older STIX_VERSIONS a b -> older STIX_VERSIONS b c ->
  match stix_update o d (Some a) (Some b) opts force s with
  | (Err e, s1) => stix_update o d (Some a) (Some c) opts force s = (Err e, s1)
  | (Ok r1, s1) =>
      match stix_update o (DElem (r_document r1)) (Some b) (Some c) opts force s1 with
      | (Err e, s2) => stix_update o d (Some a) (Some c) opts force s = (Err e, s2)
      | (Ok r2, s2) =>
          exists r, stix_update o d (Some a) (Some c) opts force s = (Ok r, s2)
            /\ r_document r = r_document r2
            /\ removed_nodes r = (removed_nodes r1 ++ removed_nodes r2)%list
            /\ remapped_ids r = dict_update (remapped_ids r1) (remapped_ids r2)
      end
  end.
Proof.
  exact (fun o d opts force s a b c =>
    versioned_compose o STIX_VERSIONS (STIX_UPDATERS o) stix_node_version d opts force s a b c
      (proj1 stix_table_ok) (proj2 stix_table_ok)).
Qed.
Print Assumptions C05_stix_composition.

Theorem C05_cybox_composition : forall o d opts force s a b c,
  older CYBOX_VERSIONS a b -> older CYBOX_VERSIONS b c ->
  match cybox_update o d (Some a) (Some b) opts force s with
  | (Err e, s1) => cybox_update o d (Some a) (Some c) opts force s = (Err e, s1)
  | (Ok r1, s1) =>
      match cybox_update o (DElem (r_document r1)) (Some b) (Some c) opts force s1 with
      | (Err e, s2) => cybox_update o d (Some a) (Some c) opts force s = (Err e, s2)
      | (Ok r2, s2) =>
          exists r, cybox_update o d (Some a) (Some c) opts force s = (Ok r, s2)
            /\ r_document r = r_document r2
            /\ removed_nodes r = (removed_nodes r1 ++ removed_nodes r2)%list
            /\ remapped_ids r = dict_update (remapped_ids r1) (remapped_ids r2)
      end
  end.
Proof.
  exact (fun o d opts force s a b c =>
    versioned_compose o CYBOX_VERSIONS (CYBOX_UPDATERS o)
      (fun root => v <- cybox_node_version root ;; ret (Some v)) d opts force s a b c
      (proj1 cybox_table_ok) (proj2 cybox_table_ok)).
Qed.
Print Assumptions C05_cybox_composition.

Example C05_case :
  older STIX_VERSIONS "1.0.1" "1.1" /\ older STIX_VERSIONS "1.1" "1.2" /\
  exists r s1 r2 s2,
    stix_update o0 (DElem 0) (Some "1.0.1") (Some "1.1") None true (memory [pkg_1_0_1_bad])
    = (Ok r, s1) /\
    stix_update o0 (DElem (r_document r)) (Some "1.1") (Some "1.2") None true s1 = (Ok r2, s2) /\
    length (removed_nodes r) = 2.
Proof.
  split; [exists ["1.0"], [], ["1.1.1"; "1.2"; "1.2.1"]; reflexivity|].
  split; [exists ["1.0"; "1.0.1"], ["1.1.1"], ["1.2.1"]; reflexivity|].
  eexists _, _, _, _. split; [vm_compute; reflexivity|]. split; vm_compute; reflexivity.
Qed.

(** ** C11: force changes nothing when nothing needs forcing *)
Theorem C11_force_is_conservative : forall o d from to opts s r s',
  (ramrod_update o d from to opts false s = (Ok r, s') ->
   ramrod_update o d from to opts true s = (Ok r, s')) /\
  (stix_update o d from to opts false s = (Ok r, s') ->
   stix_update o d from to opts true s = (Ok r, s')) /\
  (cybox_update o d from to opts false s = (Ok r, s') ->
   cybox_update o d from to opts true s = (Ok r, s')) /\
  (forall up, updater_update o up d opts false s = (Ok r, s') ->
   updater_update o up d opts true s = (Ok r, s')).
Proof.
  exact (fun o d from to opts s r s' =>
    conj (ramrod_update_force o d from to opts s r s')
      (conj (versioned_update_force o STIX_VERSIONS (STIX_UPDATERS o) stix_node_version
               d from to opts s r s')
        (conj (versioned_update_force o CYBOX_VERSIONS (CYBOX_UPDATERS o)
                 (fun root => v <- cybox_node_version root ;; ret (Some v)) d from to opts s r s')
              (fun up => updater_update_force o up d opts s r s')))).
Qed.
Print Assumptions C11_force_is_conservative.

Example C11_case : exists r s',
  ramrod_update o0 (DElem 0) None None None false (memory [pkg_1_1]) = (Ok r, s').
Proof. eexists _, _. vm_compute. reflexivity. Qed.
