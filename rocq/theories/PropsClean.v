(** * Property theorems: what cleaning leaves behind. *)

From Coq Require Import String Ascii List Bool Arith.
From Verif Require Import Str Xml XPath Utils Base Tables Cybox Stix Ramrod Spec SpecDoc SpecPass SpecStep SpecCheck SpecClean
  SpecUpdate SpecReport SpecCleaned Lib Samples Api Cleaned Emptied.
Import ListNotations.
Local Open Scope string_scope.

(** ** C13: a cleaned document needs no cleaning *)

(** CybOX: no untranslatable node and no shared id is left, and cleaning the
    result once more removes and replaces nothing. *)
Theorem C13_cybox_nothing_left : forall o opts up d s t r s',
  dict_get "2.0.1" (CYBOX_UPDATERS o) = Some up -> wf_state s -> denotes s d t ->
  clean o up d opts s = (Ok r, s') -> fresh_for (new_id_func (or_default o opts)) (gen s) (gen s') t ->
  exists e, document s' (r_document r) e /\ nothing_untranslatable_left cybox_2_0_1_rules e /\
    no_id_shared cybox_namespaces e /\ clean_again_idle o up (r_document r) e s'.
Proof. exact cybox_nothing_left. Qed.
Print Assumptions C13_cybox_nothing_left.

(** STIX: no shared id is left. *)
Theorem C13_stix_no_id_shared : forall o opts up d s t r s',
  dict_get "1.0.1" (STIX_UPDATERS o) = Some up -> wf_state s -> denotes s d t ->
  clean o up d opts s = (Ok r, s') -> fresh_for (new_id_func (or_default o opts)) (gen s) (gen s') t ->
  exists e, document s' (r_document r) e /\ no_id_shared (stix_namespaces ++ cybox_namespaces) e.
Proof. exact stix_no_id_shared. Qed.
Print Assumptions C13_stix_no_id_shared.

(** STIX: an untranslatable node may be left. *)
Theorem C13_stix_nothing_left_refuted : ~ (forall o opts up d s t r s',
  dict_get "1.0.1" (STIX_UPDATERS o) = Some up -> wf_state s -> denotes s d t ->
  clean o up d opts s = (Ok r, s') -> fresh_for (new_id_func (or_default o opts)) (gen s) (gen s') t -> simple_dates o ->
  exists e, document s' (r_document r) e /\ nothing_untranslatable_left (stix_1_0_1_rules o) e).
Proof. exact stix_left_refuted. Qed.
Print Assumptions C13_stix_nothing_left_refuted.

(** None is left if only MAEC content is taken directly from Malware elements,
    and only CAPEC content directly from Attack_Patterns elements.  Missing:
    documents where another rule empties such an element. *)
Theorem C13_stix_1_0_nothing_left_partial : forall o opts up d s t r s',
  dict_get "1.0" (STIX_UPDATERS o) = Some up -> wf_state s -> denotes s d t ->
  clean o up d opts s = (Ok r, s') ->
  let T := numbered (next s) t in
  takes_only stix_1_0_rules (ttp "Malware") MAEC T ->
  takes_only stix_1_0_rules (ttp "Attack_Patterns") CAPEC_2_5 T ->
  exists e, document s' (r_document r) e /\ nothing_untranslatable_left stix_1_0_rules e /\
    clean_again_idle o up (r_document r) e s'.
Proof. exact stix_1_0_nothing_left. Qed.
Print Assumptions C13_stix_1_0_nothing_left_partial.

Theorem C13_stix_1_0_1_nothing_left_partial : forall o opts up d s t r s',
  dict_get "1.0.1" (STIX_UPDATERS o) = Some up -> wf_state s -> denotes s d t ->
  clean o up d opts s = (Ok r, s') -> fresh_for (new_id_func (or_default o opts)) (gen s) (gen s') t -> simple_dates o ->
  let T := numbered (next s) t in
  takes_only (stix_1_0_1_rules o) (ttp "Malware") MAEC T ->
  takes_only (stix_1_0_1_rules o) (ttp "Attack_Patterns") CAPEC_2_6 T ->
  exists e, document s' (r_document r) e /\ nothing_untranslatable_left (stix_1_0_1_rules o) e /\
    clean_again_idle o up (r_document r) e s'.
Proof. exact stix_1_0_1_nothing_left. Qed.
Print Assumptions C13_stix_1_0_1_nothing_left_partial.

(** Exactly: no untranslatable node is left if and only if every Malware element
    that stays keeps a child element that is not MAEC content, and every
    Attack_Patterns element one that is not CAPEC content. *)
Theorem C13_stix_1_0_exactly : forall o opts up d s t r s',
  dict_get "1.0" (STIX_UPDATERS o) = Some up -> wf_state s -> denotes s d t ->
  clean o up d opts s = (Ok r, s') ->
  let T := numbered (next s) t in
  exists e, document s' (r_document r) e /\
    (nothing_untranslatable_left stix_1_0_rules e <->
     never_emptied stix_1_0_rules (ttp "Malware") MAEC T /\
     never_emptied stix_1_0_rules (ttp "Attack_Patterns") CAPEC_2_5 T).
Proof. exact stix_1_0_exactly. Qed.
Print Assumptions C13_stix_1_0_exactly.

Theorem C13_stix_1_0_1_exactly : forall o opts up d s t r s',
  dict_get "1.0.1" (STIX_UPDATERS o) = Some up -> wf_state s -> denotes s d t ->
  clean o up d opts s = (Ok r, s') -> simple_dates o ->
  let T := numbered (next s) t in
  exists e, document s' (r_document r) e /\
    (nothing_untranslatable_left (stix_1_0_1_rules o) e <->
     never_emptied (stix_1_0_1_rules o) (ttp "Malware") MAEC T /\
     never_emptied (stix_1_0_1_rules o) (ttp "Attack_Patterns") CAPEC_2_6 T).
Proof. exact stix_1_0_1_exactly. Qed.
Print Assumptions C13_stix_1_0_1_exactly.

(** Both outcomes occur: one package loses a child of Malware and keeps another,
    one loses the only child. *)
Example C13_exactly_case :
  let half := numbered 0 pkg_half in
  let hollow := numbered 0 pkg_hollow in
  never_emptied (stix_1_0_1_rules o1) (ttp "Malware") MAEC half /\
  never_emptied (stix_1_0_1_rules o1) (ttp "Attack_Patterns") CAPEC_2_6 half /\
  ~ takes_only (stix_1_0_1_rules o1) (ttp "Malware") MAEC half /\
  ~ never_emptied (stix_1_0_1_rules o1) (ttp "Malware") MAEC hollow.
Proof. exact emptied_case. Qed.

(** The default id function is fresh when the uuids drawn are pairwise
    different and no id of the document contains "-cleaned-". *)
Theorem C13_default_ids_fresh : forall o n g g' t,
  (forall k k', g <= k < g' -> g <= k' < g' -> o_uuid o k = o_uuid o k' -> k = k') ->
  (forall k, String.length (o_uuid o k) = n) ->
  (forall anc x a u, In (anc, x) (visits [] t) -> id_of x <> Some (a ++ "-cleaned-" ++ u)) ->
  fresh_for (new_id_func (default_options o)) g g' t.
Proof. exact default_ids_fresh. Qed.
Print Assumptions C13_default_ids_fresh.

Example C13_default_ids_case :
  (exists r s', clean o2 (STIX_1_0_1_Updater o2) (DFile (Some pkg_1_0_1_bad)) None (memory []) = (Ok r, s') /\
     gen s' = 2 /\ map fst (remapped_ids r) = ["ex:t1"]) /\
  (forall k k', 0 <= k < 2 -> 0 <= k' < 2 -> o_uuid o2 k = o_uuid o2 k' -> k = k') /\
  (forall k, String.length (o_uuid o2 k) = 1) /\
  (forall anc x a u, In (anc, x) (visits [] pkg_1_0_1_bad) -> id_of x <> Some (a ++ "-cleaned-" ++ u)).
Proof. exact default_ids_case. Qed.

(** A CybOX document with two untranslatable nodes and a shared id, and a STIX
    package with both, meet the hypotheses. *)
Example C13_case :
  (exists r s', clean o1 (Cybox_2_0_1_Updater o1) (DFile (Some obs_2_0_1_bad)) (Some counting) (memory []) = (Ok r, s') /\
     length (removed_nodes r) = 2 /\ map fst (remapped_ids r) = ["ex:1"] /\
     fresh_for (new_id_func (or_default o1 (Some counting))) 0 (gen s') obs_2_0_1_bad) /\
  (exists r s', clean o1 (STIX_1_0_1_Updater o1) (DFile (Some pkg_1_0_1_bad)) (Some counting) (memory []) = (Ok r, s') /\
     length (removed_nodes r) = 2 /\ map fst (remapped_ids r) = ["ex:t1"] /\
     fresh_for (new_id_func (or_default o1 (Some counting))) 0 (gen s') pkg_1_0_1_bad /\ simple_dates o1 /\
     takes_only (stix_1_0_1_rules o1) (ttp "Malware") MAEC (numbered 0 pkg_1_0_1_bad) /\
     takes_only (stix_1_0_1_rules o1) (ttp "Attack_Patterns") CAPEC_2_6 (numbered 0 pkg_1_0_1_bad)) /\
  takes_only stix_1_0_rules (ttp "Malware") MAEC (numbered 0 pkg_1_0_1_bad) /\
  takes_only stix_1_0_rules (ttp "Attack_Patterns") CAPEC_2_5 (numbered 0 pkg_1_0_1_bad).
Proof. exact nothing_left_case. Qed.
