(** * Property theorems: the namespace script. *)

From Coq Require Import String Ascii List Bool Arith Permutation.
From Verif Require Import Str Xml XPath Utils Base Tables Stix UpdateNs Spec SpecLocation SpecNs Lib Scripts Merged Samples.
Import ListNotations.
Local Open Scope string_scope.

(** ** C34: all names are mapped, nothing else changes *)

(** For every document whose names could have been parsed, without processing
    instructions and without attributes that would get the same name. *)
Theorem C34_names_renamed_partial : forall A B f t,
  (forall ns, maps_to A B ns (f ns)) ->
  Forall usable_ns B -> parsed t -> no_clash f t ->
  exists t', update_from_lists A B t = Ok t' /\ renamed f t t'.
Proof. exact update_from_lists_renames. Qed.
Print Assumptions C34_names_renamed_partial.

(** Without the last condition: of the attributes of an element that get the
    same name the last one is left, and everything else is as above. *)
Theorem C34_attributes_merged : forall A B f t,
  (forall ns, maps_to A B ns (f ns)) -> Forall usable_ns B -> parsed t ->
  exists t', update_from_lists A B t = Ok t' /\ merged f t t'.
Proof. exact update_from_lists_merges. Qed.
Print Assumptions C34_attributes_merged.

(** So the condition is exact. *)
Theorem C34_renamed_exactly : forall A B f t t',
  (forall ns, maps_to A B ns (f ns)) -> Forall usable_ns B -> parsed t ->
  update_from_lists A B t = Ok t' -> (renamed f t t' <-> no_clash f t).
Proof. exact renamed_exactly. Qed.
Print Assumptions C34_renamed_exactly.

(** The mapping is a function of the lists. *)
Theorem C34_mapping_exists_unique : forall A B ns,
  exists ns', maps_to A B ns ns' /\ forall x, maps_to A B ns x -> x = ns'.
Proof.
  intros A B ns. exists (mget (dict_zip A B) ns). split; [apply dict_zip_maps|].
  intros x H. eapply maps_to_fun; [exact H|apply dict_zip_maps].
Qed.
Print Assumptions C34_mapping_exists_unique.

Definition ns_doc : tree :=
  el (qn "urn:a" "root") [(Some "p", "urn:a"); (Some "q", "urn:b")]
     [(lq "id", "1"); (qn "urn:b" "x", "v");
      (TAG_SCHEMALOCATION, "urn:a  a.xsd urn:c c.xsd")] (Some "text")
     [comment "note"; el (qn "urn:b" "kid") [] [(qn "urn:a" "y", "w")] None []].

Lemma proper_check q : valid_local (q_local q) &&
  match q_ns q with
  | Some u => negb (String.eqb u "") && negb (contains "}" u)
  | None => true
  end = true -> proper_name q.
Proof.
  intro H. apply andb_true_iff in H as [H1 H2]. unfold valid_local in H1.
  apply andb_true_iff in H1 as [H1 H3]. apply andb_true_iff in H1 as [H1 H4].
  apply negb_true_iff in H1, H3, H4. split; [|split; [|split]].
  - intro E. rewrite E in H1. discriminate.
  - apply occurs_dec; auto.
  - apply occurs_dec; auto.
  - intros ns E. rewrite E in H2. apply andb_true_iff in H2 as [H2 H5].
    apply negb_true_iff in H2, H5. split; [|apply occurs_dec; auto].
    intro E'. subst. discriminate.
Qed.

Ltac proper := apply proper_check; reflexivity.
Ltac propers := repeat (apply Forall_cons; [proper|]); apply Forall_nil.

Lemma solid_usable ns : negb (contains "}" ns) && solid ns = true -> usable_ns ns.
Proof.
  intro H. apply andb_true_iff in H as [H1 H2]. unfold solid in H2.
  apply andb_true_iff in H2 as [H2 H3]. split; [|split].
  - intro E. subst. discriminate.
  - apply occurs_dec. apply negb_true_iff. exact H1.
  - intros a b c E. subst ns. clear -H3. induction a as [|d a IH]; simpl in H3.
    + apply andb_true_iff in H3 as [H _]. apply negb_true_iff; auto.
    + apply andb_true_iff in H3 as [_ H]. auto.
Qed.

Ltac usables := repeat (apply Forall_cons; [apply solid_usable; reflexivity|]); apply Forall_nil.

Example C34_case :
  Forall usable_ns ["urn:x"; "urn:y"] /\ parsed ns_doc /\
  no_clash (mget (dict_zip ["urn:a"; "urn:b"] ["urn:x"; "urn:y"])) ns_doc /\
  update_from_lists ["urn:a"; "urn:b"] ["urn:x"; "urn:y"] ns_doc =
  Ok (el (qn "urn:x" "root") [(Some "p", "urn:x"); (Some "q", "urn:y")]
        [(lq "id", "1"); (qn "urn:y" "x", "v");
         (TAG_SCHEMALOCATION, "urn:x a.xsd urn:c c.xsd")] (Some "text")
        [comment "note";
         el (qn "urn:y" "kid") [(Some "p", "urn:x"); (Some "q", "urn:y")]
           [(qn "urn:x" "y", "w")] None []]).
Proof.
  split; [|split; [|split; [|reflexivity]]].
  - usables.
  - apply pd_elem; [reflexivity|proper| | |].
    + propers.
    + repeat constructor; simpl; intuition discriminate.
    + apply Forall_cons; [|apply Forall_cons; [|apply Forall_nil]].
      * apply pd_other. left; reflexivity.
      * apply pd_elem; [reflexivity|proper|propers| |constructor].
        repeat constructor; simpl; intuition discriminate.
  - apply nc_elem; [reflexivity| |].
    + vm_compute. repeat constructor; simpl; intuition discriminate.
    + apply Forall_cons; [apply nc_other; discriminate|apply Forall_cons; [|apply Forall_nil]].
      apply nc_elem; [reflexivity| |constructor].
      vm_compute. repeat constructor; simpl; intuition discriminate.
Qed.

(** The whole script: the lists are those the two arguments stand for, and the
    only other change is the root's version attribute, set to the number of a
    predefined target when the root has one. *)
Theorem C34_script_partial : forall files from_id to_id A B f t,
  stands_for files from_id A -> stands_for files to_id B -> (forall ns, maps_to A B ns (f ns)) ->
  Forall usable_ns B -> parsed t -> no_clash f t ->
  exists t1 t', update_ns_main files from_id to_id t = Ok t' /\ renamed f t t1 /\ restamped to_id t1 t'.
Proof. exact script_renames. Qed.
Print Assumptions C34_script_partial.

Theorem C34_script_merges : forall files from_id to_id A B f t,
  stands_for files from_id A -> stands_for files to_id B -> (forall ns, maps_to A B ns (f ns)) ->
  Forall usable_ns B -> parsed t ->
  exists t1 t', update_ns_main files from_id to_id t = Ok t' /\ merged f t t1 /\ restamped to_id t1 t'.
Proof. exact script_merges. Qed.
Print Assumptions C34_script_merges.

(** Each argument stands for exactly one list. *)
Theorem C34_lists_exist_unique : forall files name,
  exists l, stands_for files name l /\ forall l', stands_for files name l' -> l' = l.
Proof.
  intros files name. exists (get_namespace_list files name). split; [apply stands_for_is; reflexivity|].
  intros l' H. apply stands_for_is in H. exact H.
Qed.
Print Assumptions C34_lists_exist_unique.

(** The script fails exactly on the documents that contain a processing
    instruction. *)
Theorem C34_fails_on_instructions : forall files from_id to_id B t,
  stands_for files to_id B -> Forall usable_ns B -> well_named t ->
  (has_instruction t -> update_ns_main files from_id to_id t = Err TypeError) /\
  (~ has_instruction t -> exists t', update_ns_main files from_id to_id t = Ok t').
Proof. exact script_instruction. Qed.
Print Assumptions C34_fails_on_instructions.

(** The predefined lists are usable. *)
Theorem C34_predefined_usable : Forall usable_ns STIX_NS_1_2 /\ Forall usable_ns STIX_NS_1_2_1.
Proof.
  assert (H : forall l, forallb (fun ns => negb (contains "}" ns) && solid ns) l = true -> Forall usable_ns l).
  { intros l F. rewrite forallb_forall in F. apply Forall_forall. intros ns Hn. apply solid_usable. auto. }
  split; apply H; vm_compute; reflexivity.
Qed.
Print Assumptions C34_predefined_usable.

Definition ns_files (name : string) : list string :=
  if String.eqb name "old.txt" then ["# old"; " urn:a "; ""; "urn:b"] else [].
Definition versioned_doc : tree :=
  el (qn "urn:a" "root") [(Some "p", "urn:a")] [(lq "version", "1.0"); (lq "id", "1")] None [].
Example C34_script_case :
  stands_for ns_files "old.txt" ["urn:a"; "urn:b"] /\ stands_for ns_files "stix1.2" STIX_NS_1_2 /\
  update_ns_main ns_files "old.txt" "stix1.2" versioned_doc =
  Ok (el (qn (hd "" STIX_NS_1_2) "root") [(Some "p", hd "" STIX_NS_1_2)] [(lq "version", "1.2"); (lq "id", "1")] None []) /\
  update_ns_main ns_files "old.txt" "stix1.2.1" ns_doc =
  update_from_lists ["urn:a"; "urn:b"] STIX_NS_1_2_1 ns_doc.
Proof. split; [apply stands_for_is; reflexivity|]. split; [constructor|]. split; vm_compute; reflexivity. Qed.

(** The full claim is false: a processing instruction makes the script crash,
    and two attributes can be merged into one. *)
Theorem C34_every_document_renamed_refuted :
  (exists A B t, Forall usable_ns B /\ update_from_lists A B t = Err TypeError) /\
  (exists A B t t', Forall usable_ns B /\ parsed t /\
     update_from_lists A B t = Ok t' /\
     length (h_attr (head t)) = 2 /\ length (h_attr (head t')) = 1).
Proof.
  split.
  - exists ["urn:a"], ["urn:x"],
      (el (qn "urn:a" "root") [(Some "p", "urn:a")] [] None
          [Node (Hdr 0 KPI (lq "") [] [] (Some "x") false None) []]).
    split; [|reflexivity]. usables.
  - exists ["urn:a"; "urn:b"], ["urn:x"; "urn:x"],
      (el (qn "urn:a" "root") [(Some "p", "urn:a"); (Some "q", "urn:b")]
          [(qn "urn:a" "k", "1"); (qn "urn:b" "k", "2")] None []).
    eexists. split; [usables|].
    split; [|split; [vm_compute; reflexivity|split; reflexivity]].
    apply pd_elem; [reflexivity|proper|propers| |constructor].
    repeat constructor; simpl; intuition discriminate.
Qed.
Print Assumptions C34_every_document_renamed_refuted.

(** Two of three attributes are merged; the value is that of the last. *)
Definition clashing_doc : tree :=
  el (qn "urn:a" "root") [(Some "p", "urn:a"); (Some "q", "urn:b")]
     [(qn "urn:a" "k", "1"); (lq "k", "0"); (qn "urn:b" "k", "2")] None [].

Example C34_merged_case :
  parsed clashing_doc /\
  update_from_lists ["urn:a"; "urn:b"] ["urn:x"; "urn:x"] clashing_doc =
  Ok (el (qn "urn:x" "root") [(Some "p", "urn:x"); (Some "q", "urn:x")]
        [(qn "urn:x" "k", "2"); (lq "k", "0")] None []) /\
  ~ no_clash (mget (dict_zip ["urn:a"; "urn:b"] ["urn:x"; "urn:x"])) clashing_doc.
Proof.
  split; [|split; [vm_compute; reflexivity|]].
  - apply pd_elem; [reflexivity|proper|propers| |constructor].
    repeat constructor; simpl; intuition discriminate.
  - intro N. inversion N as [? ? K Nd Ck|? ? K]; subst; [|apply K; reflexivity].
    vm_compute in Nd. inversion Nd as [|? ? N1 _]; subst. apply N1. right. left. reflexivity.
Qed.

(** ** C35: mapping there and back *)
Theorem C35_update_undone : forall A B t,
  length A = length B -> NoDup A -> NoDup B ->
  Forall usable_ns A -> Forall usable_ns B ->
  ~ In NS_XSI A -> ~ In NS_XSI B ->
  parsed t -> (forall ns, uses_ns t ns -> ~ In ns B) ->
  exists t1 t2, update_from_lists A B t = Ok t1 /\ update_from_lists B A t1 = Ok t2 /\
    renamed (fun ns => ns) t t2.
Proof. exact update_ns_undo. Qed.
Print Assumptions C35_update_undone.

Example C35_case :
  (forall ns, uses_ns ns_doc ns -> ~ In ns ["urn:x"; "urn:y"]) /\
  (exists t1, update_from_lists ["urn:a"; "urn:b"] ["urn:x"; "urn:y"] ns_doc = Ok t1 /\
     h_tag (head t1) = qn "urn:x" "root" /\
     exists t2, update_from_lists ["urn:x"; "urn:y"] ["urn:a"; "urn:b"] t1 = Ok t2 /\
       h_tag (head t2) = qn "urn:a" "root").
Proof.
  split.
  - intros ns (anc & h & ks & Hv & K & U) Hn. vm_compute in Hv.
    destruct Hv as [Hv|[Hv|[Hv|[]]]]; inversion Hv; subst; simpl in *; try discriminate.
    + destruct U as [U|(q & v & [A|[A|[A|[]]]] & B)];
        [inversion U; subst; intuition discriminate| | |];
        inversion A; subst; destruct B as [B|[B C]]; try discriminate;
        try (inversion B; subst; intuition discriminate).
      vm_compute in C. intuition (subst; discriminate).
    + destruct U as [U|(q & v & [A|[]] & B)];
        [inversion U; subst; intuition discriminate|];
        inversion A; subst; destruct B as [B|[B C]]; try discriminate;
        try (inversion B; subst; intuition discriminate).
  - eexists. split; [vm_compute; reflexivity|]. split; [reflexivity|].
    eexists. split; [vm_compute; reflexivity|reflexivity].
Qed.

(** ** C36: the built-in tables of the script and of the STIX 1.2 updater *)

(** The namespaces on which the two tables differ. *)
Definition table_errors : list string :=
  ["http://stix.mitre.org/extensions/TestMechanism#Generic-1";
   "http://stix.mitre.org/extensions/TestMechanism#OpenIOC2010-1";
   "http://stix.mitre.org/extensions/TestMechanism#OVAL5.10-1";
   "http://stix.mitre.org/extensions/TestMechanism#Snort-1";
   "http://stix.mitre.org/extensions/TestMechanism#YARA-1";
   "http://stix.mitre.org/extensions/Vulnerability#CVRF-1";
   "http://stix.mitre.org/extensions/TestMechanism#Generic-1http://stix.mitre.org/extensions/TestMechanism#OpenIOC2010-1"].

Lemma dict_agree (d e : dict string) (ex : list string) :
  forallb (fun k => mem_str k ex || ostr_eqb (dict_get k d) (dict_get k e))
    (map fst d ++ map fst e) = true ->
  forall ns, ~ In ns ex -> dict_get ns d = dict_get ns e.
Proof.
  intros H ns Hn. rewrite forallb_forall in H.
  assert (G : forall f : dict string, ~ In ns (map fst f) -> dict_get ns f = None).
  { clear. induction f as [|[k v] f IH]; simpl; auto. intro H.
    destruct (String.eqb_spec ns k); [subst; tauto|]. apply IH; tauto. }
  destruct (in_dec string_dec ns (map fst d ++ map fst e)) as [Hi|Hi].
  - specialize (H ns Hi). apply orb_true_iff in H as [H|H].
    + apply mem_str_In in H. tauto.
    + apply ostr_eqb_eq. exact H.
  - rewrite !G; auto; intro; apply Hi, in_app_iff; auto.
Qed.

(** Outside that list both tools map every namespace (or leave it) alike. *)
Theorem C36_tables_agree_partial : forall ns, ~ In ns table_errors ->
  dict_get ns (dict_zip STIX_NS_1_2 STIX_NS_1_2_1) = dict_get ns stix_1_2_ns_map.
Proof. apply dict_agree. vm_compute. reflexivity. Qed.
Print Assumptions C36_tables_agree_partial.

(** On that list they do differ: it is exact. *)
Theorem C36_tables_differ : forall ns,
  dict_get ns (dict_zip STIX_NS_1_2 STIX_NS_1_2_1) = dict_get ns stix_1_2_ns_map <-> ~ In ns table_errors.
Proof.
  intro ns. split; [|apply C36_tables_agree_partial]. intros E I.
  assert (F : forallb (fun k => negb (ostr_eqb (dict_get k (dict_zip STIX_NS_1_2 STIX_NS_1_2_1)) (dict_get k stix_1_2_ns_map))) table_errors = true) by (vm_compute; reflexivity).
  rewrite forallb_forall in F. specialize (F ns I). rewrite E in F. apply negb_true_iff in F.
  assert (R : ostr_eqb (dict_get ns stix_1_2_ns_map) (dict_get ns stix_1_2_ns_map) = true) by (apply ostr_eqb_eq; reflexivity). congruence.
Qed.
Print Assumptions C36_tables_differ.

Lemma dict_pair (d : dict string) k v : dict_get k d = Some v -> In (k, v) d.
Proof.
  induction d as [|[a b] d IH]; simpl; [discriminate|]. destruct (String.eqb_spec k a) as [->|N]; [|auto]. intro E. injection E as ->. auto.
Qed.

(** The predefined target lists exactly the namespaces the updater produces,
    each once. *)
Theorem C36_target_list : forall files l, stands_for files "stix1.2.1" l ->
  NoDup l /\ forall ns, In ns l <-> exists old, dict_get old (successors "1.2") = Some ns.
Proof.
  intros files l H. apply stands_for_is in H. subst l. change (get_namespace_list files "stix1.2.1") with STIX_NS_1_2_1. split.
  - assert (E : nodup string_dec STIX_NS_1_2_1 = STIX_NS_1_2_1) by (vm_compute; reflexivity). rewrite <- E. apply NoDup_nodup.
  - intro ns. split.
    + intro I. assert (F : forallb (fun n => existsb (fun k => ostr_eqb (dict_get k (successors "1.2")) (Some n)) (map fst (successors "1.2"))) STIX_NS_1_2_1 = true)
        by (vm_compute; reflexivity).
      rewrite forallb_forall in F. specialize (F ns I). apply existsb_exists in F as (k & _ & F). exists k. apply ostr_eqb_eq. exact F.
    + intros (old & E). assert (F : forallb (fun p => mem_str (snd p) STIX_NS_1_2_1) (successors "1.2") = true) by (vm_compute; reflexivity).
      rewrite forallb_forall in F. apply dict_pair in E. apply mem_str_In. exact (F _ E).
Qed.
Print Assumptions C36_target_list.

(** Outside the list of errors the predefined source lists exactly the
    namespaces the updater replaces. *)
Theorem C36_source_list_partial : forall files l ns, stands_for files "stix1.2" l -> ~ In ns table_errors ->
  (In ns l <-> exists new, dict_get ns (successors "1.2") = Some new).
Proof.
  intros files l ns H N. apply stands_for_is in H. subst l. change (get_namespace_list files "stix1.2") with STIX_NS_1_2. split.
  - intro I. assert (F : forallb (fun n => mem_str n table_errors || match dict_get n (successors "1.2") with Some _ => true | None => false end) STIX_NS_1_2 = true)
      by (vm_compute; reflexivity).
    rewrite forallb_forall in F. specialize (F ns I). apply orb_true_iff in F as [F|F]; [apply mem_str_In in F; contradiction|]. destruct (dict_get ns _); [eauto|discriminate].
  - intros (new & E). apply dict_pair in E. assert (F : forallb (fun p => mem_str (fst p) table_errors || mem_str (fst p) STIX_NS_1_2) (successors "1.2") = true) by (vm_compute; reflexivity).
    rewrite forallb_forall in F. specialize (F _ E). apply orb_true_iff in F as [F|F]; apply mem_str_In in F; [contradiction|exact F].
Qed.
Print Assumptions C36_source_list_partial.

Example C36_case : ~ In "http://stix.mitre.org/stix-1" table_errors /\
  dict_get "http://stix.mitre.org/stix-1" stix_1_2_ns_map
  = Some "http://docs.oasis-open.org/cti/ns/stix/core-1".
Proof. split; [vm_compute; intuition discriminate|reflexivity]. Qed.

(** A document with an OVAL test mechanism: the script puts it in the OpenIOC
    namespace, the updater in the OVAL one. *)
Definition oval_doc : tree :=
  el (qn STIX_NS "STIX_Package")
     [(Some "stix", STIX_NS);
      (Some "o", "http://stix.mitre.org/extensions/TestMechanism#OVAL5.10-1")]
     [(lq "version", "1.2")] None
     [el (qn "http://stix.mitre.org/extensions/TestMechanism#OVAL5.10-1" "x") [] [] None []].

Definition child_tag (t : tree) : option qname :=
  match kids t with k :: _ => Some (h_tag (head k)) | [] => None end.

Theorem C36_tables_agree_refuted :
  exists t, update_ns_main (fun _ => []) "stix1.2" "stix1.2.1" oval_doc = Ok t /\
    child_tag t = Some (qn "http://docs.oasis-open.org/cti/ns/stix/extensions/test-mechanism/openioc-2010-1" "x") /\
    exists r s, updater_update o0 STIX_1_2_Updater (DElem 0) None false (memory [oval_doc]) = (Ok r, s) /\
      exists t', node_at s (r_document r) [] t' /\
        child_tag t' = Some (qn "http://docs.oasis-open.org/cti/ns/stix/extensions/test-mechanism/oval-5.10-1" "x").
Proof.
  eexists. split; [vm_compute; reflexivity|]. split; [reflexivity|].
  eexists. eexists. split; [vm_compute; reflexivity|].
  eexists. split.
  - eexists. split; [vm_compute; right; left; reflexivity|]. split; [left; reflexivity|reflexivity].
  - reflexivity.
Qed.
Print Assumptions C36_tables_agree_refuted.

(** ** C38: splitting qualified names *)
Theorem C38_qualified_split : forall ns local,
  (forall a b, local <> a ++ "}" ++ b) ->
  split_braced_name ("{" ++ ns ++ "}" ++ local) = Ok (Some ns, local).
Proof. intros ns local H. apply split_qualified. intros (a & b & E). apply (H a b E). Qed.
Print Assumptions C38_qualified_split.

Theorem C38_unqualified_unchanged : forall name,
  name <> "" -> (forall r, name <> "{" ++ r) -> split_braced_name name = Ok (None, name).
Proof. intros name N H. apply split_unqualified; auto. Qed.
Print Assumptions C38_unqualified_unchanged.

(** Nothing else happens: for every non-empty string the parts put together
    give the string back. *)
Theorem C38_parts_rebuild : forall name, name <> "" ->
  (exists ns l, name = "{" ++ ns ++ "}" ++ l /\ ~ occurs "}" l /\
     split_braced_name name = Ok (Some ns, l)) \/
  (((forall r, name <> "{" ++ r) \/ ~ occurs "}" name) /\
   split_braced_name name = Ok (None, name)).
Proof. exact split_braced_exact. Qed.
Print Assumptions C38_parts_rebuild.

Example C38_case :
  split_braced_name "{http://x/{y}z}local" = Ok (Some "http://x/{y}z", "local") /\
  split_braced_name "local" = Ok (None, "local") /\
  split_braced_name "{local" = Ok (None, "{local").
Proof. repeat split. Qed.
