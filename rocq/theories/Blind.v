(** * Calls whose course does not depend on how many ids have been made. *)

From Coq Require Import String Ascii List Bool Arith.
From Verif Require Import Str Xml XPath Utils Base Cybox Stix Ramrod SpecSession SpecThreads Steps Stepwise.
Import ListNotations.

(** Whatever number an access to the counter gives back, the program goes on
    in the same way. *)
Fixpoint blind {A} (p : prog A) : Prop :=
  match p with
  | Done _ => True
  | Do a k =>
      (match a in op X return (res X -> prog A) -> Prop with
       | Tick => fun k => forall n m, k (Ok n) = k (Ok m)
       | _ => fun _ => True
       end) k /\ forall r, blind (k r)
  end.

Lemma blind_ret {A} (a : A) : blind (ret a).
Proof. exact I. Qed.
Lemma blind_raise {A} e : blind (@raise A e).
Proof. exact I. Qed.
Lemma blind_liftr {A} (r : res A) : blind (liftr r).
Proof. exact I. Qed.

Lemma blind_bind {A B} (p : prog A) (k : A -> prog B) :
  blind p -> (forall a, blind (k a)) -> blind (bind p k).
Proof.
  intros Hp Hk. induction p as [[a|e]|X a q IH]; cbn [bind]; auto.
  destruct Hp as [H1 H2]. split; auto. destruct a; auto.
  intros n m. rewrite (H1 n m). reflexivity.
Qed.

Lemma blind_try {A} (p : prog A) h :
  blind p -> (forall e k, h e = Some k -> blind k) -> blind (try_catch p h).
Proof.
  intros Hp Hk. induction p as [[a|e]|X a q IH]; cbn [try_catch]; auto.
  - destruct (h e) eqn:E; [eauto|exact I].
  - destruct Hp as [H1 H2]. split; auto. destruct a; auto.
    intros n m. rewrite (H1 n m). reflexivity.
Qed.

Lemma blind_for_each {A} (l : list A) (f : A -> prog unit) :
  (forall x, blind (f x)) -> blind (for_each l f).
Proof.
  intro H. induction l; cbn [for_each]; [apply blind_ret|apply blind_bind; auto].
Qed.
Lemma blind_map_m {A B} (f : A -> prog B) l : (forall x, blind (f x)) -> blind (map_m f l).
Proof.
  intro H. induction l; cbn [map_m]; [apply blind_ret|].
  apply blind_bind; auto. intro. apply blind_bind; auto. intro. apply blind_ret.
Qed.
Lemma blind_filter_m {A} (f : A -> prog bool) l : (forall x, blind (f x)) -> blind (filter_m f l).
Proof.
  intro H. induction l; cbn [filter_m]; [apply blind_ret|].
  apply blind_bind; auto. intro. apply blind_bind; auto. intro. apply blind_ret.
Qed.

Create HintDb blind.

Lemma blind_deref i : blind (deref i).
Proof. split; intros; exact I. Qed.
Lemma blind_modify i f : blind (modify i f).
Proof. split; intros; exact I. Qed.
Lemma blind_fresh : blind fresh.
Proof. split; intros; exact I. Qed.
Lemma blind_copy_tree t : blind (copy_tree t).
Proof. split; intros; exact I. Qed.
Lemma blind_push t : blind (push t).
Proof. split; intros; exact I. Qed.
#[export] Hint Resolve blind_deref blind_modify blind_fresh blind_copy_tree blind_push : blind.

Ltac course :=
  repeat lazymatch goal with
  | |- blind (ret _) => apply blind_ret
  | |- blind (raise _) => apply blind_raise
  | |- blind (liftr _) => apply blind_liftr
  | |- blind (bind _ _) => apply blind_bind; [|intro]
  | |- blind (for_each _ _) => apply blind_for_each; intro
  | |- blind (map_m _ _) => apply blind_map_m; intro
  | |- blind (filter_m _ _) => apply blind_filter_m; intro
  | |- blind (match ?x with _ => _ end) => destruct x
  end; auto with blind.

Lemma blind_get_hdr i : blind (get_hdr i).
Proof. unfold get_hdr; course. Qed.
#[export] Hint Resolve blind_get_hdr : blind.
Lemma blind_supplant i new : blind (supplant i new).
Proof. unfold supplant; course; split; intros; exact I. Qed.
Lemma blind_new_elem tag text ks : blind (new_elem tag text ks).
Proof. unfold new_elem; course. Qed.
Lemma blind_update_namespaces u r : blind (update_namespaces u r).
Proof. unfold update_namespaces; course; split; intros; exact I. Qed.
#[export] Hint Resolve blind_supplant blind_new_elem blind_update_namespaces : blind.

(** Here the number is used; it does not matter for a function that forgets
    it. *)
Lemma blind_apply_new_id f i : (forall k k' old, f k old = f k' old) -> blind (apply_new_id f i).
Proof.
  intro F. unfold apply_new_id. apply blind_bind; [apply blind_get_hdr|]. intro h.
  destruct (attr_get _ _) as [orig|]; [|apply blind_raise]. split.
  - intros n m. cbn. rewrite (F n m). reflexivity.
  - intros [n|e]; cbn; auto.
Qed.

Lemma blind_clean_duplicates opts d : forgets_calls opts -> blind (clean_duplicates opts d).
Proof.
  intro F. unfold clean_duplicates. course. apply blind_apply_new_id. exact F.
Qed.

Lemma blind_xpath i x ns : blind (xpath i x ns).
Proof. unfold xpath; course. Qed.
#[export] Hint Resolve blind_xpath : blind.
Lemma blind_get_etree_root d make_copy : blind (get_etree_root d make_copy).
Proof. unfold get_etree_root; course. Qed.
#[export] Hint Resolve blind_get_etree_root : blind.
Lemma blind_replace_xml_element old new : blind (replace_xml_element old new).
Proof. unfold replace_xml_element; course. Qed.
#[export] Hint Resolve blind_replace_xml_element : blind.
Lemma blind_remove_xml_element i : blind (remove_xml_element i).
Proof. unfold remove_xml_element; course. Qed.
#[export] Hint Resolve blind_remove_xml_element : blind.
Lemma blind_remove_xml_elements l : blind (remove_xml_elements l).
Proof. unfold remove_xml_elements; course. Qed.
#[export] Hint Resolve blind_remove_xml_elements : blind.
Lemma blind_copy_xml_element i tag : blind (copy_xml_element i tag).
Proof. unfold copy_xml_element; course. Qed.
#[export] Hint Resolve blind_copy_xml_element : blind.
Lemma blind_remove_xml_attribute i a : blind (remove_xml_attribute i a).
Proof. unfold remove_xml_attribute; course. Qed.
#[export] Hint Resolve blind_remove_xml_attribute : blind.
Lemma blind_remove_xml_attributes i l : blind (remove_xml_attributes i l).
Proof. unfold remove_xml_attributes; course. Qed.
#[export] Hint Resolve blind_remove_xml_attributes : blind.
Lemma blind_get_type_info i : blind (get_type_info i).
Proof. unfold get_type_info; course. Qed.
#[export] Hint Resolve blind_get_type_info : blind.
Lemma blind_get_typed_nodes root : blind (get_typed_nodes root).
Proof. unfold get_typed_nodes; course. Qed.
#[export] Hint Resolve blind_get_typed_nodes : blind.
Lemma blind_get_ext_namespace i : blind (get_ext_namespace i).
Proof. unfold get_ext_namespace; course. Qed.
#[export] Hint Resolve blind_get_ext_namespace : blind.
Lemma blind_vocab_find v typed : blind (vocab_find v typed).
Proof. unfold vocab_find; course. Qed.
#[export] Hint Resolve blind_vocab_find : blind.
Lemma blind_set_pystr i k v : blind (set_pystr i k v).
Proof. unfold set_pystr; course. Qed.
#[export] Hint Resolve blind_set_pystr : blind.
Lemma blind_vocab_update_node v i : blind (vocab_update_node v i).
Proof. unfold vocab_update_node; course. Qed.
#[export] Hint Resolve blind_vocab_update_node : blind.
Lemma blind_vocab_update v typed : blind (vocab_update v typed).
Proof. unfold vocab_update; course. Qed.
#[export] Hint Resolve blind_vocab_update : blind.
Lemma blind_interrogate o k nodes : blind (interrogate o k nodes).
Proof. unfold interrogate; course. Qed.
#[export] Hint Resolve blind_interrogate : blind.
Lemma blind_get_contexts d root typed : blind (get_contexts d root typed).
Proof. unfold get_contexts; course. Qed.
#[export] Hint Resolve blind_get_contexts : blind.
Lemma blind_find_in o d ns contexts : blind (find_in o d ns contexts).
Proof. induction contexts; cbn [find_in]; course. Qed.
#[export] Hint Resolve blind_find_in : blind.
Lemma blind_dfind o d ns root typed : blind (dfind o d ns root typed).
Proof. unfold dfind; course. Qed.
#[export] Hint Resolve blind_dfind : blind.
Lemma blind_translate_default ns xvalue new_tag copy override i : blind (translate_default ns xvalue new_tag copy override i).
Proof. unfold translate_default; course. Qed.
#[export] Hint Resolve blind_translate_default : blind.
Lemma blind_translate_wrap wrapper new_tag i : blind (translate_wrap wrapper new_tag i).
Proof. unfold translate_wrap; course. Qed.
#[export] Hint Resolve blind_translate_wrap : blind.
Lemma blind_translate_contributors ns i : blind (translate_contributors ns i).
Proof. unfold translate_contributors; course. Qed.
#[export] Hint Resolve blind_translate_contributors : blind.
Lemma blind_translate_source o sighting i : blind (translate_source o sighting i).
Proof. unfold translate_source; course. Qed.
#[export] Hint Resolve blind_translate_source : blind.
Lemma blind_mailslot_replace new_tag i : blind (mailslot_replace new_tag i).
Proof. unfold mailslot_replace; course. Qed.
#[export] Hint Resolve blind_mailslot_replace : blind.
Lemma blind_translate_node o ns k i : blind (translate_node o ns k i).
Proof. unfold translate_node; course. Qed.
#[export] Hint Resolve blind_translate_node : blind.
Lemma blind_translate o ns f root : blind (translate o ns f root).
Proof. unfold translate; course. Qed.
#[export] Hint Resolve blind_translate : blind.
Lemma blind_get_duplicates u root : blind (get_duplicates u root).
Proof. unfold get_duplicates; course. Qed.
#[export] Hint Resolve blind_get_duplicates : blind.
Lemma blind_get_versioned_nodes u root : blind (get_versioned_nodes u root).
Proof. unfold get_versioned_nodes; course. Qed.
#[export] Hint Resolve blind_get_versioned_nodes : blind.
Lemma blind_get_root_nodes u root : blind (get_root_nodes u root).
Proof. unfold get_root_nodes; course. Qed.
#[export] Hint Resolve blind_get_root_nodes : blind.
Lemma blind_update_vocabs u root : blind (update_vocabs u root).
Proof. unfold update_vocabs; course. Qed.
#[export] Hint Resolve blind_update_vocabs : blind.
Lemma blind_update_schemalocs u root : blind (update_schemalocs u root).
Proof. unfold update_schemalocs; course. Qed.
#[export] Hint Resolve blind_update_schemalocs : blind.
Lemma blind_translate_fields o u root : blind (translate_fields o u root).
Proof. unfold translate_fields; course. Qed.
#[export] Hint Resolve blind_translate_fields : blind.
Lemma blind_update_optionals o u root : blind (update_optionals o u root).
Proof. unfold update_optionals; course. Qed.
#[export] Hint Resolve blind_update_optionals : blind.
Lemma blind_find_disallowed o ns l root : blind (find_disallowed o ns l root).
Proof. induction l; cbn [find_disallowed]; course. Qed.
#[export] Hint Resolve blind_find_disallowed : blind.
Lemma blind_clean_disallowed l : blind (clean_disallowed l).
Proof. unfold clean_disallowed; course. Qed.
#[export] Hint Resolve blind_clean_disallowed : blind.
Lemma blind_as_element i : blind (as_element i).
Proof. unfold as_element; course. Qed.
#[export] Hint Resolve blind_as_element : blind.
Lemma blind_cybox_node_version i : blind (cybox_node_version i).
Proof. unfold cybox_node_version; course. Qed.
#[export] Hint Resolve blind_cybox_node_version : blind.
Lemma blind_cybox_check_version u root : blind (cybox_check_version u root).
Proof. unfold cybox_check_version; course. Qed.
#[export] Hint Resolve blind_cybox_check_version : blind.
Lemma blind_cybox_2_0_update_versions u root : blind (cybox_2_0_update_versions u root).
Proof. unfold cybox_2_0_update_versions; course. Qed.
#[export] Hint Resolve blind_cybox_2_0_update_versions : blind.
Lemma blind_update_lists u root : blind (update_lists u root).
Proof. unfold update_lists; course. Qed.
#[export] Hint Resolve blind_update_lists : blind.
Lemma blind_cybox_2_0_check u root opts : blind (cybox_2_0_check u root opts).
Proof. unfold cybox_2_0_check; course. Qed.
#[export] Hint Resolve blind_cybox_2_0_check : blind.
Lemma blind_cybox_2_0_do_update u root opts : blind (cybox_2_0_do_update u root opts).
Proof. unfold cybox_2_0_do_update; course. Qed.
#[export] Hint Resolve blind_cybox_2_0_do_update : blind.
Lemma blind_cybox_2_0_1_update_versions u root : blind (cybox_2_0_1_update_versions u root).
Proof. unfold cybox_2_0_1_update_versions; course. Qed.
#[export] Hint Resolve blind_cybox_2_0_1_update_versions : blind.
Lemma blind_cybox_2_0_1_get_disallowed o u root : blind (cybox_2_0_1_get_disallowed o u root).
Proof. unfold cybox_2_0_1_get_disallowed; course. Qed.
#[export] Hint Resolve blind_cybox_2_0_1_get_disallowed : blind.
Lemma blind_report disallowed duplicates : blind (report disallowed duplicates).
Proof. unfold report; course. Qed.
#[export] Hint Resolve blind_report : blind.
Lemma blind_cybox_2_0_1_check o u root opts : blind (cybox_2_0_1_check o u root opts).
Proof. unfold cybox_2_0_1_check; course. Qed.
#[export] Hint Resolve blind_cybox_2_0_1_check : blind.
Lemma blind_cybox_2_0_1_do_update o u root opts : blind (cybox_2_0_1_do_update o u root opts).
Proof. unfold cybox_2_0_1_do_update; course. Qed.
#[export] Hint Resolve blind_cybox_2_0_1_do_update : blind.
Lemma blind_cybox_get_version d : blind (cybox_get_version d).
Proof. unfold cybox_get_version; course. Qed.
#[export] Hint Resolve blind_cybox_get_version : blind.
Lemma blind_stix_node_version i : blind (stix_node_version i).
Proof. unfold stix_node_version; course. Qed.
#[export] Hint Resolve blind_stix_node_version : blind.
Lemma blind_stix_check_version u root : blind (stix_check_version u root).
Proof. unfold stix_check_version; course. Qed.
#[export] Hint Resolve blind_stix_check_version : blind.
Lemma blind_stix_update_versions u indicator other root : blind (stix_update_versions u indicator other root).
Proof. unfold stix_update_versions; course. Qed.
#[export] Hint Resolve blind_stix_update_versions : blind.
Lemma blind_stix_1_0_get_disallowed o root : blind (stix_1_0_get_disallowed o root).
Proof. unfold stix_1_0_get_disallowed; course. Qed.
#[export] Hint Resolve blind_stix_1_0_get_disallowed : blind.
Lemma blind_stix_1_0_check o root opts : blind (stix_1_0_check o root opts).
Proof. unfold stix_1_0_check; course. Qed.
#[export] Hint Resolve blind_stix_1_0_check : blind.
Lemma blind_stix_1_0_do_update root opts : blind (stix_1_0_do_update root opts).
Proof. unfold stix_1_0_do_update; course. Qed.
#[export] Hint Resolve blind_stix_1_0_do_update : blind.
Lemma blind_stix_1_0_1_get_disallowed o root : blind (stix_1_0_1_get_disallowed o root).
Proof. unfold stix_1_0_1_get_disallowed; course. Qed.
#[export] Hint Resolve blind_stix_1_0_1_get_disallowed : blind.
Lemma blind_stix_1_0_1_get_duplicates root : blind (stix_1_0_1_get_duplicates root).
Proof. unfold stix_1_0_1_get_duplicates; course. Qed.
#[export] Hint Resolve blind_stix_1_0_1_get_duplicates : blind.
Lemma blind_stix_1_0_1_check o root opts : blind (stix_1_0_1_check o root opts).
Proof. unfold stix_1_0_1_check; course. Qed.
#[export] Hint Resolve blind_stix_1_0_1_check : blind.
Lemma blind_stix_1_0_1_do_update o root opts : blind (stix_1_0_1_do_update o root opts).
Proof. unfold stix_1_0_1_do_update; course. Qed.
#[export] Hint Resolve blind_stix_1_0_1_do_update : blind.
Lemma blind_stix_1_1_check root opts : blind (stix_1_1_check root opts).
Proof. unfold stix_1_1_check; course. Qed.
#[export] Hint Resolve blind_stix_1_1_check : blind.
Lemma blind_stix_1_1_do_update o root opts : blind (stix_1_1_do_update o root opts).
Proof. unfold stix_1_1_do_update; course. Qed.
#[export] Hint Resolve blind_stix_1_1_do_update : blind.
Lemma blind_stix_1_1_1_check root opts : blind (stix_1_1_1_check root opts).
Proof. unfold stix_1_1_1_check; course. Qed.
#[export] Hint Resolve blind_stix_1_1_1_check : blind.
Lemma blind_stix_1_1_1_do_update root opts : blind (stix_1_1_1_do_update root opts).
Proof. unfold stix_1_1_1_do_update; course. Qed.
#[export] Hint Resolve blind_stix_1_1_1_do_update : blind.
Lemma blind_stix_1_2_check root opts : blind (stix_1_2_check root opts).
Proof. unfold stix_1_2_check; course. Qed.
#[export] Hint Resolve blind_stix_1_2_check : blind.
Lemma blind_stix_1_2_do_update root opts : blind (stix_1_2_do_update root opts).
Proof. unfold stix_1_2_do_update; course. Qed.
#[export] Hint Resolve blind_stix_1_2_do_update : blind.
Lemma blind_stix_get_version d : blind (stix_get_version d).
Proof. unfold stix_get_version; course. Qed.
#[export] Hint Resolve blind_stix_get_version : blind.

(** ** Updater classes *)

Record blind_updater (up : updater) : Prop := {
  b_check : forall r opts, blind (up_check up r opts);
  b_update : forall r opts, blind (up_update up r opts);
  b_dis : forall r, blind (up_get_disallowed up r);
  b_dup : forall r, blind (up_get_duplicates up r);
  b_cdis : forall l opts, blind (up_clean_disallowed up l opts);
  b_cdup : forall d opts, forgets_calls opts -> blind (up_clean_duplicates up d opts)
}.

Lemma blind_clean_root up root opts : blind_updater up -> forgets_calls opts -> blind (clean_root up root opts).
Proof. intros [] F. unfold clean_root. course. Qed.

Lemma blind_clean o up d opts : blind_updater up -> forgets_calls (or_default o opts) -> blind (clean o up d opts).
Proof. intros H F. unfold clean. course. apply blind_clean_root; auto. Qed.

Lemma blind_updater_update o up d opts force : blind_updater up ->
  (force = true -> forgets_calls (or_default o opts)) -> blind (updater_update o up d opts force).
Proof.
  intros H F. unfold updater_update. course. apply blind_try.
  - course; apply H.
  - intros e k E. destruct (is_update_failure e); [|discriminate]. destruct force; [|discriminate].
    injection E as <-. unfold force_update. course; [apply blind_clean_root; auto|apply H].
Qed.

Ltac unseen :=
  constructor; intros;
  cbn [up_check up_update up_get_disallowed up_get_duplicates up_clean_disallowed up_clean_duplicates
       Cybox_2_0_Updater Cybox_2_0_1_Updater STIX_1_0_Updater STIX_1_0_1_Updater STIX_1_1_Updater
       STIX_1_1_1_Updater STIX_1_2_Updater]; course; auto using blind_clean_duplicates.

Lemma blind_cybox_2_0 : blind_updater Cybox_2_0_Updater.
Proof. unseen. Qed.
Lemma blind_cybox_2_0_1 o : blind_updater (Cybox_2_0_1_Updater o).
Proof. unseen. Qed.
Lemma blind_stix_1_0 o : blind_updater (STIX_1_0_Updater o).
Proof. unseen. Qed.
Lemma blind_stix_1_0_1 o : blind_updater (STIX_1_0_1_Updater o).
Proof. unseen. Qed.
Lemma blind_stix_1_1 o : blind_updater (STIX_1_1_Updater o).
Proof. unseen. Qed.
Lemma blind_stix_1_1_1 : blind_updater STIX_1_1_1_Updater.
Proof. unseen. Qed.
Lemma blind_stix_1_2 : blind_updater STIX_1_2_Updater.
Proof. unseen. Qed.

Definition blind_table (table : dict updater) : Prop :=
  forall v up, dict_get v table = Some up -> blind_updater up.

Lemma blind_STIX_UPDATERS o : blind_table (STIX_UPDATERS o).
Proof.
  intros v up. unfold STIX_UPDATERS. cbn [dict_get].
  repeat match goal with |- context [if ?b then _ else _] => destruct b end;
    intro E; inversion E; subst;
    auto using blind_stix_1_0, blind_stix_1_0_1, blind_stix_1_1, blind_stix_1_1_1, blind_stix_1_2.
Qed.
Lemma blind_CYBOX_UPDATERS o : blind_table (CYBOX_UPDATERS o).
Proof.
  intros v up. unfold CYBOX_UPDATERS. cbn [dict_get].
  repeat match goal with |- context [if ?b then _ else _] => destruct b end;
    intro E; inversion E; subst; auto using blind_cybox_2_0, blind_cybox_2_0_1.
Qed.

Lemma blind_run_steps o table steps opts force : blind_table table ->
  (force = true -> forgets_calls (or_default o opts)) -> forall root removed remapped,
  blind (run_steps o table steps root opts force removed remapped).
Proof.
  intros H F. induction steps as [|v vs IH]; intros; cbn [run_steps]; [course|].
  destruct (dict_get v table) eqn:E; [|course]. course. apply blind_updater_update; eauto.
Qed.

Lemma blind_versioned_update o versions table g d from to opts force : blind_table table ->
  (forall i, blind (g i)) -> (force = true -> forgets_calls (or_default o opts)) ->
  blind (versioned_update o versions table g d from to opts force).
Proof.
  intros H G F. unfold versioned_update. course. apply blind_run_steps; auto.
Qed.

Lemma blind_stix_update o d from to opts force : (force = true -> forgets_calls (or_default o opts)) ->
  blind (stix_update o d from to opts force).
Proof. intro. apply blind_versioned_update; auto using blind_STIX_UPDATERS. intro; auto with blind. Qed.
Lemma blind_cybox_update o d from to opts force : (force = true -> forgets_calls (or_default o opts)) ->
  blind (cybox_update o d from to opts force).
Proof. intro. apply blind_versioned_update; auto using blind_CYBOX_UPDATERS. intro; course. Qed.

Lemma or_default_twice o opts : or_default o (Some (or_default o opts)) = or_default o opts.
Proof. destruct opts; reflexivity. Qed.

Lemma blind_ramrod_update o d from to opts force : (force = true -> forgets_calls (or_default o opts)) ->
  blind (ramrod_update o d from to opts force).
Proof.
  intro F. unfold ramrod_update. course; [apply blind_stix_update|apply blind_cybox_update]; rewrite or_default_twice; auto.
Qed.

Lemma blind_with_class table v f : blind_table table -> (forall up, blind_updater up -> blind (f up)) ->
  blind (with_class table v f).
Proof.
  intros H G. unfold with_class. destruct (dict_get v table) eqn:E; [eauto|course].
Qed.

Lemma blind_perform o c : reproducible o c -> blind (perform o c).
Proof.
  destruct c; cbn [reproducible perform]; intro F;
    auto using blind_stix_update, blind_cybox_update, blind_ramrod_update;
    try (apply blind_with_class; [apply blind_STIX_UPDATERS || apply blind_CYBOX_UPDATERS|intros]);
    auto using blind_updater_update, blind_clean.
  course.
Qed.
