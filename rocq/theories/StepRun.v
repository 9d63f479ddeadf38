(** * The programs of Stepwise.v, run without interruption, are the functions
    of the model. *)

From Coq Require Import String Ascii List Bool Arith.
From Verif Require Import Str Xml XPath Utils Base Cybox Stix Ramrod SpecSession Steps Stepwise.
Import ListNotations.

Definition is {A} (p : prog A) (m : Xml.M A) : Prop := forall s, run p s = m s.

Lemma is_ret {A} (a : A) : is (Steps.ret a) (Xml.ret a).
Proof. intro s; reflexivity. Qed.
Lemma is_raise {A} e : is (@Steps.raise A e) (Xml.raise e).
Proof. intro s; reflexivity. Qed.
Lemma is_liftr {A} (r : res A) : is (Steps.liftr r) (Xml.liftr r).
Proof. intro s; reflexivity. Qed.

Lemma run_bind {A B} (p : prog A) (k : A -> prog B) : forall s,
  run (Steps.bind p k) s = match run p s with
                           | (Ok a, s') => run (k a) s'
                           | (Err e, s') => (Err e, s')
                           end.
Proof. induction p as [[a|e]|X a q IH]; intro s; cbn [Steps.bind run]; auto. Qed.

Lemma is_bind {A B} (p : prog A) (m : Xml.M A) (k : A -> prog B) (f : A -> Xml.M B) :
  is p m -> (forall a, is (k a) (f a)) -> is (Steps.bind p k) (Xml.bind m f).
Proof.
  intros Hp Hk s. rewrite run_bind, Hp. unfold Xml.bind.
  destruct (m s) as [[a|e] s']; auto. apply Hk.
Qed.

Lemma run_try {A} (p : prog A) h : forall s,
  run (Steps.try_catch p h) s = match run p s with
                                | (Err e, s') => match h e with
                                                 | Some k => run k s'
                                                 | None => (Err e, s')
                                                 end
                                | r => r
                                end.
Proof.
  induction p as [[a|e]|X a q IH]; intro s; cbn [Steps.try_catch run]; auto.
  destruct (h e); auto.
Qed.

Lemma is_try {A} (p : prog A) (m : Xml.M A) h g :
  is p m ->
  (forall e, match h e, g e with
             | Some k, Some f => is k f
             | None, None => True
             | _, _ => False
             end) ->
  is (Steps.try_catch p h) (Xml.try_catch m g).
Proof.
  intros Hp Hh s. rewrite run_try, Hp. unfold Xml.try_catch.
  destruct (m s) as [[a|e] s']; auto. specialize (Hh e).
  destruct (h e), (g e); try contradiction; auto.
Qed.

Lemma is_for_each {A} (l : list A) (f : A -> prog unit) (g : A -> Xml.M unit) :
  (forall x, is (f x) (g x)) -> is (Steps.for_each l f) (Xml.for_each l g).
Proof.
  intro H. induction l as [|x l IH]; cbn [Steps.for_each Xml.for_each].
  - apply is_ret.
  - apply is_bind; auto.
Qed.

Lemma is_map_m {A B} (f : A -> prog B) (g : A -> Xml.M B) l :
  (forall x, is (f x) (g x)) -> is (Steps.map_m f l) (Xml.map_m g l).
Proof.
  intro H. induction l as [|x l IH]; cbn [Steps.map_m Xml.map_m].
  - apply is_ret.
  - apply is_bind; auto. intro y. apply is_bind; auto. intro ys. apply is_ret.
Qed.

Lemma is_filter_m {A} (f : A -> prog bool) (g : A -> Xml.M bool) l :
  (forall x, is (f x) (g x)) -> is (Steps.filter_m f l) (Xml.filter_m g l).
Proof.
  intro H. induction l as [|x l IH]; cbn [Steps.filter_m Xml.filter_m].
  - apply is_ret.
  - apply is_bind; auto. intro y. apply is_bind; auto. intro ys. apply is_ret.
Qed.

Lemma is_act {X} (a : op X) (m : Xml.M X) : (forall s, exec a s = m s) -> is (act a) m.
Proof. intros H s. cbn. rewrite H. destruct (m s); reflexivity. Qed.

Create HintDb steps.

Lemma is_deref i : is (Steps.deref i) (Xml.deref i).
Proof. apply is_act; reflexivity. Qed.
Lemma is_modify i f : is (Steps.modify i f) (Xml.modify i f).
Proof. apply is_act; reflexivity. Qed.
Lemma is_fresh : is Steps.fresh Xml.fresh.
Proof. apply is_act; reflexivity. Qed.
Lemma is_copy_tree t : is (Steps.copy_tree t) (Xml.copy_tree t).
Proof. apply is_act; reflexivity. Qed.
Lemma is_push t : is (Steps.push t) (Xml.push t).
Proof. apply is_act; reflexivity. Qed.
#[export] Hint Resolve is_deref is_modify is_fresh is_copy_tree is_push : steps.

(** Follow the text of a function on both sides. *)
Ltac same :=
  repeat lazymatch goal with
  | |- is (Steps.ret _) _ => apply is_ret
  | |- is (Steps.raise _) _ => apply is_raise
  | |- is (Steps.liftr _) _ => apply is_liftr
  | |- is (Steps.bind _ _) _ => apply is_bind; [|intro]
  | |- is (Steps.for_each _ _) _ => apply is_for_each; intro
  | |- is (Steps.map_m _ _) _ => apply is_map_m; intro
  | |- is (Steps.filter_m _ _) _ => apply is_filter_m; intro
  | |- is (match ?x with _ => _ end) _ => destruct x
  | |- is (let '(_, _) := ?x in _) _ => destruct x
  end; auto with steps.

Lemma is_get_hdr i : is (Steps.get_hdr i) (Xml.get_hdr i).
Proof. unfold Steps.get_hdr, Xml.get_hdr; same. Qed.
#[export] Hint Resolve is_get_hdr : steps.
Lemma is_supplant i new : is (Steps.supplant i new) (Xml.supplant i new).
Proof.
  unfold Steps.supplant, Xml.supplant. same. apply is_act. reflexivity.
Qed.
Lemma is_new_elem tag text ks : is (Steps.new_elem tag text ks) (Xml.new_elem tag text ks).
Proof. unfold Steps.new_elem, Xml.new_elem; same. Qed.
Lemma is_apply_new_id f i : is (Steps.apply_new_id f i) (Utils.apply_new_id f i).
Proof.
  unfold Steps.apply_new_id, Utils.apply_new_id. same. intro st0. reflexivity.
Qed.
Lemma is_update_namespaces u r : is (Steps.update_namespaces u r) (Base.update_namespaces u r).
Proof.
  unfold Steps.update_namespaces, Base.update_namespaces. same.
  apply is_act. reflexivity.
Qed.
#[export] Hint Resolve is_supplant is_new_elem is_apply_new_id is_update_namespaces : steps.

Lemma is_xpath i x ns : is (Stepwise.xpath i x ns) (XPath.xpath i x ns).
Proof. unfold Stepwise.xpath, XPath.xpath; same. Qed.
#[export] Hint Resolve is_xpath : steps.
Lemma is_get_etree_root d make_copy : is (Stepwise.get_etree_root d make_copy) (Utils.get_etree_root d make_copy).
Proof. unfold Stepwise.get_etree_root, Utils.get_etree_root; same. Qed.
#[export] Hint Resolve is_get_etree_root : steps.
Lemma is_replace_xml_element old new : is (Stepwise.replace_xml_element old new) (Utils.replace_xml_element old new).
Proof. unfold Stepwise.replace_xml_element, Utils.replace_xml_element; same. Qed.
#[export] Hint Resolve is_replace_xml_element : steps.
Lemma is_remove_xml_element i : is (Stepwise.remove_xml_element i) (Utils.remove_xml_element i).
Proof. unfold Stepwise.remove_xml_element, Utils.remove_xml_element; same. Qed.
#[export] Hint Resolve is_remove_xml_element : steps.
Lemma is_remove_xml_elements l : is (Stepwise.remove_xml_elements l) (Utils.remove_xml_elements l).
Proof. unfold Stepwise.remove_xml_elements, Utils.remove_xml_elements; same. Qed.
#[export] Hint Resolve is_remove_xml_elements : steps.
Lemma is_copy_xml_element i tag : is (Stepwise.copy_xml_element i tag) (Utils.copy_xml_element i tag).
Proof. unfold Stepwise.copy_xml_element, Utils.copy_xml_element; same. Qed.
#[export] Hint Resolve is_copy_xml_element : steps.
Lemma is_remove_xml_attribute i a : is (Stepwise.remove_xml_attribute i a) (Utils.remove_xml_attribute i a).
Proof. unfold Stepwise.remove_xml_attribute, Utils.remove_xml_attribute; same. Qed.
#[export] Hint Resolve is_remove_xml_attribute : steps.
Lemma is_remove_xml_attributes i l : is (Stepwise.remove_xml_attributes i l) (Utils.remove_xml_attributes i l).
Proof. unfold Stepwise.remove_xml_attributes, Utils.remove_xml_attributes; same. Qed.
#[export] Hint Resolve is_remove_xml_attributes : steps.
Lemma is_get_type_info i : is (Stepwise.get_type_info i) (Utils.get_type_info i).
Proof. unfold Stepwise.get_type_info, Utils.get_type_info; same. Qed.
#[export] Hint Resolve is_get_type_info : steps.
Lemma is_get_typed_nodes root : is (Stepwise.get_typed_nodes root) (Utils.get_typed_nodes root).
Proof. unfold Stepwise.get_typed_nodes, Utils.get_typed_nodes; same. Qed.
#[export] Hint Resolve is_get_typed_nodes : steps.
Lemma is_get_ext_namespace i : is (Stepwise.get_ext_namespace i) (Utils.get_ext_namespace i).
Proof. unfold Stepwise.get_ext_namespace, Utils.get_ext_namespace; same. Qed.
#[export] Hint Resolve is_get_ext_namespace : steps.
Lemma is_vocab_find v typed : is (Stepwise.vocab_find v typed) (Base.vocab_find v typed).
Proof. unfold Stepwise.vocab_find, Base.vocab_find; same. Qed.
#[export] Hint Resolve is_vocab_find : steps.
Lemma is_set_pystr i k v : is (Stepwise.set_pystr i k v) (Base.set_pystr i k v).
Proof. unfold Stepwise.set_pystr, Base.set_pystr; same. Qed.
#[export] Hint Resolve is_set_pystr : steps.
Lemma is_vocab_update_node v i : is (Stepwise.vocab_update_node v i) (Base.vocab_update_node v i).
Proof. unfold Stepwise.vocab_update_node, Base.vocab_update_node; same. Qed.
#[export] Hint Resolve is_vocab_update_node : steps.
Lemma is_vocab_update v typed : is (Stepwise.vocab_update v typed) (Base.vocab_update v typed).
Proof. unfold Stepwise.vocab_update, Base.vocab_update; same. Qed.
#[export] Hint Resolve is_vocab_update : steps.
Lemma is_interrogate o k nodes : is (Stepwise.interrogate o k nodes) (Base.interrogate o k nodes).
Proof. unfold Stepwise.interrogate, Base.interrogate; same. Qed.
#[export] Hint Resolve is_interrogate : steps.
Lemma is_get_contexts d root typed : is (Stepwise.get_contexts d root typed) (Base.get_contexts d root typed).
Proof. unfold Stepwise.get_contexts, Base.get_contexts; same. Qed.
#[export] Hint Resolve is_get_contexts : steps.
Lemma is_find_in o d ns contexts : is (Stepwise.find_in o d ns contexts) (Base.find_in o d ns contexts).
Proof. induction contexts; cbn [Stepwise.find_in Base.find_in]; same. Qed.
#[export] Hint Resolve is_find_in : steps.
Lemma is_dfind o d ns root typed : is (Stepwise.dfind o d ns root typed) (Base.dfind o d ns root typed).
Proof. unfold Stepwise.dfind, Base.dfind; same. Qed.
#[export] Hint Resolve is_dfind : steps.
Lemma is_translate_default ns xvalue new_tag copy override i : is (Stepwise.translate_default ns xvalue new_tag copy override i) (Base.translate_default ns xvalue new_tag copy override i).
Proof. unfold Stepwise.translate_default, Base.translate_default; same. Qed.
#[export] Hint Resolve is_translate_default : steps.
Lemma is_translate_wrap wrapper new_tag i : is (Stepwise.translate_wrap wrapper new_tag i) (Base.translate_wrap wrapper new_tag i).
Proof. unfold Stepwise.translate_wrap, Base.translate_wrap; same. Qed.
#[export] Hint Resolve is_translate_wrap : steps.
Lemma is_translate_contributors ns i : is (Stepwise.translate_contributors ns i) (Base.translate_contributors ns i).
Proof. unfold Stepwise.translate_contributors, Base.translate_contributors; same. Qed.
#[export] Hint Resolve is_translate_contributors : steps.
Lemma is_translate_source o sighting i : is (Stepwise.translate_source o sighting i) (Base.translate_source o sighting i).
Proof. unfold Stepwise.translate_source, Base.translate_source; same. Qed.
#[export] Hint Resolve is_translate_source : steps.
Lemma is_mailslot_replace new_tag i : is (Stepwise.mailslot_replace new_tag i) (Base.mailslot_replace new_tag i).
Proof. unfold Stepwise.mailslot_replace, Base.mailslot_replace; same. Qed.
#[export] Hint Resolve is_mailslot_replace : steps.
Lemma is_translate_node o ns k i : is (Stepwise.translate_node o ns k i) (Base.translate_node o ns k i).
Proof. unfold Stepwise.translate_node, Base.translate_node; same. Qed.
#[export] Hint Resolve is_translate_node : steps.
Lemma is_translate o ns f root : is (Stepwise.translate o ns f root) (Base.translate o ns f root).
Proof. unfold Stepwise.translate, Base.translate; same. Qed.
#[export] Hint Resolve is_translate : steps.
Lemma is_get_duplicates u root : is (Stepwise.get_duplicates u root) (Base.get_duplicates u root).
Proof. unfold Stepwise.get_duplicates, Base.get_duplicates; same. Qed.
#[export] Hint Resolve is_get_duplicates : steps.
Lemma is_get_versioned_nodes u root : is (Stepwise.get_versioned_nodes u root) (Base.get_versioned_nodes u root).
Proof. unfold Stepwise.get_versioned_nodes, Base.get_versioned_nodes; same. Qed.
#[export] Hint Resolve is_get_versioned_nodes : steps.
Lemma is_get_root_nodes u root : is (Stepwise.get_root_nodes u root) (Base.get_root_nodes u root).
Proof. unfold Stepwise.get_root_nodes, Base.get_root_nodes; same. Qed.
#[export] Hint Resolve is_get_root_nodes : steps.
Lemma is_update_vocabs u root : is (Stepwise.update_vocabs u root) (Base.update_vocabs u root).
Proof. unfold Stepwise.update_vocabs, Base.update_vocabs; same. Qed.
#[export] Hint Resolve is_update_vocabs : steps.
Lemma is_update_schemalocs u root : is (Stepwise.update_schemalocs u root) (Base.update_schemalocs u root).
Proof. unfold Stepwise.update_schemalocs, Base.update_schemalocs; same. Qed.
#[export] Hint Resolve is_update_schemalocs : steps.
Lemma is_translate_fields o u root : is (Stepwise.translate_fields o u root) (Base.translate_fields o u root).
Proof. unfold Stepwise.translate_fields, Base.translate_fields; same. Qed.
#[export] Hint Resolve is_translate_fields : steps.
Lemma is_update_optionals o u root : is (Stepwise.update_optionals o u root) (Base.update_optionals o u root).
Proof. unfold Stepwise.update_optionals, Base.update_optionals; same. Qed.
#[export] Hint Resolve is_update_optionals : steps.
Lemma is_find_disallowed o ns l root : is (Stepwise.find_disallowed o ns l root) (Base.find_disallowed o ns l root).
Proof. induction l; cbn [Stepwise.find_disallowed Base.find_disallowed]; same. Qed.
#[export] Hint Resolve is_find_disallowed : steps.
Lemma is_clean_disallowed l : is (Stepwise.clean_disallowed l) (Base.clean_disallowed l).
Proof. unfold Stepwise.clean_disallowed, Base.clean_disallowed; same. Qed.
#[export] Hint Resolve is_clean_disallowed : steps.
Lemma is_clean_duplicates opts d : is (Stepwise.clean_duplicates opts d) (Base.clean_duplicates opts d).
Proof. unfold Stepwise.clean_duplicates, Base.clean_duplicates; same. Qed.
#[export] Hint Resolve is_clean_duplicates : steps.
Lemma is_as_element i : is (Stepwise.as_element i) (Base.as_element i).
Proof. unfold Stepwise.as_element, Base.as_element; same. Qed.
#[export] Hint Resolve is_as_element : steps.
Lemma is_cybox_node_version i : is (Stepwise.cybox_node_version i) (Cybox.cybox_node_version i).
Proof. unfold Stepwise.cybox_node_version, Cybox.cybox_node_version; same. Qed.
#[export] Hint Resolve is_cybox_node_version : steps.
Lemma is_cybox_check_version u root : is (Stepwise.cybox_check_version u root) (Cybox.cybox_check_version u root).
Proof. unfold Stepwise.cybox_check_version, Cybox.cybox_check_version; same. Qed.
#[export] Hint Resolve is_cybox_check_version : steps.
Lemma is_cybox_2_0_update_versions u root : is (Stepwise.cybox_2_0_update_versions u root) (Cybox.cybox_2_0_update_versions u root).
Proof. unfold Stepwise.cybox_2_0_update_versions, Cybox.cybox_2_0_update_versions; same. Qed.
#[export] Hint Resolve is_cybox_2_0_update_versions : steps.
Lemma is_update_lists u root : is (Stepwise.update_lists u root) (Cybox.update_lists u root).
Proof. unfold Stepwise.update_lists, Cybox.update_lists; same. Qed.
#[export] Hint Resolve is_update_lists : steps.
Lemma is_cybox_2_0_check u root opts : is (Stepwise.cybox_2_0_check u root opts) (Cybox.cybox_2_0_check u root opts).
Proof. unfold Stepwise.cybox_2_0_check, Cybox.cybox_2_0_check; same. Qed.
#[export] Hint Resolve is_cybox_2_0_check : steps.
Lemma is_cybox_2_0_do_update u root opts : is (Stepwise.cybox_2_0_do_update u root opts) (Cybox.cybox_2_0_do_update u root opts).
Proof. unfold Stepwise.cybox_2_0_do_update, Cybox.cybox_2_0_do_update; same. Qed.
#[export] Hint Resolve is_cybox_2_0_do_update : steps.
Lemma is_cybox_2_0_1_update_versions u root : is (Stepwise.cybox_2_0_1_update_versions u root) (Cybox.cybox_2_0_1_update_versions u root).
Proof. unfold Stepwise.cybox_2_0_1_update_versions, Cybox.cybox_2_0_1_update_versions; same. Qed.
#[export] Hint Resolve is_cybox_2_0_1_update_versions : steps.
Lemma is_cybox_2_0_1_get_disallowed o u root : is (Stepwise.cybox_2_0_1_get_disallowed o u root) (Cybox.cybox_2_0_1_get_disallowed o u root).
Proof. unfold Stepwise.cybox_2_0_1_get_disallowed, Cybox.cybox_2_0_1_get_disallowed; same. Qed.
#[export] Hint Resolve is_cybox_2_0_1_get_disallowed : steps.
Lemma is_report disallowed duplicates : is (Stepwise.report disallowed duplicates) (Cybox.report disallowed duplicates).
Proof. unfold Stepwise.report, Cybox.report; same. Qed.
#[export] Hint Resolve is_report : steps.
Lemma is_cybox_2_0_1_check o u root opts : is (Stepwise.cybox_2_0_1_check o u root opts) (Cybox.cybox_2_0_1_check o u root opts).
Proof. unfold Stepwise.cybox_2_0_1_check, Cybox.cybox_2_0_1_check; same. Qed.
#[export] Hint Resolve is_cybox_2_0_1_check : steps.
Lemma is_cybox_2_0_1_do_update o u root opts : is (Stepwise.cybox_2_0_1_do_update o u root opts) (Cybox.cybox_2_0_1_do_update o u root opts).
Proof. unfold Stepwise.cybox_2_0_1_do_update, Cybox.cybox_2_0_1_do_update; same. Qed.
#[export] Hint Resolve is_cybox_2_0_1_do_update : steps.
Lemma is_cybox_get_version d : is (Stepwise.cybox_get_version d) (Cybox.cybox_get_version d).
Proof. unfold Stepwise.cybox_get_version, Cybox.cybox_get_version; same. Qed.
#[export] Hint Resolve is_cybox_get_version : steps.
Lemma is_stix_node_version i : is (Stepwise.stix_node_version i) (Stix.stix_node_version i).
Proof. unfold Stepwise.stix_node_version, Stix.stix_node_version; same. Qed.
#[export] Hint Resolve is_stix_node_version : steps.
Lemma is_stix_check_version u root : is (Stepwise.stix_check_version u root) (Stix.stix_check_version u root).
Proof. unfold Stepwise.stix_check_version, Stix.stix_check_version; same. Qed.
#[export] Hint Resolve is_stix_check_version : steps.
Lemma is_stix_update_versions u indicator other root : is (Stepwise.stix_update_versions u indicator other root) (Stix.stix_update_versions u indicator other root).
Proof. unfold Stepwise.stix_update_versions, Stix.stix_update_versions; same. Qed.
#[export] Hint Resolve is_stix_update_versions : steps.
Lemma is_stix_1_0_get_disallowed o root : is (Stepwise.stix_1_0_get_disallowed o root) (Stix.stix_1_0_get_disallowed o root).
Proof. unfold Stepwise.stix_1_0_get_disallowed, Stix.stix_1_0_get_disallowed; same. Qed.
#[export] Hint Resolve is_stix_1_0_get_disallowed : steps.
Lemma is_stix_1_0_check o root opts : is (Stepwise.stix_1_0_check o root opts) (Stix.stix_1_0_check o root opts).
Proof. unfold Stepwise.stix_1_0_check, Stix.stix_1_0_check; same. Qed.
#[export] Hint Resolve is_stix_1_0_check : steps.
Lemma is_stix_1_0_do_update root opts : is (Stepwise.stix_1_0_do_update root opts) (Stix.stix_1_0_do_update root opts).
Proof. unfold Stepwise.stix_1_0_do_update, Stix.stix_1_0_do_update; same. Qed.
#[export] Hint Resolve is_stix_1_0_do_update : steps.
Lemma is_stix_1_0_1_get_disallowed o root : is (Stepwise.stix_1_0_1_get_disallowed o root) (Stix.stix_1_0_1_get_disallowed o root).
Proof. unfold Stepwise.stix_1_0_1_get_disallowed, Stix.stix_1_0_1_get_disallowed; same. Qed.
#[export] Hint Resolve is_stix_1_0_1_get_disallowed : steps.
Lemma is_stix_1_0_1_get_duplicates root : is (Stepwise.stix_1_0_1_get_duplicates root) (Stix.stix_1_0_1_get_duplicates root).
Proof. unfold Stepwise.stix_1_0_1_get_duplicates, Stix.stix_1_0_1_get_duplicates; same. Qed.
#[export] Hint Resolve is_stix_1_0_1_get_duplicates : steps.
Lemma is_stix_1_0_1_check o root opts : is (Stepwise.stix_1_0_1_check o root opts) (Stix.stix_1_0_1_check o root opts).
Proof. unfold Stepwise.stix_1_0_1_check, Stix.stix_1_0_1_check; same. Qed.
#[export] Hint Resolve is_stix_1_0_1_check : steps.
Lemma is_stix_1_0_1_do_update o root opts : is (Stepwise.stix_1_0_1_do_update o root opts) (Stix.stix_1_0_1_do_update o root opts).
Proof. unfold Stepwise.stix_1_0_1_do_update, Stix.stix_1_0_1_do_update; same. Qed.
#[export] Hint Resolve is_stix_1_0_1_do_update : steps.
Lemma is_stix_1_1_check root opts : is (Stepwise.stix_1_1_check root opts) (Stix.stix_1_1_check root opts).
Proof. unfold Stepwise.stix_1_1_check, Stix.stix_1_1_check; same. Qed.
#[export] Hint Resolve is_stix_1_1_check : steps.
Lemma is_stix_1_1_do_update o root opts : is (Stepwise.stix_1_1_do_update o root opts) (Stix.stix_1_1_do_update o root opts).
Proof. unfold Stepwise.stix_1_1_do_update, Stix.stix_1_1_do_update; same. Qed.
#[export] Hint Resolve is_stix_1_1_do_update : steps.
Lemma is_stix_1_1_1_check root opts : is (Stepwise.stix_1_1_1_check root opts) (Stix.stix_1_1_1_check root opts).
Proof. unfold Stepwise.stix_1_1_1_check, Stix.stix_1_1_1_check; same. Qed.
#[export] Hint Resolve is_stix_1_1_1_check : steps.
Lemma is_stix_1_1_1_do_update root opts : is (Stepwise.stix_1_1_1_do_update root opts) (Stix.stix_1_1_1_do_update root opts).
Proof. unfold Stepwise.stix_1_1_1_do_update, Stix.stix_1_1_1_do_update; same. Qed.
#[export] Hint Resolve is_stix_1_1_1_do_update : steps.
Lemma is_stix_1_2_check root opts : is (Stepwise.stix_1_2_check root opts) (Stix.stix_1_2_check root opts).
Proof. unfold Stepwise.stix_1_2_check, Stix.stix_1_2_check; same. Qed.
#[export] Hint Resolve is_stix_1_2_check : steps.
Lemma is_stix_1_2_do_update root opts : is (Stepwise.stix_1_2_do_update root opts) (Stix.stix_1_2_do_update root opts).
Proof. unfold Stepwise.stix_1_2_do_update, Stix.stix_1_2_do_update; same. Qed.
#[export] Hint Resolve is_stix_1_2_do_update : steps.
Lemma is_stix_get_version d : is (Stepwise.stix_get_version d) (Stix.stix_get_version d).
Proof. unfold Stepwise.stix_get_version, Stix.stix_get_version; same. Qed.
#[export] Hint Resolve is_stix_get_version : steps.

(** ** Updater classes *)

Record is_updater (p : Stepwise.updater) (u : Base.updater) : Prop := {
  is_up_check : forall r opts, is (Stepwise.up_check p r opts) (Base.up_check u r opts);
  is_up_update : forall r opts, is (Stepwise.up_update p r opts) (Base.up_update u r opts);
  is_up_get_disallowed : forall r, is (Stepwise.up_get_disallowed p r) (Base.up_get_disallowed u r);
  is_up_get_duplicates : forall r, is (Stepwise.up_get_duplicates p r) (Base.up_get_duplicates u r);
  is_up_clean_disallowed : forall l opts,
    is (Stepwise.up_clean_disallowed p l opts) (Base.up_clean_disallowed u l opts);
  is_up_clean_duplicates : forall d opts,
    is (Stepwise.up_clean_duplicates p d opts) (Base.up_clean_duplicates u d opts)
}.

Lemma is_clean_root p u root opts : is_updater p u ->
  is (Stepwise.clean_root p root opts) (Base.clean_root u root opts).
Proof.
  intros []. unfold Stepwise.clean_root, Base.clean_root. same.
Qed.

Lemma is_clean o p u doc opts : is_updater p u ->
  is (Stepwise.clean o p doc opts) (Base.clean o u doc opts).
Proof.
  intros H. unfold Stepwise.clean, Base.clean. same. apply is_clean_root; auto.
Qed.

Lemma is_force_update p u root opts : is_updater p u ->
  is (Stepwise.force_update p root opts) (Base.force_update u root opts).
Proof.
  intros H. unfold Stepwise.force_update, Base.force_update. same.
  - apply is_clean_root; auto.
  - apply H.
Qed.

Lemma is_updater_update o p u doc opts force : is_updater p u ->
  is (Stepwise.updater_update o p doc opts force) (Base.updater_update o u doc opts force).
Proof.
  intros H. unfold Stepwise.updater_update, Base.updater_update. same. apply is_try.
  - same; apply H.
  - intro e. destruct (is_update_failure e && force); auto. apply is_force_update; auto.
Qed.

Ltac both :=
  constructor; intros;
  cbn [Stepwise.up_check Stepwise.up_update Stepwise.up_get_disallowed Stepwise.up_get_duplicates
       Stepwise.up_clean_disallowed Stepwise.up_clean_duplicates
       Base.up_check Base.up_update Base.up_get_disallowed Base.up_get_duplicates
       Base.up_clean_disallowed Base.up_clean_duplicates
       Stepwise.Cybox_2_0_Updater Cybox.Cybox_2_0_Updater
       Stepwise.Cybox_2_0_1_Updater Cybox.Cybox_2_0_1_Updater
       Stepwise.STIX_1_0_Updater Stix.STIX_1_0_Updater
       Stepwise.STIX_1_0_1_Updater Stix.STIX_1_0_1_Updater
       Stepwise.STIX_1_1_Updater Stix.STIX_1_1_Updater
       Stepwise.STIX_1_1_1_Updater Stix.STIX_1_1_1_Updater
       Stepwise.STIX_1_2_Updater Stix.STIX_1_2_Updater]; same.

Lemma is_cybox_2_0 : is_updater Stepwise.Cybox_2_0_Updater Cybox.Cybox_2_0_Updater.
Proof. both. Qed.
Lemma is_cybox_2_0_1 o : is_updater (Stepwise.Cybox_2_0_1_Updater o) (Cybox.Cybox_2_0_1_Updater o).
Proof. both. Qed.
Lemma is_stix_1_0 o : is_updater (Stepwise.STIX_1_0_Updater o) (Stix.STIX_1_0_Updater o).
Proof. both. Qed.
Lemma is_stix_1_0_1 o : is_updater (Stepwise.STIX_1_0_1_Updater o) (Stix.STIX_1_0_1_Updater o).
Proof. both. Qed.
Lemma is_stix_1_1 o : is_updater (Stepwise.STIX_1_1_Updater o) (Stix.STIX_1_1_Updater o).
Proof. both. Qed.
Lemma is_stix_1_1_1 : is_updater Stepwise.STIX_1_1_1_Updater Stix.STIX_1_1_1_Updater.
Proof. both. Qed.
Lemma is_stix_1_2 : is_updater Stepwise.STIX_1_2_Updater Stix.STIX_1_2_Updater.
Proof. both. Qed.

(** The same versions have a class, and the same one. *)
Definition is_table (ps : dict Stepwise.updater) (us : dict Base.updater) : Prop :=
  forall v, match dict_get v ps, dict_get v us with
            | Some p, Some u => is_updater p u
            | None, None => True
            | _, _ => False
            end.

Lemma is_STIX_UPDATERS o : is_table (Stepwise.STIX_UPDATERS o) (Stix.STIX_UPDATERS o).
Proof.
  intro v. unfold Stepwise.STIX_UPDATERS, Stix.STIX_UPDATERS. cbn [dict_get].
  repeat match goal with |- context [if ?b then _ else _] => destruct b end;
    auto using is_stix_1_0, is_stix_1_0_1, is_stix_1_1, is_stix_1_1_1, is_stix_1_2.
Qed.
Lemma is_CYBOX_UPDATERS o : is_table (Stepwise.CYBOX_UPDATERS o) (Cybox.CYBOX_UPDATERS o).
Proof.
  intro v. unfold Stepwise.CYBOX_UPDATERS, Cybox.CYBOX_UPDATERS. cbn [dict_get].
  repeat match goal with |- context [if ?b then _ else _] => destruct b end;
    auto using is_cybox_2_0, is_cybox_2_0_1.
Qed.

Lemma is_run_steps o ps us steps opts force : is_table ps us -> forall root removed remapped,
  is (Stepwise.run_steps o ps steps root opts force removed remapped)
     (Cybox.run_steps o us steps root opts force removed remapped).
Proof.
  intro H. induction steps as [|v vs IH]; intros; cbn [Stepwise.run_steps Cybox.run_steps].
  - same.
  - specialize (H v). destruct (dict_get v ps), (dict_get v us); try contradiction; [|same].
    same. apply is_updater_update; auto.
Qed.

Lemma is_versioned_update o versions ps us gp gu d from to opts force :
  is_table ps us -> (forall i, is (gp i) (gu i)) ->
  is (Stepwise.versioned_update o versions ps gp d from to opts force)
     (Cybox.versioned_update o versions us gu d from to opts force).
Proof.
  intros H G. unfold Stepwise.versioned_update, Cybox.versioned_update. same.
  apply is_run_steps; auto.
Qed.

Lemma is_stix_update o d from to opts force :
  is (Stepwise.stix_update o d from to opts force) (Stix.stix_update o d from to opts force).
Proof. apply is_versioned_update; [apply is_STIX_UPDATERS|intro; auto with steps]. Qed.
Lemma is_cybox_update o d from to opts force :
  is (Stepwise.cybox_update o d from to opts force) (Cybox.cybox_update o d from to opts force).
Proof. apply is_versioned_update; [apply is_CYBOX_UPDATERS|intro; same]. Qed.
Lemma is_ramrod_update o d from to opts force :
  is (Stepwise.ramrod_update o d from to opts force) (Ramrod.ramrod_update o d from to opts force).
Proof.
  unfold Stepwise.ramrod_update, Ramrod.ramrod_update. same;
    auto using is_stix_update, is_cybox_update.
Qed.

Lemma is_with_class ps us v f g : is_table ps us ->
  (forall p u, is_updater p u -> is (f p) (g u)) ->
  is (Stepwise.with_class ps v f) (SpecSession.with_class us v g).
Proof.
  intros H G. unfold Stepwise.with_class, SpecSession.with_class. specialize (H v).
  destruct (dict_get v ps), (dict_get v us); try contradiction; [auto|same].
Qed.

(** Every call, as a program and as a function. *)
Theorem run_perform o c s : run (Stepwise.perform o c) s = SpecSession.perform o c s.
Proof.
  revert s. change (is (Stepwise.perform o c) (SpecSession.perform o c)).
  destruct c; cbn [Stepwise.perform SpecSession.perform];
    auto using is_stix_update, is_cybox_update, is_ramrod_update;
    try (apply is_with_class; [apply is_STIX_UPDATERS || apply is_CYBOX_UPDATERS|intros]);
    auto using is_updater_update, is_clean.
  same.
Qed.
