(** * Which computations never raise one of the three documented errors. *)

From Coq Require Import String Ascii List Bool Arith.
From Verif Require Import Str Xml XPath Utils Base Cybox Stix Ramrod Spec Lib Api Samples.
Import ListNotations.

(** Neither one of the three documented errors nor a missing method. *)
Definition other_error (e : exn) : bool :=
  match e with
  | UpdateError _ _ | UnknownVersionError | InvalidVersionError _ _ _
  | NotImplementedError => false
  | _ => true
  end.

Definition nofail {A} (m : M A) : Prop :=
  forall s e s', m s = (Err e, s') -> other_error e = true.

Lemma nf_ret {A} (a : A) : nofail (ret a).
Proof. intros s e s' H; discriminate. Qed.

Lemma nf_raise {A} e : other_error e = true -> nofail (@raise A e).
Proof. intros H s e' s' E. inversion E; subst; auto. Qed.

Lemma nf_bind {A B} (m : M A) (k : A -> M B) :
  nofail m -> (forall a, nofail (k a)) -> nofail (bind m k).
Proof.
  intros Hm Hk s e s' H. rewrite bind_run in H. destruct (m s) as [[a|e1] s1] eqn:E.
  - eapply Hk; eauto.
  - inversion H; subst. eapply Hm; eauto.
Qed.

Lemma nf_for_each {A} (l : list A) f : (forall x, nofail (f x)) -> nofail (for_each l f).
Proof.
  intro Hf. induction l as [|x l IH]; simpl; [apply nf_ret|].
  apply nf_bind; auto.
Qed.

Lemma nf_map_m {A B} (f : A -> M B) l : (forall x, nofail (f x)) -> nofail (map_m f l).
Proof.
  intro Hf. induction l as [|x l IH]; simpl; [apply nf_ret|].
  apply nf_bind; auto. intro. apply nf_bind; auto. intro; apply nf_ret.
Qed.

Lemma nf_filter_m {A} (f : A -> M bool) l : (forall x, nofail (f x)) -> nofail (filter_m f l).
Proof.
  intro Hf. induction l as [|x l IH]; simpl; [apply nf_ret|].
  apply nf_bind; auto. intro. apply nf_bind; auto. intro; apply nf_ret.
Qed.

Lemma nf_liftr {A} (r : res A) : (forall e, r = Err e -> other_error e = true) ->
  nofail (liftr r).
Proof. intros H s e s' E. unfold liftr in E. inversion E. auto. Qed.

Lemma nf_deref i : nofail (deref i).
Proof. intros s e s' H. unfold deref in H. destruct (hfind i (heap s)); inversion H; auto. Qed.

Lemma nf_modify i f : nofail (modify i f).
Proof. intros s e s' H; discriminate. Qed.
Lemma nf_fresh : nofail fresh.
Proof. intros s e s' H; discriminate. Qed.
Lemma nf_push t : nofail (push t).
Proof. intros s e s' H; discriminate. Qed.
Lemma nf_copy t : nofail (copy_tree t).
Proof. intros s e s' H. unfold copy_tree in H. destruct (renum (next s) t). discriminate. Qed.

Lemma nf_type_info i : nofail (get_type_info i).
Proof.
  unfold get_type_info, get_hdr.
  apply nf_bind; [apply nf_bind; [apply nf_deref|intro; apply nf_ret]|intro h; apply nf_liftr].
  intros e H. unfold type_info in H. destruct (attr_get TAG_XSI_TYPE (h_attr h)) as [v|].
  - destruct (split_char ":" v) as [|? [|? [|]]]; inversion H; auto.
  - inversion H; auto.
Qed.

Lemma nf_ext_namespace i : nofail (get_ext_namespace i).
Proof.
  unfold get_ext_namespace. apply nf_bind; [apply nf_deref|intro c; apply nf_liftr].
  intros e H. unfold ext_namespace in H.
  destruct (attr_get TAG_XSI_TYPE (h_attr (head (snd c)))) as [v|]; [|inversion H; auto].
  destruct (env_get _ _); inversion H; auto.
Qed.

Ltac nf_leaf :=
  first [ apply nf_ret | apply nf_raise; reflexivity | apply nf_deref | apply nf_modify
        | apply nf_fresh | apply nf_push | apply nf_copy | apply nf_type_info
        | apply nf_ext_namespace | assumption ].
Ltac nf_step :=
  first [ nf_leaf
        | lazymatch goal with
          | |- nofail (bind _ _) => apply nf_bind; [|intro]
          | |- nofail (for_each _ _) => apply nf_for_each; intro
          | |- nofail (map_m _ _) => apply nf_map_m; intro
          | |- nofail (filter_m _ _) => apply nf_filter_m; intro
          | |- nofail (if ?b then _ else _) => destruct b
          | |- nofail (match ?x with _ => _ end) => destruct x
          end ].
Ltac nf := repeat nf_step.

Lemma nf_get_hdr i : nofail (get_hdr i).
Proof. unfold get_hdr. nf. Qed.

Lemma nf_supplant i new : nofail (supplant i new).
Proof. unfold supplant. nf. intros s e s' H; discriminate. Qed.

Lemma nf_xpath i x ns : nofail (xpath i x ns).
Proof. unfold xpath. nf. Qed.

Lemma nf_copy_xml i t : nofail (copy_xml_element i t).
Proof. unfold copy_xml_element. nf. Qed.

Ltac nf_leaf ::=
  first [ apply nf_ret | apply nf_raise; reflexivity | apply nf_deref | apply nf_modify
        | apply nf_fresh | apply nf_push | apply nf_copy | apply nf_type_info
        | apply nf_ext_namespace | apply nf_get_hdr | apply nf_supplant | apply nf_xpath
        | apply nf_copy_xml | assumption ].

Lemma nf_get_etree_root d c : nofail (get_etree_root d c).
Proof. unfold get_etree_root. nf. Qed.

Lemma nf_vocab_update v l : nofail (vocab_update v l).
Proof. unfold vocab_update, vocab_find, vocab_update_node, set_pystr. nf. Qed.

Lemma nf_update_vocabs u root : nofail (update_vocabs u root).
Proof.
  unfold update_vocabs, get_typed_nodes.
  apply nf_bind; [nf|intro l]. apply nf_for_each; intro v. apply nf_vocab_update.
Qed.

Lemma nf_interrogate o k nodes : nofail (interrogate o k nodes).
Proof. destruct k; unfold interrogate; nf. Qed.

Lemma nf_find_in o d ns l : nofail (find_in o d ns l).
Proof.
  induction l as [|c l IH]; simpl; nf. apply nf_interrogate.
Qed.

Lemma nf_dfind o d ns root typed : nofail (dfind o d ns root typed).
Proof.
  unfold dfind, get_contexts, get_typed_nodes. nf. apply nf_find_in.
Qed.

Lemma nf_find_disallowed o ns l root : nofail (find_disallowed o ns l root).
Proof. induction l as [|d l IH]; simpl; nf. apply nf_dfind. Qed.

Lemma nf_translate_fields o u root : nofail (translate_fields o u root).
Proof.
  unfold translate_fields, translate, translate_node, translate_default, translate_wrap,
    translate_contributors, translate_source, mailslot_replace, replace_xml_element, new_elem.
  nf.
Qed.

Lemma nf_update_optionals o u root : nofail (update_optionals o u root).
Proof.
  unfold update_optionals, get_typed_nodes, remove_xml_elements, remove_xml_element,
    remove_xml_attributes, remove_xml_attribute.
  nf; apply nf_dfind.
Qed.

Lemma nf_update_schemalocs u root : nofail (update_schemalocs u root).
Proof. unfold update_schemalocs. nf. Qed.

Lemma nf_update_namespaces u root : nofail (update_namespaces u root).
Proof.
  unfold update_namespaces. nf. intros s e s' H. destruct (upd_ns _ _ _ _); discriminate.
Qed.

Lemma nf_get_duplicates u root : nofail (get_duplicates u root).
Proof. unfold get_duplicates. nf. Qed.

Lemma nf_clean_disallowed l : nofail (clean_disallowed l).
Proof. unfold clean_disallowed, remove_xml_element. nf. Qed.

Lemma nf_apply_new_id f i : nofail (apply_new_id f i).
Proof. unfold apply_new_id. nf. intros s0 e s1 H; discriminate. Qed.

Lemma nf_clean_duplicates opts d : nofail (clean_duplicates opts d).
Proof. unfold clean_duplicates. nf. apply nf_apply_new_id. Qed.

Ltac nf_leaf ::=
  first [ apply nf_ret | apply nf_raise; reflexivity | apply nf_deref | apply nf_modify
        | apply nf_fresh | apply nf_push | apply nf_copy | apply nf_type_info
        | apply nf_ext_namespace | apply nf_get_hdr | apply nf_supplant | apply nf_xpath
        | apply nf_copy_xml | apply nf_get_etree_root | apply nf_update_vocabs
        | apply nf_find_disallowed | apply nf_translate_fields | apply nf_update_optionals
        | apply nf_update_schemalocs | apply nf_update_namespaces | apply nf_get_duplicates
        | apply nf_clean_disallowed | apply nf_clean_duplicates | assumption ].

Lemma nf_cybox_2_0_do_update u root opts : nofail (cybox_2_0_do_update u root opts).
Proof.
  unfold cybox_2_0_do_update, cybox_2_0_update_versions, update_lists, get_versioned_nodes. nf.
Qed.

Lemma nf_cybox_2_0_1_do_update o u root opts : nofail (cybox_2_0_1_do_update o u root opts).
Proof.
  unfold cybox_2_0_1_do_update, cybox_2_0_1_update_versions, get_versioned_nodes. nf.
Qed.

Lemma nf_stix_update_versions u a b root : nofail (stix_update_versions u a b root).
Proof. unfold stix_update_versions, get_versioned_nodes. nf. Qed.

Ltac nf_leaf ::=
  first [ apply nf_ret | apply nf_raise; reflexivity | apply nf_deref | apply nf_modify
        | apply nf_fresh | apply nf_push | apply nf_copy | apply nf_type_info
        | apply nf_ext_namespace | apply nf_get_hdr | apply nf_supplant | apply nf_xpath
        | apply nf_copy_xml | apply nf_get_etree_root | apply nf_update_vocabs
        | apply nf_find_disallowed | apply nf_translate_fields | apply nf_update_optionals
        | apply nf_update_schemalocs | apply nf_update_namespaces | apply nf_get_duplicates
        | apply nf_clean_disallowed | apply nf_clean_duplicates
        | apply nf_cybox_2_0_do_update | apply nf_cybox_2_0_1_do_update
        | apply nf_stix_update_versions | assumption ].

(** Forcing is possible: the update and the cleaning raise neither a documented
    error nor NotImplementedError. *)
Definition nf_updater (up : updater) : Prop :=
  (forall r opts, nofail (up_update up r opts)) /\
  (forall r opts, nofail (clean_root up r opts)).

Lemma nf_bind_ret {A B} (a : A) (k : A -> M B) : nofail (k a) -> nofail (bind (ret a) k).
Proof. intro H. exact H. Qed.

Lemma clean_root_nothing up r opts :
  up_get_disallowed up = (fun _ => ret None) -> up_get_duplicates up = (fun _ => ret None) ->
  nofail (clean_root up r opts).
Proof.
  intros E1 E2. unfold clean_root. rewrite E1, E2. do 2 apply nf_bind_ret. nf.
Qed.

Definition forcible (o : oracle) : list updater :=
  [STIX_1_0_Updater o; STIX_1_0_1_Updater o; STIX_1_1_Updater o; STIX_1_1_1_Updater;
   Cybox_2_0_Updater; Cybox_2_0_1_Updater o].

Lemma forcible_nf o up : In up (forcible o) -> nf_updater up.
Proof.
  simpl. intros [<-|[<-|[<-|[<-|[<-|[<-|[]]]]]]]; split; intros.
  - simpl. unfold stix_1_0_do_update. nf.
  - unfold clean_root; simpl. unfold stix_1_0_get_disallowed.
    apply nf_bind; [nf|intro dis]. do 2 apply nf_bind_ret. nf.
  - simpl. unfold stix_1_0_1_do_update. nf.
  - unfold clean_root; simpl. unfold stix_1_0_1_get_disallowed, stix_1_0_1_get_duplicates,
      cybox_2_0_1_get_disallowed. nf.
  - simpl. unfold stix_1_1_do_update. nf.
  - apply clean_root_nothing; reflexivity.
  - simpl. unfold stix_1_1_1_do_update. nf.
  - apply clean_root_nothing; reflexivity.
  - simpl. nf.
  - apply clean_root_nothing; reflexivity.
  - simpl. nf.
  - unfold clean_root; simpl. unfold cybox_2_0_1_get_disallowed. nf.
Qed.

Lemma nf_force_update up root opts : nf_updater up -> nofail (force_update up root opts).
Proof.
  intros [H1 H2]. unfold force_update, as_element.
  apply nf_bind; [apply H2|intro c]. apply nf_bind; [nf|intro i].
  apply nf_bind; [apply H1|intro j]. nf.
Qed.

(** A check or an update raises, besides documented errors, no missing method. *)
Definition implemented {A} (m : M A) : Prop :=
  forall s e s', m s = (Err e, s') -> e <> NotImplementedError.

Lemma nofail_impl {A} (m : M A) : nofail m -> implemented m.
Proof. intros H s e s' E ->. apply H in E. discriminate. Qed.

Lemma impl_bind {A B} (m : M A) (k : A -> M B) :
  implemented m -> (forall a, implemented (k a)) -> implemented (bind m k).
Proof.
  intros Hm Hk s e s' H. rewrite bind_run in H. destruct (m s) as [[a|e1] s1] eqn:E.
  - eapply Hk; eauto.
  - inversion H; subst. eapply Hm; eauto.
Qed.

Lemma impl_for_each {A} (l : list A) f :
  (forall x, implemented (f x)) -> implemented (for_each l f).
Proof.
  intro Hf. induction l as [|x l IH]; simpl; [apply nofail_impl, nf_ret|].
  apply impl_bind; auto.
Qed.

Lemma impl_raise {A} e : e <> NotImplementedError -> implemented (@raise A e).
Proof. intros H s e' s' E. inversion E; subst; auto. Qed.

Lemma impl_liftr {A} (r : res A) : r <> Err NotImplementedError -> implemented (liftr r).
Proof. intros H s e s' E ->. apply H. unfold liftr in E. inversion E; auto. Qed.

Lemma impl_stix_check u root : implemented (stix_check_version u root).
Proof.
  unfold stix_check_version, get_root_nodes, stix_node_version.
  apply impl_bind; [apply nofail_impl; nf|intros [|i l]]; [apply nofail_impl; nf|].
  apply impl_bind; [apply nofail_impl; nf|intros [f|]]; [|apply impl_raise; discriminate].
  destruct (negb (truthy (Some f))); [apply impl_raise; discriminate|].
  apply impl_bind; [apply impl_liftr|intros []].
  - unfold is_version_equal. destruct (strict_version f), (strict_version (c_version u)); discriminate.
  - apply nofail_impl; nf.
  - apply impl_raise; discriminate.
Qed.

Lemma impl_cybox_check u root : implemented (cybox_check_version u root).
Proof.
  unfold cybox_check_version, get_root_nodes, cybox_node_version.
  apply impl_bind; [apply nofail_impl; nf|intro l]. apply impl_for_each; intro i.
  apply impl_bind; [apply impl_bind; [apply nofail_impl; nf|intro h; apply impl_liftr]|intro f].
  - unfold cybox_hdr_version.
    destruct (attr_get TAG_CYBOX_MAJOR (h_attr h)) as [x|]; [|discriminate].
    destruct (attr_get TAG_CYBOX_MINOR (h_attr h)) as [y|]; [|discriminate].
    destruct (truthy (Some x) && truthy (Some y)); [|discriminate].
    destruct (attr_get TAG_CYBOX_UPDATE (h_attr h)) as [z|]; [|discriminate].
    destruct (truthy (Some z)); discriminate.
  - apply impl_bind; [apply impl_liftr|intros []].
    + unfold is_version_equal. destruct (strict_version (c_version u)), (strict_version f); discriminate.
    + apply nofail_impl; nf.
    + apply impl_raise; discriminate.
Qed.

Lemma impl_report a b : implemented (report a b).
Proof.
  unfold report. destruct a; [destruct b|]; [apply nofail_impl; nf| |]; apply impl_raise; discriminate.
Qed.

Lemma impl_if {A} (b : bool) (m n : M A) :
  implemented m -> implemented n -> implemented (if b then m else n).
Proof. destruct b; auto. Qed.

Lemma registered_check_impl o up r opts :
  In up (map snd (STIX_UPDATERS o) ++ map snd (CYBOX_UPDATERS o)) ->
  implemented (up_check up r opts).
Proof.
  pose proof impl_stix_check. pose proof impl_cybox_check. pose proof impl_report.
  assert (R : implemented (ret tt)) by (apply nofail_impl, nf_ret).
  simpl. intros [<-|[<-|[<-|[<-|[<-|[<-|[<-|[]]]]]]]]; simpl.
  - unfold stix_1_0_check. apply impl_bind; [apply impl_if; auto; apply impl_bind; auto|intros _].
    unfold stix_1_0_get_disallowed. apply impl_bind; [apply nofail_impl; nf|intros [|x l]]; auto.
    apply impl_raise; discriminate.
  - unfold stix_1_0_1_check. apply impl_bind; [apply impl_if; auto; apply impl_bind; auto|intros _].
    unfold stix_1_0_1_get_disallowed, stix_1_0_1_get_duplicates, cybox_2_0_1_get_disallowed.
    repeat (apply impl_bind; [apply nofail_impl; nf|intro]). auto.
  - apply impl_if; auto.
  - apply impl_if; auto.
  - apply impl_if; auto.
  - apply impl_if; auto.
  - unfold cybox_2_0_1_check. apply impl_bind; [apply impl_if; auto|intros _].
    unfold cybox_2_0_1_get_disallowed.
    repeat (apply impl_bind; [apply nofail_impl; nf|intro]). auto.
Qed.

Lemma forcible_registered o up : In up (forcible o) ->
  In up (map snd (STIX_UPDATERS o) ++ map snd (CYBOX_UPDATERS o)).
Proof. simpl. tauto. Qed.

Lemma nf_updater_update o up d opts : In up (forcible o) -> nofail (updater_update o up d opts true).
Proof.
  intro F. pose proof (forcible_nf o up F) as H. unfold updater_update.
  apply nf_bind; [apply nf_get_etree_root|intro root].
  cbv zeta. intros s e s' E. unfold try_catch in E.
  match type of E with context [match ?m with _ => _ end] =>
    destruct m as [[r|e1] s1] eqn:Em end; [discriminate|].
  destruct (is_update_failure e1) eqn:Fe; simpl in E.
  - eapply nf_force_update; eauto.
  - inversion E; subst.
    assert (I : implemented (up_check up root (or_default o opts) ;;;
                             updated <- up_update up root (or_default o opts) ;;
                             ret (create_update_results updated None None))).
    { apply impl_bind; [apply (registered_check_impl o), forcible_registered; auto|intros _].
      apply nofail_impl. apply nf_bind; [apply H|intro]. nf. }
    apply I in Em. destruct e; try discriminate; auto.
Qed.

(** STIX 1.2: [_get_disallowed] is missing, so cleaning always fails. *)
Lemma stix_1_2_clean root opts s :
  clean_root STIX_1_2_Updater root opts s = (Err NotImplementedError, s).
Proof. reflexivity. Qed.

Lemma nd_stix_1_2 o d opts s e s' :
  updater_update o STIX_1_2_Updater d opts true s = (Err e, s') -> is_update_failure e = false.
Proof.
  unfold updater_update. rewrite bind_run.
  destruct (get_etree_root d true s) as [[root|e0] s0] eqn:E0.
  - cbv zeta. unfold try_catch.
    match goal with |- context [match ?m with _ => _ end] =>
      destruct m as [[r|e1] s1] eqn:Em end; [discriminate|].
    destruct (is_update_failure e1) eqn:Fe; simpl.
    + unfold force_update. rewrite bind_run, stix_1_2_clean. intro H; inversion H; auto.
    + intro H; inversion H; subst; auto.
  - intro H; inversion H; subst. apply nf_get_etree_root in E0. destruct e; simpl in *; congruence.
Qed.

Lemma other_not_failure e : other_error e = true -> is_update_failure e = false.
Proof. destruct e; simpl; congruence. Qed.

Lemma forced_not_documented o up d opts s e s' :
  In up (map snd (STIX_UPDATERS o) ++ map snd (CYBOX_UPDATERS o)) ->
  updater_update o up d opts true s = (Err e, s') -> is_update_failure e = false.
Proof.
  intros R E.
  assert (C : In up (forcible o) \/ up = STIX_1_2_Updater).
  { simpl in R |- *. intuition. }
  destruct C as [C| ->].
  - apply other_not_failure. eapply nf_updater_update; eauto.
  - eapply nd_stix_1_2; eauto.
Qed.

Lemma run_steps_forced o table opts steps :
  (forall v up, dict_get v table = Some up ->
     In up (map snd (STIX_UPDATERS o) ++ map snd (CYBOX_UPDATERS o))) ->
  forall root removed remapped s e s',
  run_steps o table steps root opts true removed remapped s = (Err e, s') ->
  is_update_failure e = false.
Proof.
  intro Ht. induction steps as [|v vs IH]; intros root removed remapped s e s' H; simpl in H;
    [discriminate|].
  destruct (dict_get v table) as [up|] eqn:E; [|inversion H; reflexivity].
  rewrite bind_run in H.
  destruct (updater_update o up (DElem root) opts true s) as [[r|e1] s1] eqn:E1.
  - rewrite bind_run in H. destruct (as_element (r_document r) s1) as [[x|e2] s2] eqn:E2.
    + eapply IH; eauto.
    + inversion H; subst. apply other_not_failure.
      assert (N : nofail (as_element (r_document r))) by (unfold as_element; nf). eapply N; eauto.
  - inversion H; subst. eapply forced_not_documented; eauto.
Qed.

Lemma dict_get_in {A} k (v : A) d : dict_get k d = Some v -> In v (map snd d).
Proof.
  induction d as [|[k' w] d IH]; simpl; [discriminate|].
  destruct (String.eqb k k'); intro H; [inversion H; auto|right; auto].
Qed.

Lemma versioned_forced o versions table gv d opts s a b e s' :
  (forall v up, dict_get v table = Some up ->
     In up (map snd (STIX_UPDATERS o) ++ map snd (CYBOX_UPDATERS o))) ->
  table_ok versions = true -> NoDup versions ->
  older versions a b -> 
  versioned_update o versions table gv d (Some a) (Some b) opts true s = (Err e, s') ->
  is_update_failure e = false.
Proof.
  intros Ht T N O H.
  destruct (get_etree_root d false s) as [[root|e0] s0] eqn:E0.
  - assert (G : given (Some a) = Some a /\ given (Some b) = Some b).
    { apply older_index in O as (Ia & Ib & _); auto. unfold table_ok in T.
      apply andb_true_iff in T as [T _]. rewrite forallb_forall in T.
      apply T in Ia, Ib. destruct a, b; try discriminate; auto. }
    destruct G as [Ga Gb].
    assert (Tr : truthy (Some a) = true) by (destruct a; auto; discriminate).
    rewrite (versioned_good o versions table gv d (Some a) (Some b) opts true s root s0 (Some a) a b)
      in H; auto.
    + rewrite bind_run in H.
      destruct (run_steps o table (version_slice a b versions) root opts true [] [] s0)
        as [[[[x y] z]|e1] s1] eqn:E1.
      * discriminate.
      * inversion H; subst. eapply run_steps_forced; eauto.
    + rewrite Tr. reflexivity.
    + rewrite Gb. reflexivity.
  - unfold versioned_update in H. rewrite bind_run, E0 in H.
    inversion H; subst. apply nf_get_etree_root in E0. apply other_not_failure; auto.
Qed.

(** ** Consequences used by the property theorems *)

Lemma not_documented e : is_update_failure e = false -> ~ documented e.
Proof. intros H D. destruct D; discriminate. Qed.

Lemma documented_failure e : documented e -> is_update_failure e = true.
Proof. intros []; reflexivity. Qed.

Lemma forced_updates_not_documented o d opts s a b e s' :
  (older STIX_VERSIONS a b ->
   stix_update o d (Some a) (Some b) opts true s = (Err e, s') -> ~ documented e) /\
  (older CYBOX_VERSIONS a b ->
   cybox_update o d (Some a) (Some b) opts true s = (Err e, s') -> ~ documented e).
Proof.
  split; intros O H; apply not_documented.
  - refine (versioned_forced o _ _ _ d opts s a b e s' _ (proj1 stix_table_ok)
              (proj2 stix_table_ok) O H).
    intros v up G. apply in_or_app. left. eapply dict_get_in; eauto.
  - refine (versioned_forced o _ _ _ d opts s a b e s' _ (proj1 cybox_table_ok)
              (proj2 cybox_table_ok) O H).
    intros v up G. apply in_or_app. right. eapply dict_get_in; eauto.
Qed.

Lemma forcible_implemented o up d opts s s' :
  In up (forcible o) -> updater_update o up d opts true s <> (Err NotImplementedError, s').
Proof. intros F E. eapply nf_updater_update in E; eauto. discriminate. Qed.

Lemma stix_1_2_forced o d opts s e s' :
  updater_update o STIX_1_2_Updater d opts false s = (Err e, s') -> documented e ->
  fst (updater_update o STIX_1_2_Updater d opts true s) = Err NotImplementedError.
Proof.
  intros E D. apply documented_failure in D. unfold updater_update in *. rewrite bind_run in *.
  destruct (get_etree_root d true s) as [[root|e0] s0] eqn:E0.
  - cbv zeta in *. unfold try_catch in *.
    match goal with |- context [match ?m with _ => _ end] =>
      destruct m as [[r|e1] s1] eqn:Em end; [discriminate|].
    rewrite andb_false_r in E. inversion E; subst. rewrite D. simpl.
    reflexivity.
  - inversion E; subst. apply nf_get_etree_root, other_not_failure in E0. congruence.
Qed.

Lemma stix_get_version_spec d s t : wf_state s -> denotes s d t ->
  fst (stix_get_version d s) = Ok (attr_get (lq "version") (h_attr (head t))) /\
  ((forall p, d <> DFile p) -> snd (stix_get_version d s) = s).
Proof.
  intros W D. destruct (get_root_loaded s d t W D) as (root & h & E1 & E2 & E3 & E4).
  unfold stix_get_version, stix_node_version.
  rewrite bind_run, E1, bind_run, E2. simpl. rewrite E4. split; auto.
  apply loaded_elem.
Qed.

Lemma cybox_get_version_spec d s t : wf_state s -> denotes s d t ->
  fst (cybox_get_version d s) =
    match cybox_declared t with
    | Some v => Ok v
    | None => Err UnknownVersionError
    end /\
  ((forall p, d <> DFile p) -> snd (cybox_get_version d s) = s).
Proof.
  intros W D. destruct (get_root_loaded s d t W D) as (root & h & E1 & E2 & E3 & E4).
  unfold cybox_get_version, cybox_node_version.
  rewrite bind_run, E1, bind_run, E2. unfold liftr. simpl.
  rewrite cybox_hdr_version_spec, (cybox_declared_attr h t E4). split; auto.
  apply loaded_elem.
Qed.

Lemma clean_types o up d opts s r s' : clean o up d opts s = (Ok r, s') ->
  exists l m, r_removed r = CTuple l /\ r_remapped r = CDict m.
Proof.
  unfold clean, clean_root. intro H.
  repeat (apply bind_ok in H; destruct H as (? & ? & ? & H)).
  inversion H; subst; simpl; eauto.
Qed.

Lemma update_results_types i l m : let r := update_results i (CList l) (CDict m) in
  (exists m, r_remapped r = CDict m) /\
  (r_removed r = CTuple [] \/ exists l, l <> [] /\ r_removed r = CList l).
Proof.
  unfold update_results, coll_or. simpl. split.
  - destruct m; simpl; eauto.
  - destruct l; simpl; auto. right. eexists; split; eauto. discriminate.
Qed.

Lemma versioned_types o versions table gv d from to opts force s r s' :
  versioned_update o versions table gv d from to opts force s = (Ok r, s') ->
  (exists m, r_remapped r = CDict m) /\
  (r_removed r = CTuple [] \/ exists l, l <> [] /\ r_removed r = CList l).
Proof.
  unfold versioned_update. intro H.
  apply bind_ok in H as (root & s1 & _ & H). apply bind_ok in H as (f & s2 & _ & H).
  cbv zeta in H. apply bind_ok in H as (u & s3 & _ & H).
  destruct f as [a|]; [|discriminate].
  destruct (if truthy to then to else Some (last versions ""%string)); [|discriminate].
  apply bind_ok in H as ([[x y] z] & s4 & _ & H). inversion H; subst. apply update_results_types.
Qed.

Lemma ramrod_types o d from to opts force s r s' :
  ramrod_update o d from to opts force s = (Ok r, s') ->
  (exists m, r_remapped r = CDict m) /\
  (r_removed r = CTuple [] \/ exists l, l <> [] /\ r_removed r = CList l).
Proof.
  unfold ramrod_update. intro H. apply bind_ok in H as (root & s1 & _ & H).
  apply bind_ok in H as (h & s2 & _ & H). cbv zeta in H.
  destruct (String.eqb _ _); [|destruct (String.eqb _ _); [|discriminate]];
    apply bind_ok in H as (f & s3 & _ & H); eapply versioned_types; exact H.
Qed.

Lemma result_types o d from to opts force s r s' :
  (forall up, clean o up d opts s = (Ok r, s') ->
     exists l m, r_removed r = CTuple l /\ r_remapped r = CDict m) /\
  (stix_update o d from to opts force s = (Ok r, s') \/
   cybox_update o d from to opts force s = (Ok r, s') \/
   ramrod_update o d from to opts force s = (Ok r, s') ->
   (exists m, r_remapped r = CDict m) /\
   (r_removed r = CTuple [] \/ exists l, l <> [] /\ r_removed r = CList l)).
Proof.
  split; [intro up; apply clean_types|].
  intros [H|[H|H]]; [eapply versioned_types; exact H|eapply versioned_types; exact H|].
  eapply ramrod_types; exact H.
Qed.

Lemma created_types i l m : let r := create_update_results i (Some (CDict m)) (Some (CTuple l)) in
  (r_removed r = match l with [] => CDict [] | _ => CTuple l end) /\
  (r_remapped r = match m with [] => CTuple [] | _ => CDict m end).
Proof. destruct l, m; split; reflexivity. Qed.

Lemma clean_root_types up root opts s r s' : clean_root up root opts s = (Ok r, s') ->
  exists l m, r_removed r = CTuple l /\ r_remapped r = CDict m.
Proof.
  unfold clean_root. intro H.
  repeat (apply bind_ok in H; destruct H as (? & ? & ? & H)).
  inversion H; subst; simpl; eauto.
Qed.

Lemma step_types o up d opts force s r s' : updater_update o up d opts force s = (Ok r, s') ->
  (r_removed r = CDict [] \/ force = true /\ exists l, l <> [] /\ r_removed r = CTuple l) /\
  (r_remapped r = CTuple [] \/ force = true /\ exists m, m <> [] /\ r_remapped r = CDict m).
Proof.
  unfold updater_update. intro H. apply bind_ok in H as (root & s1 & _ & H). cbv zeta in H.
  unfold try_catch in H.
  match type of H with context [match ?m with _ => _ end] => destruct m as [[x|e] s2] eqn:E end.
  - inversion H; subst. apply bind_ok in E as (u & s3 & _ & E). apply bind_ok in E as (v & s4 & _ & E).
    inversion E; subst. simpl. auto.
  - destruct (is_update_failure e && force) eqn:B; [|discriminate].
    apply andb_prop in B as [_ ->]. unfold force_update in H.
    apply bind_ok in H as (c & s3 & C & H). apply bind_ok in H as (v & s4 & _ & H).
    apply bind_ok in H as (w & s5 & _ & H). inversion H; subst.
    apply clean_root_types in C as (l & m & -> & ->).
    destruct (created_types w l m) as [-> ->]. destruct l, m; split; auto;
      right; split; auto; eexists; split; eauto; discriminate.
Qed.

Lemma unforced_steps o table steps root opts s removed remapped x s' :
  run_steps o table steps root opts false removed remapped s = (Ok x, s') ->
  exists root', x = (root', removed, remapped).
Proof.
  revert root s removed remapped. induction steps as [|v vs IH]; simpl; intros root s removed remapped H.
  - inversion H; subst; eauto.
  - destruct (dict_get v table) as [up|]; [|discriminate].
    apply bind_ok in H as (r & s1 & U & H). apply bind_ok in H as (e & s2 & _ & H).
    apply step_types in U as [[A|[? _]] [B|[? _]]]; try discriminate. rewrite A, B in H.
    apply IH in H as [root' ->]. exists root'. simpl. rewrite app_nil_r. destruct remapped; reflexivity.
Qed.

Lemma unforced_versioned o versions table gv d from to opts s r s' :
  versioned_update o versions table gv d from to opts false s = (Ok r, s') ->
  r_removed r = CTuple [] /\ r_remapped r = CDict [].
Proof.
  unfold versioned_update. intro H.
  apply bind_ok in H as (root & s1 & _ & H). apply bind_ok in H as (f & s2 & _ & H).
  cbv zeta in H. apply bind_ok in H as (u & s3 & _ & H).
  destruct f as [a|]; [|discriminate].
  destruct (if truthy to then to else Some (last versions ""%string)); [|discriminate].
  apply bind_ok in H as ([[x y] z] & s4 & R & H). apply unforced_steps in R as [q X].
  inversion X; subst. inversion H; subst. split; reflexivity.
Qed.

Lemma unforced_types o d from to opts s r s' :
  stix_update o d from to opts false s = (Ok r, s') \/
  cybox_update o d from to opts false s = (Ok r, s') \/
  ramrod_update o d from to opts false s = (Ok r, s') ->
  r_removed r = CTuple [] /\ r_remapped r = CDict [].
Proof.
  intros [H|[H|H]]; try (eapply unforced_versioned; exact H).
  unfold ramrod_update in H. apply bind_ok in H as (root & s1 & _ & H).
  apply bind_ok in H as (h & s2 & _ & H). cbv zeta in H.
  destruct (String.eqb _ _); [|destruct (String.eqb _ _); [|discriminate]];
    apply bind_ok in H as (f & s3 & _ & H); eapply unforced_versioned; exact H.
Qed.

Lemma force_refuted :
  ~ (forall o up d opts s s', wf_state s ->
     In up (map snd (STIX_UPDATERS o) ++ map snd (CYBOX_UPDATERS o)) ->
     updater_update o up d opts true s <> (Err NotImplementedError, s')).
Proof.
  intro H.
  destruct (updater_update o0 STIX_1_2_Updater (DElem 0) None true (memory [pkg_1_1]))
    as [x s'] eqn:E.
  apply (H o0 STIX_1_2_Updater (DElem 0) None (memory [pkg_1_1]) s' (memory_wf _)).
  - simpl. auto 10.
  - rewrite E. f_equal. change x with (fst (x, s')). rewrite <- E. vm_compute. reflexivity.
Qed.

Lemma result_types_refuted :
  (exists o up d s r s', wf_state s /\
     In up (map snd (STIX_UPDATERS o) ++ map snd (CYBOX_UPDATERS o)) /\
     updater_update o up d None false s = (Ok r, s') /\
     (forall l, r_removed r <> CTuple l) /\ (forall m, r_remapped r <> CDict m)) /\
  (exists o d s r s', wf_state s /\
     ramrod_update o d None None None true s = (Ok r, s') /\
     (forall l, r_removed r <> CTuple l)).
Proof.
  split.
  - exists o0, (STIX_1_1_Updater o0), (DElem 0), (memory [pkg_1_1]).
    eexists _, _. split; [apply memory_wf|]. split; [simpl; auto|].
    split; [vm_compute; reflexivity|]. split; discriminate.
  - exists o0, (DElem 0), (memory [pkg_1_0_1_bad]).
    eexists _, _. split; [apply memory_wf|].
    split; [vm_compute; reflexivity|]. discriminate.
Qed.
