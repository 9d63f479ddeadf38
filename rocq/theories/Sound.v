(** * Proofs: a step keeps a well-formed document well-formed. *)

From Coq Require Import String Ascii List Bool Arith Lia NArith.
From Verif Require Import Str Xml XPath Utils Base Tables Cybox Stix Ramrod Spec SpecDoc SpecPass SpecStep
  SpecCheck SpecClean SpecUpdate SpecTrace SpecField SpecFault SpecIds SpecText Lib Api Frame Refine RefineBase RefineTrans RefineLists RefineSteps RefineCheck
  RefineClean Relabel RefineUpdate Updates Reports UpdateFacts Trace Fields Carried Vocab Marks Worked Follow Natural Root Kept Declared
  Cleaned Located Scripts Versions Codec Faults Forced Chained Translated Ids Refs Text Words Plain.
Import ListNotations.
Local Open Scope string_scope.

(** ** Headers *)

Definition tidy (h : hdr) : Prop := distinct h /\ plain_source h /\ readable_version h /\ ~ broken_section h.

(** Names that are neither a source nor a package. *)
Definition official : list qname := [common "Source"; indicator "Source"; stix "STIX_Package"].
Definition official_b (q : qname) : bool := existsb (qn_eqb q) official.

Lemma not_official q : official_b q = false -> ~ In q official.
Proof. intros H I. unfold official_b in H. assert (X : existsb (qn_eqb q) official = true) by (apply existsb_exists; exists q; split; [exact I|apply qn_eqb_refl]). congruence. Qed.

Lemma plain_by_name h : ~ In (h_tag h) official -> plain_source h.
Proof.
  intros N H. exfalso. apply N. unfold named_in in H. apply existsb_exists in H as (q & I & H). unfold named in H. cbn [head] in H.
  destruct (h_kind h); try discriminate. apply qn_eqb_eq in H. rewrite H. simpl in I. simpl. tauto.
Qed.

Definition declares (h : hdr) : option string := cybox_declared (Node h []).

Lemma declares_same h h' :
  attr_of (lq "cybox_major_version") h' = attr_of (lq "cybox_major_version") h ->
  attr_of (lq "cybox_minor_version") h' = attr_of (lq "cybox_minor_version") h ->
  attr_of (lq "cybox_update_version") h' = attr_of (lq "cybox_update_version") h -> declares h' = declares h.
Proof. unfold attr_of. intros A B C. unfold declares, cybox_declared. cbn [head]. rewrite A, B, C. reflexivity. Qed.

Definition version_attrs : list qname := [lq "version"; lq "cybox_major_version"; lq "cybox_minor_version"; lq "cybox_update_version"].

Lemma version_same h h' : (named (stix "STIX_Package") (Node h' []) = true -> named (stix "STIX_Package") (Node h []) = true) ->
  (forall k, In k version_attrs -> attr_of k h' = attr_of k h) -> readable_version h -> readable_version h'.
Proof.
  intros N A H s E. apply H. destruct E as [[E1 E2]|E].
  - left. split; [auto|]. change (attr_of (lq "version") h = Some s). rewrite <- A by (simpl; tauto). exact E2.
  - right. change (declares h = Some s). rewrite <- (declares_same h h'); [exact E|..]; apply A; simpl; tauto.
Qed.

Lemma version_other h h' : ~ In (h_tag h') official -> (forall k, In k version_attrs -> attr_of k h' = attr_of k h) -> readable_version h -> readable_version h'.
Proof.
  intros N A. apply version_same; [|exact A]. intro H. exfalso. apply N. unfold named in H. cbn [head] in H. destruct (h_kind h'); try discriminate.
  apply qn_eqb_eq in H. rewrite H. simpl. tauto.
Qed.

Lemma version_none h : ~ In (h_tag h) official -> declares h = None -> readable_version h.
Proof.
  intros N D s [[E _]|E].
  - exfalso. apply N. unfold named in E. cbn [head] in E. destruct (h_kind h); try discriminate. apply qn_eqb_eq in E. rewrite E. simpl. tauto.
  - unfold declares in D. congruence.
Qed.

Lemma tidy_set k v h : ~ In k version_attrs -> tidy h -> tidy (hset_attr k v h).
Proof.
  intros N (D & P & V & W). split; [|split; [|split; [|exact W]]].
  - apply attr_set_NoDup. exact D.
  - eapply plain_source_same; [..|exact P]; reflexivity.
  - eapply version_same; [| |exact V]; [auto|]. intros q Hq. apply attr_of_set. intros ->. contradiction.
Qed.

Lemma tidy_tag q h : official_b q = false -> tidy h -> tidy (set_tag q h).
Proof.
  intros N (D & P & V & W). apply not_official in N. split; [exact D|]. split; [apply plain_by_name; exact N|]. split; [|exact W]. eapply version_other; [exact N| |exact V]. reflexivity.
Qed.

Lemma tidy_text s h : readable s -> tidy h -> tidy (set_text (Some s) h).
Proof. intros R (D & P & V & _). split; [exact D|]. split; [|split; [exact V|intros [X _]; discriminate X]]. intros _ s' E. injection E as <-. exact R. Qed.

Lemma tidy_convert h : tidy h -> tidy (convert_text h).
Proof.
  intro H. unfold convert_text. destruct (h_text h) as [s|] eqn:E; [|exact H]. destruct (String.eqb s ""); [exact H|].
  destruct H as (D & P & V & _). split; [exact D|]. split; [|split; [exact V|intros [X _]; discriminate X]]. intros N s' E'. injection E' as <-. apply readable_convert. apply P; auto.
Qed.

Lemma readable_term s s' : In (s, s') respelt -> readable s'.
Proof. intro H. simpl in H. repeat (destruct H as [H|H]; [injection H as <- <-; split; [reflexivity|vm_compute; discriminate]|]). destruct H. Qed.

Lemma number_of s : b_version s = true -> s = "" \/ exists v pre, version_number s v pre.
Proof. apply version_decided. Qed.

(** ** Passes *)

Lemma tidy_loc drop m1 m2 : invariant tidy (always (schemaloc_pass drop m1 m2)).
Proof. apply invariant_on_root. intros h H. destruct (attr_get _ _); [apply tidy_set; [intros [X|[X|[X|[X|[]]]]]; discriminate X|]|]; exact H. Qed.

Lemma tidy_lists a b : invariant tidy (always (lists_pass a b)).
Proof.
  apply invariant_edit. intros c y H. destruct (is_elem y); auto. generalize (properties_above a b c). induction n as [|n IH]; auto.
  cbn [repeat_edit]. apply tidy_convert. exact IH.
Qed.

Lemma tidy_stix_stamp p a b : b_version a = true -> b_version b = true -> invariant tidy (always (edit_where p (stamp_stix a b))).
Proof.
  intros A B. apply invariant_edit_where. intros h (D & P & V & W). unfold stamp_stix. split; [apply attr_set_NoDup; exact D|]. split; [|split; [|exact W]].
  - eapply plain_source_same; [..|exact P]; reflexivity.
  - intros s [[E1 E2]|E].
    + apply number_of. pose proof (attr_of_set_same (lq "version") (if String.eqb (q_local (h_tag h)) "Indicator" then a else b) h) as X.
      unfold attr_of in X. rewrite X in E2. injection E2 as <-. destruct (String.eqb _ _); assumption.
    + apply V. right. rewrite <- E. symmetry. apply (declares_same h); apply attr_of_set; discriminate.
Qed.

Lemma tidy_stamp_1 p : invariant tidy (always (edit_where p stamp_cybox_2_0_1)).
Proof.
  apply invariant_edit_where. intros h (D & P & V & W). unfold stamp_cybox_2_0_1. split; [repeat apply attr_set_NoDup; exact D|]. split; [|split; [|exact W]].
  - eapply plain_source_same; [..|exact P]; reflexivity.
  - intros s [[E1 E2]|E].
    + apply V. left. split; [exact E1|]. change (attr_of (lq "version") h = Some s). rewrite <- E2. symmetry.
      change (attr_get (lq "version") (h_attr ?x)) with (attr_of (lq "version") x). rewrite !attr_of_set by discriminate. reflexivity.
    + apply number_of. unfold cybox_declared in E. cbn [head] in E.
      change (attr_get ?k (h_attr ?x)) with (attr_of k x) in E.
      rewrite !(attr_of_set (lq "cybox_major_version")), !(attr_of_set (lq "cybox_minor_version")) in E by discriminate.
      rewrite !attr_of_set_same in E. injection E as <-. reflexivity.
Qed.

Lemma attr_del_gone k l : NoDup (map fst l) -> attr_get k (attr_del k l) = None.
Proof.
  induction l as [|[a v] l IH]; intro H; [reflexivity|]. cbn [map fst] in H. inversion H as [|? ? N1 N2]; subst. cbn [attr_del].
  destruct (qn_eqb k a) eqn:E.
  - apply qn_eqb_eq in E. subst a. clear - N1. induction l as [|[b w] l IH]; [reflexivity|]. cbn [attr_get]. destruct (qn_eqb k b) eqn:E.
    + apply qn_eqb_eq in E. subst b. elim N1. left. reflexivity.
    + apply IH. intro I. apply N1. right. exact I.
  - cbn [attr_get]. rewrite E. auto.
Qed.

Lemma tidy_stamp_2 p : invariant tidy (always (edit_where p stamp_cybox_2_1)).
Proof.
  apply invariant_edit_where. intros h (D & P & V & W). unfold stamp_cybox_2_1.
  set (h1 := hset_attr (lq "cybox_minor_version") "1" (hset_attr (lq "cybox_major_version") "2" h)).
  assert (D1 : distinct h1) by (repeat apply attr_set_NoDup; exact D).
  split; [apply NoDup_del; exact D1|]. split; [|split; [|exact W]].
  - eapply plain_source_same; [..|exact P]; reflexivity.
  - intros s [[E1 E2]|E].
    + apply V. left. split; [exact E1|]. change (attr_of (lq "version") h = Some s). rewrite <- E2. symmetry.
      change (attr_get (lq "version") (h_attr ?x)) with (attr_of (lq "version") x). rewrite attr_of_del by discriminate. unfold h1. rewrite !attr_of_set by discriminate. reflexivity.
    + apply number_of. unfold cybox_declared in E. cbn [head] in E.
      change (attr_get ?k (h_attr ?x)) with (attr_of k x) in E.
      rewrite !(attr_of_del (lq "cybox_major_version")), !(attr_of_del (lq "cybox_minor_version")) in E by discriminate.
      assert (G : attr_of (lq "cybox_update_version") (hdel_attr (lq "cybox_update_version") h1) = None) by (apply attr_del_gone; exact D1).
      rewrite G in E. unfold h1 in E. rewrite !(attr_of_set (lq "cybox_major_version")) in E by discriminate.
      rewrite !attr_of_set_same in E. injection E as <-. reflexivity.
Qed.

Lemma tidy_rename old new : official_b new = false -> invariant tidy (rename old new).
Proof. intro N. apply invariant_rename. intros h _ H. apply tidy_tag; auto. Qed.

Lemma tidy_vocab v : In v vocabularies -> invariant tidy (vocab_pass v).
Proof.
  intro C. apply invariant_vocab. intros b y h H U. unfold upgraded in U. destruct (type_of (b, y)) as [i|]; [|discriminate].
  cbn [rbind snd] in U. unfold upgraded_with in U. set (h0 := head y) in *.
  assert (SIP : forall q s a h1 h2, ~ In q version_attrs -> set_if_present q s a h1 = Ok h2 -> tidy h1 -> tidy h2).
  { intros q s a h1 h2 N X Q. unfold set_if_present in X. destruct (has_attr q a); [|injection X as <-; auto].
    destruct s; [|discriminate]. injection X as <-. apply tidy_set; auto. }
  destruct (set_if_present (lq "vocab_reference") _ _ _) as [h1|] eqn:E1 in U; [|discriminate]. cbn [rbind] in U.
  destruct (set_if_present (lq "vocab_name") _ _ _) as [h2|] eqn:E2 in U; [|discriminate]. cbn [rbind] in U. injection U as <-.
  apply SIP in E1; [|intros [X|[X|[X|[X|[]]]]]; discriminate X|apply tidy_set; [intros [X|[X|[X|[X|[]]]]]; discriminate X|exact H]].
  apply SIP in E2; [|intros [X|[X|[X|[X|[]]]]]; discriminate X|exact E1].
  destruct (h_text h0) as [s|] eqn:Es; [|exact E2]. destruct (dict_get s (v_terms v)) as [new|] eqn:Ed; [|exact E2].
  apply Located.dict_get_pair in Ed. apply (terms_respelt _ _ _ C) in Ed. apply tidy_text; [eapply readable_term; eauto|exact E2].
Qed.

Lemma tidy_vocabs l : incl l vocabularies -> invariant tidy (passes vocab_pass l).
Proof. intro H. apply invariant_passes. intros v Hv. apply tidy_vocab. auto. Qed.

(** A new element with the attributes of another. *)
Lemma tidy_copy q d s tl h : ~ In q official -> tidy h -> tidy (Hdr 0 KElem q d (attr_update [] (h_attr h)) s false tl).
Proof.
  intros N (D & P & V & _). split; [apply attr_update_NoDup; constructor|]. split; [apply plain_by_name; exact N|].
  split; [|intros [X _]; discriminate X].
  eapply version_other; [exact N| |exact V]. intros k _. unfold attr_of. cbn [h_attr]. rewrite attr_get_update by exact D. destruct (attr_get _ _); reflexivity.
Qed.

Lemma replaced_official q : In q cybox_2_0_1_replaced -> ~ In q official.
Proof. intros I [<-|[<-|[<-|[]]]]; vm_compute in I; repeat (destruct I as [I|I]; [discriminate I|]); destruct I. Qed.

Lemma tidy_child_value q u : In q cybox_2_0_1_replaced -> invariant tidy (rewrite_all (any_inside [q]) (value_of_child u)).
Proof.
  intro N. apply invariant_rewrite. intros b x e P E A. apply any_inside_tag in P. unfold value_of_child in E.
  destruct (filter _ _) as [|v l] eqn:F; [discriminate|]. injection E as <-.
  assert (Iv : In v (kids x)) by (assert (H : In v (filter (named u) (kids x))) by (rewrite F; left; auto); apply filter_In in H; tauto).
  intros z [<-|[]]. cbn [head]. apply tidy_copy; [rewrite P; apply replaced_official; exact N|]. exact (kid_all tidy x v A Iv v (nodes_self v)).
Qed.

Lemma tidy_as_string q : In q cybox_2_0_1_replaced -> invariant tidy (rewrite_all (any_inside [q]) as_string).
Proof.
  intros N. apply invariant_rewrite. intros b x e P E A. apply any_inside_tag in P. injection E as <-.
  intros z [<-|[]]. cbn [head].
  assert (G : tidy (Hdr 0 KElem (h_tag (head x)) [] (attr_update [] (h_attr (head x))) (h_text (head x)) false None))
    by (apply tidy_copy; [rewrite P; apply replaced_official; exact N|apply A, nodes_self]).
  destruct (has_attr _ _); [|exact G]. refine (tidy_set (lq "datatype") "string" _ _ G). intros [X|[X|[X|[X|[]]]]]; discriminate X.
Qed.

Lemma tidy_renamed q x : official_b q = false -> all tidy x -> all tidy (renamed_to q x).
Proof. intros N A z [<-|Hz]; [apply tidy_tag; [exact N|]; apply A, nodes_self|]. apply A. destruct x as [h ks]. right. exact Hz. Qed.

Lemma tidy_element q ks : q <> stix "STIX_Package" -> (forall c, In c ks -> all tidy c) -> all tidy (element q ks).
Proof.
  intros N H z [<-|Hz].
  - split; [constructor|]. split; [intros _ s E; discriminate|]. split; [|intros [X _]; discriminate X]. intros s [[E _]|E]; [|discriminate E]. unfold named in E. cbn [element head h_kind h_tag] in E.
    apply qn_eqb_eq in E. congruence.
  - apply in_flat_map in Hz as (c & Hc & Hz). exact (H c Hc z Hz).
Qed.

Lemma tidy_unwrap a b c : official_b c = false -> invariant tidy (always (unwrap_pass a b c)).
Proof.
  intros N t e E A. injection E as <-. apply invariant_subst; auto. intros d x l z _ E Hz Ak.
  destruct (inside d && named _ x); [|discriminate]. destruct (filter _ (kids x)) as [|y ys] eqn:Fl; [discriminate|].
  injection E as <-. destruct Hz as [<-|[]].
  assert (Hy : In y (kids x)). { assert (H : In y (filter (named b) (kids x))) by (rewrite Fl; left; auto). apply filter_In in H. tauto. }
  apply tidy_renamed; [exact N|]. exact (kid_all tidy x y Ak Hy).
Qed.

Lemma tidy_optional p : invariant tidy (always (optional_pass p)).
Proof. intros t e E A. injection E as <-. apply invariant_prune. exact A. Qed.

Lemma tidy_optional_in a b : invariant tidy (optional_in_type a b).
Proof. intros t e E A. unfold optional_in_type in E. destruct (first_err _ _); [discriminate|]. injection E as <-. apply invariant_prune. exact A. Qed.

Lemma tidy_contributing p : invariant tidy (rewrite_all p (contributing_sources NS_COMMON)).
Proof.
  apply invariant_rewrite. intros b x e P E A. unfold contributing_sources in E.
  destruct (forallb _ _); [|discriminate]. injection E as <-. apply tidy_element; [discriminate|]. intros z Hz.
  apply in_map_iff in Hz as (c & <- & Hc). apply tidy_element; [discriminate|]. intros y [<-|[]]. apply tidy_renamed; [reflexivity|]. eapply kid_all; eauto.
Qed.

Lemma tidy_wrap p q : q <> stix "STIX_Package" -> invariant tidy (rewrite_all p (wrap q)).
Proof. intro N. apply invariant_rewrite. intros b x e _ E A. injection E as <-. apply tidy_element; [exact N|]. intros y [<-|[]]. exact A. Qed.

Lemma tidy_wrap_renamed p q n : q <> stix "STIX_Package" -> official_b n = false -> invariant tidy (rewrite_all p (wrap_renamed q n)).
Proof.
  intros Nq N. apply invariant_rewrite. intros b x e _ E A. injection E as <-. apply tidy_element; [exact Nq|]. intros y [<-|[]]. apply tidy_renamed; auto.
Qed.

Lemma tidy_driver : invariant tidy (namespaces_pass [] driver_ns).
Proof.
  apply invariant_ns. intros b y M H.
  assert (N : ~ In (h_tag (rebuilt [] driver_ns b y)) official).
  { cbn [rebuilt h_tag]. unfold moves in M. destruct (q_ns (h_tag (head y))) as [ns|]; [|discriminate]. apply mem_str_In in M. destruct M as [<-|[]].
    intros [X|[X|[X|[]]]]; discriminate X. }
  assert (G : tidy (Hdr 0 KElem (h_tag (rebuilt [] driver_ns b y)) [] (attr_update [] (h_attr (head y))) None false None)) by (apply tidy_copy; auto).
  destruct G as (D & P & V & _). split; [exact D|]. split; [apply plain_by_name; exact N|].
  split; [eapply version_other; [exact N| |exact V]; reflexivity|].
  destruct H as (_ & _ & _ & W). intros [X Y]. apply W. cbn [rebuilt h_cdata h_text] in X, Y. destruct (kids y); [split; [exact X|exact Y]|discriminate X].
Qed.

Lemma tidy_source_tree outer od id name : outer <> stix "STIX_Package" -> all tidy (erase (source_tree outer od id name)).
Proof.
  intros N x Hx. pose proof (source_tree_plain outer od id name x Hx) as P. split; [|split; [exact P|split]].
  - destruct Hx as [<-|[<-|[<-|[]]]]; constructor.
  - intros s [[E _]|E].
    + exfalso. destruct Hx as [<-|[<-|[<-|[]]]]; unfold named in E; cbn in E; [apply qn_eqb_eq in E; congruence|discriminate E|discriminate E].
    + exfalso. destruct Hx as [<-|[<-|[<-|[]]]]; discriminate E.
  - intros [X _]. destruct Hx as [<-|[<-|[<-|[]]]]; discriminate X.
Qed.

Lemma tidy_structured o b p : (forall anc y, p anc y = true -> named_in [common "Source"; indicator "Source"] y = true) ->
  invariant tidy (rewrite_all p (structured_source o b)).
Proof.
  intro P. apply invariant_rewrite. intros a x e Px E A. apply P in Px.
  destruct (source_parsed o b x) as (name & Es); [apply A, nodes_self|exact Px|]. rewrite Es in E. injection E as <-.
  destruct b; apply tidy_source_tree; discriminate.
Qed.

Ltac among := intros ? H; unfold vocabularies; simpl in H |- *; tauto.
Ltac one_tidy :=
  first [ apply tidy_loc | apply tidy_stix_stamp; vm_compute; reflexivity | apply tidy_stamp_1 | apply tidy_stamp_2
        | apply tidy_lists | apply tidy_rename; reflexivity | apply tidy_driver
        | apply tidy_child_value; simpl; tauto | apply tidy_as_string; simpl; tauto
        | apply tidy_structured; intros ? ? X; eapply child_in_source; [|exact X]; simpl; tauto
        | apply tidy_contributing
        | apply tidy_wrap; discriminate | apply tidy_wrap_renamed; [discriminate|reflexivity] | apply tidy_unwrap; reflexivity
        | apply tidy_optional | apply tidy_optional_in | apply tidy_vocabs; among
        | apply tidy_vocab; unfold vocabularies; simpl; tauto ].
Ltac each_tidy :=
  repeat match goal with
         | |- invariant _ (in_order (_ :: _)) => apply invariant_cons
         | |- invariant _ (in_order []) => apply invariant_nil
         | |- invariant _ (when _ _) => apply invariant_when
         | |- invariant _ _ => one_tidy
         end.

Lemma tidy_2_0 marked opts : invariant tidy (cybox_2_0_step marked opts).
Proof. unfold cybox_2_0_step. each_tidy. Qed.
Lemma tidy_2_0_1 marked opts : invariant tidy (cybox_2_0_1_step marked opts).
Proof. unfold cybox_2_0_1_step. each_tidy. Qed.

Lemma stix_step_tidy o opts v f : stix_step o opts v = Some f -> v <> "1.2" -> invariant tidy f.
Proof.
  intros E N. unfold stix_step in E. by_version E.
  - unfold stix_1_0_step. each_tidy. apply tidy_2_0.
  - unfold stix_1_0_1_step. each_tidy. apply tidy_2_0_1.
  - unfold stix_1_1_step. each_tidy.
  - unfold stix_1_1_1_step. each_tidy.
  - elim N. reflexivity.
Qed.

Lemma cybox_step_tidy opts v f : cybox_step opts v = Some f -> invariant tidy f.
Proof. intro E. unfold cybox_step in E. by_version E; [apply tidy_2_0|apply tidy_2_0_1]. Qed.

(** ** The root stays an element *)

Lemma elem_name (a b : tree) : hname (head a) = hname (head b) -> is_elem b = true -> is_elem a = true.
Proof. unfold hname, is_elem. intro H. injection H as -> _. auto. Qed.

Lemma elem_2_0_1 p opts t e : cybox_2_0_1_step p opts t = Ok e -> is_elem t = true -> is_elem e = true.
Proof.
  intros E H. unfold cybox_2_0_1_step in E. apply in_order_ok in E as (m & E1 & E).
  apply (elem_name e m); [refine ((_ : root_keeps hname _) _ _ E); roots; [apply root_loc|apply root_edit_where]; reflexivity|].
  apply namespaces_ok in E1 as ->. destruct t as [h ks]. cbn [ns_pass]. destruct (moves _ _); [reflexivity|exact H].
Qed.

Lemma stix_elem o opts v f t e : stix_step o opts v = Some f -> v <> "1.2" -> f t = Ok e -> is_elem t = true -> is_elem e = true.
Proof.
  intros H Nv E El. unfold stix_step in H. by_version H; try congruence.
  - apply (elem_name e t); auto. refine ((_ : root_keeps hname _) _ _ E). unfold stix_1_0_step.
    apply root_cons; [apply root_name_2_0|]. roots; [apply root_loc|apply root_edit_where]; reflexivity.
  - unfold stix_1_0_1_step in E. apply in_order_ok in E as (m & E1 & E). apply (elem_name e m); [|exact (elem_2_0_1 _ _ _ _ E1 El)].
    refine ((_ : root_keeps hname _) _ _ E). roots; [apply root_loc|apply root_edit_where]; reflexivity.
  - apply (elem_name e t); auto. refine ((_ : root_keeps hname _) _ _ E). unfold stix_1_1_step.
    roots; [apply root_loc|apply root_loc|apply root_edit_where]; reflexivity.
  - apply (elem_name e t); auto. refine ((_ : root_keeps hname _) _ _ E). unfold stix_1_1_1_step.
    roots; [apply root_loc|apply root_edit_where]; reflexivity.
Qed.

Lemma cybox_elem opts v f t e : cybox_step opts v = Some f -> f t = Ok e -> is_elem t = true -> is_elem e = true.
Proof.
  intros H E El. unfold cybox_step in H. by_version H; [|exact (elem_2_0_1 _ _ _ _ E El)].
  apply (elem_name e t); auto. exact (root_name_2_0 _ _ _ _ E).
Qed.

(** ** Types *)

Lemma safe_ok I J e f t m : safe I e f J -> I t -> f t = Ok m -> J m.
Proof. intros S H E. specialize (S t H). rewrite E in S. exact S. Qed.

Lemma unstuck_2_0_1 p opts t m : cybox_2_0_1_step p opts t = Ok m -> stuck driver_ns t = false.
Proof.
  intro E. unfold cybox_2_0_1_step in E. apply in_order_ok in E as (m1 & E1 & _). unfold namespaces_pass in E1.
  destruct (stuck driver_ns t); [discriminate|reflexivity].
Qed.

Lemma stix_held e D o opts v f t m : about_types e -> stix_step o opts v = Some f -> v <> "1.2" -> f t = Ok m -> all plain_source t ->
  held (q_of e D) D t -> held (q_of e D) D m.
Proof.
  intros A H Nv E S Hd.
  assert (TQ : typing (q_of e D)) by apply typing_of. pose proof (about_of e A) as Oe.
  assert (V1 : forall v b y h, In v vocabularies -> outdated v (b, y) = true -> upgraded v (b, y) = Ok h -> good (q_of e D) (head y) -> good (q_of e D) h) by (intros; eapply q_upgraded; eauto).
  assert (V2 : forall t c, held (q_of e D) D t -> In c (visits [] t) -> typed c = true -> type_of c <> Err e) by (intros; eapply q_typed; eauto).
  assert (V3 : forall v t c, In v vocabularies -> held (q_of e D) D t -> In c (visits [] t) -> outdated v c = true -> upgraded v c <> Err e) by (intros; eapply q_outdated; eauto).
  unfold stix_step in H. by_version H; try congruence.
  - eapply (safe_ok _ _ e); [|exact Hd|exact E]. apply types_1_0; auto.
  - unfold stix_1_0_1_step in E. pose proof E as E'. apply in_order_ok in E' as (m1 & E1 & _).
    eapply (safe_ok (fun t0 => held (q_of e D) D t0 /\ movable e driver_ns t0) _ e); [|exact (conj Hd (fun _ => unstuck_2_0_1 _ _ _ _ E1))|exact E]. apply types_1_0_1; auto.
  - eapply safe_ok; [apply (types_1_1 (q_of e D) D e); auto|split; [exact Hd|exact S]|exact E].
  - eapply (safe_ok _ _ e); [|exact Hd|exact E]. apply types_1_1_1; auto.
Qed.

Lemma cybox_held e D opts v f t m : about_types e -> cybox_step opts v = Some f -> f t = Ok m ->
  held (q_of e D) D t -> held (q_of e D) D m.
Proof.
  intros A H E Hd.
  assert (TQ : typing (q_of e D)) by apply typing_of. pose proof (about_of e A) as Oe.
  assert (V1 : forall v b y h, In v vocabularies -> outdated v (b, y) = true -> upgraded v (b, y) = Ok h -> good (q_of e D) (head y) -> good (q_of e D) h) by (intros; eapply q_upgraded; eauto).
  assert (V2 : forall t c, held (q_of e D) D t -> In c (visits [] t) -> typed c = true -> type_of c <> Err e) by (intros; eapply q_typed; eauto).
  assert (V3 : forall v t c, In v vocabularies -> held (q_of e D) D t -> In c (visits [] t) -> outdated v c = true -> upgraded v c <> Err e) by (intros; eapply q_outdated; eauto).
  unfold cybox_step in H. by_version H.
  - eapply (safe_ok _ _ e); [|exact Hd|exact E]. apply types_2_0; auto.
  - eapply (safe_ok (fun t0 => held (q_of e D) D t0 /\ movable e driver_ns t0) _ e); [|exact (conj Hd (fun _ => unstuck_2_0_1 _ _ _ _ E))|exact E]. apply types_2_0_1; auto.
Qed.

(** ** Fields and contributors in the first step *)

Definition by_label {A} (c : hdr -> A) : Prop := forall h h', h_tag h' = h_tag h -> h_kind h' = h_kind h ->
  has_attr TAG_XSI_TYPE h' = has_attr TAG_XSI_TYPE h -> c h' = c h.

Section Shapes.
  Context {A : Type}.
  Variables (c : hdr -> A) (P : A -> list A -> Prop).
  Hypothesis Hc : by_label c.

  Definition keeps_shape (f : tree -> res tree) : Prop := forall t m, f t = Ok m -> shaped c P t -> shaped c P m.

  Lemma shape_set k v h : k <> TAG_XSI_TYPE -> c (hset_attr k v h) = c h.
  Proof.
    intro N. apply Hc; try reflexivity. unfold has_attr. change (attr_get ?q (h_attr ?x)) with (attr_of q x). rewrite attr_of_set by congruence. reflexivity.
  Qed.

  Lemma shape_convert h : c (convert_text h) = c h.
  Proof. unfold convert_text. destruct (h_text h) as [s|]; auto. destruct (String.eqb s ""); auto. Qed.

  Lemma shape_nil : keeps_shape (in_order []).
  Proof. intros t m E S. rewrite in_order_nil in E. injection E as <-. exact S. Qed.

  Lemma shape_cons f l : keeps_shape f -> keeps_shape (in_order l) -> keeps_shape (in_order (f :: l)).
  Proof. intros F G t m H S. rewrite in_order_cons in H. destruct (f t) as [t'|] eqn:Ft; [|discriminate]. cbn [rbind] in H. exact (G t' m H (F t t' Ft S)). Qed.

  Lemma shape_when b f : keeps_shape f -> keeps_shape (when b f).
  Proof. intros F t m H S. unfold when in H. destruct b; [exact (F t m H S)|]. injection H as <-. exact S. Qed.

  Lemma shape_edit f : (forall b y, c (f b y) = c (head y)) -> keeps_shape (always (edit f [])).
  Proof. intros F t m H S. injection H as <-. apply shaped_edit; auto. Qed.

  Lemma shape_loc drop m loc : keeps_shape (always (schemaloc_pass drop m loc)).
  Proof. intros t e H S. injection H as <-. apply shaped_on_root; auto. intro h. destruct (attr_get _ _); [apply shape_set; discriminate|reflexivity]. Qed.

  Lemma shape_lists a b : keeps_shape (always (lists_pass a b)).
  Proof.
    apply shape_edit. intros d y. destruct (is_elem y); auto. generalize (properties_above a b d). induction n as [|n IH]; auto.
    cbn [repeat_edit]. rewrite shape_convert. exact IH.
  Qed.

  Lemma shape_vocab v : keeps_shape (vocab_pass v).
  Proof.
    intros t m E S. unfold vocab_pass in E. destruct (first_err type_of _); [discriminate|]. destruct (first_err (upgraded v) _); [discriminate|].
    injection E as <-. apply shaped_edit; auto. intros b y. destruct (outdated v (b, y)) eqn:O; auto. destruct (upgraded v (b, y)) as [h|] eqn:U; auto.
    destruct (upgraded_shape _ _ _ _ U) as (a & n & N & _ & W). pose proof (upgraded_with_same _ _ _ _ W) as (W1 & W2 & _).
    apply upgraded_type in W. apply Hc; [congruence|congruence|]. unfold has_attr. change (attr_get TAG_XSI_TYPE (h_attr h)) with (attr_of TAG_XSI_TYPE h). unfold attr_of.
    rewrite W. destruct (attr_get TAG_XSI_TYPE (h_attr (head y))) eqn:T; [reflexivity|]. contradiction.
  Qed.

  Lemma shape_vocabs l : keeps_shape (passes vocab_pass l).
  Proof.
    induction l as [|v l IH]; intros t m E S; [injection E as <-; exact S|]. rewrite passes_cons in E. destruct (vocab_pass v t) as [t'|] eqn:V; [|discriminate].
    cbn [rbind] in E. exact (IH t' m E (shape_vocab v t t' V S)).
  Qed.

  Lemma shape_2_0 p opts : keeps_shape (cybox_2_0_step p opts).
  Proof.
    unfold cybox_2_0_step. apply shape_cons; [apply shape_loc|]. apply shape_cons.
    { apply shape_edit. intros b y. destruct (p b y); auto. unfold stamp_cybox_2_0_1. rewrite !shape_set by discriminate. reflexivity. }
    apply shape_cons; [apply shape_lists|]. apply shape_cons; [apply shape_when, shape_vocab|]. apply shape_nil.
  Qed.

  Lemma shape_1_0 opts : keeps_shape (stix_1_0_step opts).
  Proof.
    unfold stix_1_0_step. apply shape_cons; [apply shape_2_0|]. apply shape_cons; [apply shape_loc|]. apply shape_cons.
    { apply shape_edit. intros b y. destruct (carries_version b y); auto. unfold stamp_stix. apply shape_set. discriminate. }
    apply shape_cons; [apply shape_when, shape_vocabs|]. apply shape_nil.
  Qed.
End Shapes.

Definition any_class (h : hdr) : nat :=
  if named_in [http_name "DNT"; http_name "Vary"] (Node h []) then 0
  else if named (object_name "URI" "Value") (Node h []) then 1 else 2.

Lemma any_class_one h : any_class h = 1 <-> named (object_name "URI" "Value") (Node h []) = true.
Proof.
  unfold any_class. destruct (named_in _ _) eqn:N.
  - split; [discriminate|]. intro V. exfalso. unfold named_in, named in *. cbn [head existsb] in *. destruct (h_kind h); try discriminate.
    apply qn_eqb_eq in V. rewrite V in N. discriminate N.
  - destruct (named _ _); split; auto; discriminate.
Qed.

Lemma any_class_zero h : any_class h = 0 <-> named_in [http_name "DNT"; http_name "Vary"] (Node h []) = true.
Proof. unfold any_class. destruct (named_in _ _); [tauto|]. destruct (named _ _); split; discriminate. Qed.

Lemma values_shaped t : values_present t <-> shaped any_class value_shape t.
Proof.
  split.
  - intros H x Hx E. apply any_class_zero in E. destruct (H x Hx E) as (k & Hk & V). apply in_map_iff. exists k. split; auto. apply any_class_one. exact V.
  - intros H x Hx N. assert (I : In 1 (map (fun k => any_class (head k)) (kids x))) by (apply H; auto; apply any_class_zero; exact N).
    apply in_map_iff in I as (k & E & Hk). apply any_class_one in E. exists k. auto.
Qed.

(** What only the first two steps depend on. *)
Definition fields_ok (force : bool) (t : tree) : Prop :=
  contributors_only t /\ values_present t /\ (force = true -> plain_values_present t).

Lemma fields_kept force f : (forall (c : hdr -> nat) P, by_label c -> keeps_shape c P f) -> forall t m, f t = Ok m -> fields_ok force t -> fields_ok force m.
Proof.
  intros K t m E (A & B & C). split; [|split].
  - apply contributors_shape_of. apply contributors_shape_of in A. refine (K _ _ _ t m E A). intros h h' X Y _. apply contributor_class_same; auto.
  - apply values_shaped. apply values_shaped in B. refine (K _ _ _ t m E B). intros h h' X Y _. unfold any_class, named_in, named. cbn [head existsb]. rewrite X, Y. reflexivity.
  - intro Fo. apply plain_values_shaped. specialize (C Fo). apply plain_values_shaped in C. refine (K _ _ _ t m E C).
    intros h h' X Y Z. unfold field_class, named_in, named. cbn [head existsb]. rewrite X, Y, Z. reflexivity.
Qed.

(** ** Documents that stay well-formed *)

Definition steady (t : tree) : Prop :=
  is_elem t = true /\ all tidy t /\ types_readable t /\ prefixes_on_root t /\ no_broken_reference t.

Lemma tidy_distinct t : all tidy t -> distinct_attributes t.
Proof. intros H x Hx. apply (H x Hx). Qed.
Lemma tidy_sources t : all tidy t -> sources_plain t.
Proof. intros H. apply sources_all. intros x Hx. apply (H x Hx). Qed.
Lemma tidy_versions t : all tidy t -> versions_readable t.
Proof. intros H. apply versions_all. intros x Hx. apply (H x Hx). Qed.

Lemma tidy_sections t : all tidy t -> sections_whole t.
Proof. intros H x Hx. apply (H x Hx). Qed.

Lemma steady_of t : is_elem t = true -> distinct_attributes t -> acceptable t -> steady t.
Proof.
  intros El D [A B C _ _ F G S]. split; [exact El|]. split; [|split; [exact A|split; [exact B|exact C]]].
  intros x Hx. split; [exact (D x Hx)|]. split; [exact (proj1 (sources_all t) F x Hx)|split; [exact (proj1 (versions_all t) G x Hx)|exact (S x Hx)]].
Qed.

Lemma robust_tidy : robust tidy.
Proof. split; [intro h; reflexivity|]. intros v h H. apply tidy_set; auto. intros [X|[X|[X|[X|[]]]]]; discriminate X. Qed.

Lemma steady_erase t : steady (erase t) <-> steady t.
Proof.
  unfold steady. rewrite elem_erase, types_readable_erase, prefixes_erase, broken_erase.
  assert (X : all tidy (erase t) <-> all tidy t); [|tauto]. split; [|apply all_erase; apply robust_tidy].
  intros H x Hx. apply (proj1 robust_tidy). pose proof (H (erase x)) as Y. destruct x as [h ks]. apply Y. apply in_nodes_erase. eauto.
Qed.

Lemma steady_numbered n t : steady t -> steady (numbered n t).
Proof. intro H. apply steady_erase. rewrite numbered_erase. apply steady_erase. exact H. Qed.

Lemma steady_cleaned f g d t : steady t -> steady (erase (cleaned f g d t)).
Proof.
  intros (El & T & A & B & C). split; [rewrite cleaned_elem; exact El|]. split; [apply robust_cleaned; [apply robust_tidy|exact T]|].
  split; [apply cleaned_types, A|]. split; [apply cleaned_prefixes, B|apply cleaned_references, C].
Qed.

(** Reading the conditions off. *)
Lemma value_of_held D t : held q_value D t -> types_readable t.
Proof. intros [H _] x v [I E]. destruct (H x I) as [_ Q]. apply Q. exact E. Qed.
Lemma key_of_held D t : held (q_key D) D t -> prefixes_on_root t.
Proof. intros [H R] x v a n [I E] S. destruct (H x I) as [_ Q]. apply R. eapply Q; eauto. Qed.
Lemma type_of_held D t : held q_type D t -> no_broken_reference t.
Proof.
  intros [H _] x v a n [I E] S B. destruct (H x I) as [_ Q]. unfold has_attr. specialize (Q v a n E S B). unfold attr_of in Q. rewrite Q. reflexivity.
Qed.

Lemma steady_stix o opts v f t m : stix_step o opts v = Some f -> v <> "1.2" -> f t = Ok m -> steady t -> steady m.
Proof.
  intros F N E (El & T & A & B & C). pose proof (tidy_distinct t T) as D.
  assert (P : all plain_source t) by (intros x Hx; apply (T x Hx)).
  split; [exact (stix_elem o opts v f t m F N E El)|]. split; [exact (stix_step_tidy o opts v f F N t m E T)|]. split; [|split].
  - apply (value_of_held (root_prefixes t)). refine (stix_held ValueError _ o opts v f t m _ F N E P (held_value t D A)). left. reflexivity.
  - apply (key_of_held (root_prefixes t)). refine (stix_held KeyError _ o opts v f t m _ F N E P (held_key t D B)). right. left. reflexivity.
  - apply (type_of_held (root_prefixes t)). refine (stix_held TypeError (root_prefixes t) o opts v f t m _ F N E P (held_type t D C)). right. right. reflexivity.
Qed.

Lemma steady_cybox opts v f t m : cybox_step opts v = Some f -> f t = Ok m -> steady t -> steady m.
Proof.
  intros F E (El & T & A & B & C). pose proof (tidy_distinct t T) as D.
  split; [exact (cybox_elem opts v f t m F E El)|]. split; [exact (cybox_step_tidy opts v f F t m E T)|]. split; [|split].
  - apply (value_of_held (root_prefixes t)). refine (cybox_held ValueError _ opts v f t m _ F E (held_value t D A)). left. reflexivity.
  - apply (key_of_held (root_prefixes t)). refine (cybox_held KeyError _ opts v f t m _ F E (held_key t D B)). right. left. reflexivity.
  - apply (type_of_held (root_prefixes t)). refine (cybox_held TypeError (root_prefixes t) opts v f t m _ F E (held_type t D C)). right. right. reflexivity.
Qed.

Definition of_fields (x : exn) : Prop := x = IndexError \/ x = AttributeError.

Lemma of_fields_dec x : of_fields x \/ ~ of_fields x.
Proof. destruct x; unfold of_fields; first [left; tauto|right; intros [H|H]; discriminate H]. Qed.

Lemma steady_tolerable x t : steady t -> ~ of_fields x -> tolerable x t.
Proof.
  intros (El & T & A & B & C) N. pose proof (tidy_sources t T). pose proof (tidy_versions t T). pose proof (tidy_sections t T).
  destruct x; cbn [tolerable]; auto; elim N; unfold of_fields; auto.
Qed.

Lemma full_tolerable x t force : steady t -> fields_ok force t -> tolerable x t.
Proof.
  intros S (A & B & _). destruct (of_fields_dec x) as [[->| ->]|N]; [exact B|exact A|apply steady_tolerable; auto].
Qed.

Lemma fields_numbered force n t : fields_ok force t -> fields_ok force (numbered n t).
Proof.
  intros (A & B & C). split; [|split].
  - rewrite <- contributors_erase, numbered_erase, contributors_erase. exact A.
  - rewrite <- values_erase, numbered_erase, values_erase. exact B.
  - intro Fo. rewrite <- plain_values_erase, numbered_erase, plain_values_erase. auto.
Qed.

Lemma fields_erase force t : fields_ok force t -> fields_ok force (erase t).
Proof. unfold fields_ok. rewrite contributors_erase, values_erase, plain_values_erase. auto. Qed.

Lemma fields_cleaned f g d t : NoDup (ids t) -> (forall i, In i (fst d) -> exists x, In x (nodes t) /\ tid x = i /\ field_class (head x) <> 1) ->
  fields_ok true t -> fields_ok true (erase (cleaned f g d t)).
Proof.
  intros N H (A & B & C). specialize (C eq_refl). pose proof (cleaned_values f g d t N H C) as C'.
  split; [apply cleaned_contributors; exact A|]. split; [apply plain_values; exact C'|auto].
Qed.

(** ** One step of an update *)

Lemma late_check expected b t x : (exists v, strict_version expected = Some v) -> if_asked b (stix_version_check expected) t = Err x -> ~ of_fields x.
Proof.
  intros V E. destruct b; [|discriminate E]. cbn [if_asked] in E. unfold stix_version_check in E. destruct (selected _ t) as [|c l]; [discriminate|].
  destruct (given _) as [found|]; [|injection E as <-; intros [X|X]; discriminate X].
  apply version_is_err in E as [E|[-> _]]; auto; [|intros [X|X]; discriminate X]. destruct E; intros [X|X]; discriminate X.
Qed.

Lemma late_single o opts force v g t x : In v ["1.1"; "1.1.1"; "1.2"] -> stix_single o opts force v g t = Err x -> ~ of_fields x.
Proof.
  intros I E N.
  assert (K : forall c D f new_id, (forall t x, c t = Err x -> ~ of_fields x) -> (forall t x, D t = Err x -> ~ of_fields x) -> (forall t x, f t = Err x -> ~ of_fields x) ->
    single c D f new_id force g t <> Err x).
  { clear - N. intros c D f new_id C1 C2 C3 E. unfold single in E. destruct (c t) as [u|y] eqn:Ec.
    - destruct (f (erase t)) as [e|z] eqn:Ef; cbn [rbind] in E; [discriminate|]. injection E as ->. exact (C3 _ _ Ef N).
    - destruct (force && forceable y).
      + destruct (D t) as [dt|z] eqn:Ed; cbn [rbind] in E; [|injection E as ->; exact (C2 _ _ Ed N)].
        destruct (f (erase (cleaned new_id g dt t))) as [e|z] eqn:Ef; cbn [rbind] in E; [discriminate|]. injection E as ->. exact (C3 _ _ Ef N).
      + injection E as ->. exact (C1 _ _ Ec N). }
  destruct I as [<-|[<-|[<-|[]]]].
  - revert E. change (stix_single o opts force "1.1" g t) with (single (if_asked (check_versions opts) (stix_version_check "1.1")) (fun _ => Ok ([], [])) (stix_1_1_step o opts) (new_id_func opts) force g t).
    apply K; [intros; eapply late_check; [|eassumption]; eexists; reflexivity|discriminate|]. intros t' x' E. apply raises_1_1 in E. destruct E as [<-|[<-|[<-|[]]]]; intros [X|X]; discriminate X.
  - revert E. change (stix_single o opts force "1.1.1" g t) with (single (if_asked (check_versions opts) (stix_version_check "1.1.1")) (fun _ => Ok ([], [])) (stix_1_1_1_step opts) (new_id_func opts) force g t).
    apply K; [intros; eapply late_check; [|eassumption]; eexists; reflexivity|discriminate|]. intros t' x' E. apply raises_1_1_1 in E. destruct E as [<-|[<-|[]]]; intros [X|X]; discriminate X.
  - revert E. change (stix_single o opts force "1.2" g t) with (single (if_asked (check_versions opts) (stix_version_check "1.2")) (fun _ => Err NotImplementedError) stix_1_2_step (new_id_func opts) force g t).
    apply K; [intros; eapply late_check; [|eassumption]; eexists; reflexivity| |].
    + intros t' x' E. injection E as <-. intros [X|X]; discriminate X.
    + intros t' x' E. destruct (raises_1_2 _ _ E) as [<-|[]]. intros [X|X]; discriminate X.
Qed.

Definition early : list string := ["1.0"; "1.0.1"].

Lemma stix_single_sound o opts force v g t x : In v (removelast STIX_VERSIONS) -> steady t -> (In v early -> fields_ok force t) ->
  stix_single o opts force v g (numbered 0 t) = Err x -> documented x \/ x = NotImplementedError /\ force = true.
Proof.
  intros I S F E. assert (S' : steady (numbered 0 t)) by (apply steady_numbered; exact S).
  assert (Dn : distinct_attributes (numbered 0 t)) by (apply tidy_distinct; apply S').
  assert (T : tolerable x (numbered 0 t) /\ (force = true -> forall D dt, stix_dirt o v = Some D -> D (numbered 0 t) = Ok dt -> tolerable x (erase (cleaned (new_id_func opts) g dt (numbered 0 t))))).
  { assert (K : In v early \/ In v ["1.1"; "1.1.1"; "1.2"]) by (unfold early; simpl in I |- *; tauto). destruct K as [K|K].
    - pose proof (fields_numbered _ 0 _ (F K)) as F'. split; [eapply full_tolerable; eauto|]. intros -> D dt Ed Hd.
      eapply full_tolerable; [apply steady_cleaned; exact S'|]. apply fields_cleaned; [apply numbered_NoDup| |exact F'].
      exact (stix_dirt_spared o v D _ dt Ed Hd).
    - pose proof (late_single _ _ _ _ _ _ _ K E) as N. split; [apply steady_tolerable; auto|]. intros _ D dt _ _. apply steady_tolerable; auto. apply steady_cleaned. exact S'. }
  destruct T as [T1 T2]. unfold stix_single in E.
  assert (Kn : exists c D f, stix_check o opts v = Some c /\ stix_dirt o v = Some D /\ stix_step o opts v = Some f).
  { simpl in I. destruct I as [<-|[<-|[<-|[<-|[<-|[]]]]]]; do 3 eexists; repeat split; reflexivity. }
  destruct Kn as (c & D & f & Ec & Ed & Ef). rewrite Ec, Ed, Ef in E.
  apply single_sound in E; [|exact (stix_check_safe _ _ _ _ Ec)|exact Dn|exact T1|intros Fo dt Hd; exact (T2 Fo D dt Ed Hd)|].
  - destruct E as [E|[Fo E]]; auto. destruct (stix_dirt_safe o v D _ x Ed Dn E) as [[K K']|K]; auto. contradiction.
  - intros t1 Fit T. apply (stix_tolerated _ _ _ _ _ _ Ef); [rewrite (proj2 Fit); apply S'|exact (fit_distinct_plain _ _ Fit Dn)|exact T].
Qed.

Lemma cybox_single_sound opts force v g t x : In v (removelast CYBOX_VERSIONS) -> steady t -> fields_ok force t ->
  cybox_single opts force v g (numbered 0 t) = Err x -> documented x.
Proof.
  intros I S F E. assert (S' : steady (numbered 0 t)) by (apply steady_numbered; exact S).
  assert (Dn : distinct_attributes (numbered 0 t)) by (apply tidy_distinct; apply S').
  assert (T : tolerable x (numbered 0 t) /\ (force = true -> forall D dt, cybox_dirt v = Some D -> D (numbered 0 t) = Ok dt -> tolerable x (erase (cleaned (new_id_func opts) g dt (numbered 0 t))))).
  { pose proof (fields_numbered _ 0 _ F) as F'. split; [eapply full_tolerable; eauto|]. intros -> D dt Ed Hd.
    eapply full_tolerable; [apply steady_cleaned; exact S'|]. apply fields_cleaned; [apply numbered_NoDup| |exact F'].
    exact (cybox_dirt_spared v D _ dt Ed Hd). }
  destruct T as [T1 T2]. unfold cybox_single in E.
  assert (Kn : exists c D f, cybox_check opts v = Some c /\ cybox_dirt v = Some D /\ cybox_step opts v = Some f).
  { simpl in I. destruct I as [<-|[<-|[]]]; do 3 eexists; repeat split; reflexivity. }
  destruct Kn as (c & D & f & Ec & Ed & Ef). rewrite Ec, Ed, Ef in E.
  apply single_sound in E; [|exact (cybox_check_safe _ _ _ Ec)|exact Dn|exact T1|intros Fo dt Hd; exact (T2 Fo D dt Ed Hd)|].
  - destruct E as [E|[Fo E]]; auto. exfalso. exact (cybox_dirt_safe v D _ x Ed Dn E T1).
  - intros t1 Fit T. apply (cybox_tolerated _ _ _ _ _ Ef); [rewrite (proj2 Fit); apply S'|exact (fit_distinct_plain _ _ Fit Dn)|exact T].
Qed.

Lemma stix_single_steady o opts force v g n t oc : v <> "1.2" -> steady t ->
  stix_single o opts force v g (numbered n t) = Ok oc -> steady (new_document oc).
Proof.
  intros N S E. unfold stix_single in E. destruct (stix_check o opts v) as [c|]; [|discriminate]. destruct (stix_dirt o v) as [D|]; [|discriminate].
  destruct (stix_step o opts v) as [f|] eqn:Ef; [|discriminate]. destruct (single_worked _ _ _ _ _ _ _ _ E) as (t1 & F & _ & W).
  eapply steady_stix; [exact Ef|exact N|exact F|]. apply (steady_numbered n) in S. destruct W as [->|(_ & dt & _ & ->)]; [apply steady_erase; exact S|apply steady_cleaned; exact S].
Qed.

Lemma cybox_single_steady opts force v g n t oc : steady t ->
  cybox_single opts force v g (numbered n t) = Ok oc -> steady (new_document oc).
Proof.
  intros S E. unfold cybox_single in E. destruct (cybox_check opts v) as [c|]; [|discriminate]. destruct (cybox_dirt v) as [D|]; [|discriminate].
  destruct (cybox_step opts v) as [f|] eqn:Ef; [|discriminate]. destruct (single_worked _ _ _ _ _ _ _ _ E) as (t1 & F & _ & W).
  eapply steady_cybox; [exact Ef|exact F|]. apply (steady_numbered n) in S. destruct W as [->|(_ & dt & _ & ->)]; [apply steady_erase; exact S|apply steady_cleaned; exact S].
Qed.

Lemma worked_fields force D new_id g t t1 : fields_ok force t ->
  (force = true -> forall dt, D (numbered 0 t) = Ok dt -> forall i, In i (fst dt) -> exists x, In x (nodes (numbered 0 t)) /\ tid x = i /\ field_class (head x) <> 1) ->
  (t1 = erase (numbered 0 t) \/ force = true /\ exists dt : dirt, D (numbered 0 t) = Ok dt /\ t1 = erase (cleaned new_id g dt (numbered 0 t))) ->
  fields_ok force t1.
Proof.
  intros F H W. apply (fields_numbered _ 0) in F. destruct W as [->|(-> & dt & Hd & ->)]; [apply fields_erase; exact F|].
  apply fields_cleaned; [apply numbered_NoDup|exact (H eq_refl dt Hd)|exact F].
Qed.

Lemma stix_single_fields o opts force g t oc : fields_ok force t ->
  stix_single o opts force "1.0" g (numbered 0 t) = Ok oc -> fields_ok force (new_document oc).
Proof.
  intros S E. unfold stix_single in E. destruct (stix_check o opts "1.0") as [c|]; [|discriminate]. destruct (stix_dirt o "1.0") as [D|] eqn:Ed; [|discriminate].
  destruct (stix_step o opts "1.0") as [f|] eqn:Ef; [|discriminate]. destruct (single_worked _ _ _ _ _ _ _ _ E) as (t1 & F & _ & W).
  apply (fields_kept force f) with (t := t1); [|exact F|].
  - intros cl P Hc. injection Ef as <-. apply shape_1_0. exact Hc.
  - eapply worked_fields; [exact S| |exact W]. intros _ dt Hd. exact (stix_dirt_spared o "1.0" D _ dt Ed Hd).
Qed.

Lemma cybox_single_fields opts force g t oc : fields_ok force t ->
  cybox_single opts force "2.0" g (numbered 0 t) = Ok oc -> fields_ok force (new_document oc).
Proof.
  intros S E. unfold cybox_single in E. destruct (cybox_check opts "2.0") as [c|]; [|discriminate]. destruct (cybox_dirt "2.0") as [D|] eqn:Ed; [|discriminate].
  destruct (cybox_step opts "2.0") as [f|] eqn:Ef; [|discriminate]. destruct (single_worked _ _ _ _ _ _ _ _ E) as (t1 & F & _ & W).
  apply (fields_kept force f) with (t := t1); [|exact F|].
  - intros cl P Hc. injection Ef as <-. apply shape_2_0. exact Hc.
  - eapply worked_fields; [exact S| |exact W]. intros _ dt Hd. exact (cybox_dirt_spared "2.0" D _ dt Ed Hd).
Qed.

(** ** Several steps *)

Definition in_time (force : bool) (vs : list string) (t : tree) : Prop :=
  steady t /\ ((exists v, In v vs /\ In v early) -> fields_ok force t).

(** The steps of an update come in the order of the versions. *)
Lemma early_first l1 v vs b l3 : STIX_VERSIONS = (l1 ++ (v :: vs) ++ b :: l3)%list ->
  In v (removelast STIX_VERSIONS) /\ (vs <> [] -> v <> "1.2") /\ ((exists w, In w vs /\ In w early) -> v = "1.0") /\
  exists l1', STIX_VERSIONS = (l1' ++ vs ++ b :: l3)%list.
Proof.
  intro E. split; [|split; [|split; [|exists (l1 ++ [v])%list; rewrite <- app_assoc; exact E]]];
    unfold STIX_VERSIONS in *; repeat (destruct l1 as [|? l1]; cbn [app] in E; [injection E as E0 E; subst v|injection E as ? E]); try (destruct l1; discriminate E);
    try (simpl; tauto); try (intros; discriminate).
  all: try (intros (w & A & B); exfalso; assert (C : In w (vs ++ b :: l3)) by (apply in_or_app; auto); rewrite <- E in C;
    simpl in C, B; destruct B as [<-|[<-|[]]]; repeat destruct C as [C|C]; try discriminate C; contradiction).
  all: try reflexivity.
  - destruct vs; discriminate E.
  - intros Ne. destruct vs as [|? [|? vs]]; [congruence|discriminate E|discriminate E].
Qed.

Definition excused (force : bool) (x : exn) : Prop := documented x \/ x = NotImplementedError /\ force = true.

Lemma stix_chain_sound o opts force b l3 x : forall vs l1 g t, STIX_VERSIONS = (l1 ++ vs ++ b :: l3)%list -> in_time force vs t ->
  chain (stix_single o opts force) vs g t = Err x -> excused force x.
Proof.
  induction vs as [|v vs IH]; intros l1 g t B [S F] E; [discriminate E|].
  destruct (early_first _ _ _ _ _ B) as (I & L & Fst & l1' & B'). cbn [chain] in E.
  destruct (stix_single o opts force v g (numbered 0 t)) as [oc|y] eqn:One; cbn [rbind] in E.
  - destruct (chain (stix_single o opts force) vs (g + replacements oc) (new_document oc)) as [[[e' l'] ds']|y] eqn:Ch; cbn [rbind] in E; [discriminate|]. injection E as ->.
    apply (IH l1' _ _ B') in Ch; [exact Ch|]. split.
    + destruct vs as [|w vs]; [discriminate Ch|]. eapply stix_single_steady; [|exact S|exact One]. apply L. discriminate.
    + intro X. pose proof (Fst X) as ->. eapply stix_single_fields; [|exact One]. apply F. exists "1.0". split; [left; reflexivity|left; reflexivity].
  - injection E as ->. eapply stix_single_sound; [exact I|exact S| |exact One]. intro K. apply F. exists v. split; [left; reflexivity|exact K].
Qed.

Lemma cybox_chain_sound opts force b l3 x : forall vs l1 g t, CYBOX_VERSIONS = (l1 ++ vs ++ b :: l3)%list -> steady t -> fields_ok force t ->
  chain (cybox_single opts force) vs g t = Err x -> documented x.
Proof.
  assert (K : forall l1 v vs, CYBOX_VERSIONS = (l1 ++ (v :: vs) ++ b :: l3)%list -> In v (removelast CYBOX_VERSIONS) /\ (vs <> [] -> v = "2.0")).
  { clear. intros l1 v vs E. unfold CYBOX_VERSIONS in *.
    repeat (destruct l1 as [|? l1]; cbn [app] in E; [injection E as E0 E; subst v|injection E as ? E]); try (destruct l1; discriminate E).
    - simpl. auto.
    - simpl. split; [tauto|]. intro Ne. destruct vs as [|? [|? vs]]; [congruence|discriminate E|discriminate E].
    - destruct vs; discriminate E. }
  induction vs as [|v vs IH]; intros l1 g t B S F E; [discriminate E|]. destruct (K _ _ _ B) as [I L]. cbn [chain] in E.
  destruct (cybox_single opts force v g (numbered 0 t)) as [oc|y] eqn:One; cbn [rbind] in E.
  - destruct (chain (cybox_single opts force) vs (g + replacements oc) (new_document oc)) as [[[e' l'] ds']|y] eqn:Ch; cbn [rbind] in E; [discriminate|]. injection E as ->.
    destruct vs as [|w vs]; [discriminate Ch|]. assert (v = "2.0") as -> by (apply L; discriminate).
    apply (IH (l1 ++ ["2.0"])%list) in Ch; [exact Ch|rewrite <- app_assoc; exact B|eapply cybox_single_steady; eauto|eapply cybox_single_fields; eauto].
  - injection E as ->. eapply cybox_single_sound; eauto.
Qed.

(** ** Whole updates *)

Lemma excused_shift force n x : excused force x -> excused force (shift_exn n x).
Proof. intros [D|[-> F]]; [left; destruct D; constructor|right; auto]. Qed.

Lemma fields_of force t : acceptable t -> (force = true -> plain_values_present t) -> fields_ok force t.
Proof. intros [_ _ _ A B _ _] P. split; [exact B|split; [exact A|exact P]] || (split; [exact A|split; [exact B|exact P]]). Qed.

Lemma stix_update_sound o d from to opts force s t x s' : wf_state s -> denotes s d t -> steady t -> fields_ok force t ->
  stix_update o d from to opts force s = (Err x, s') -> excused force x.
Proof.
  intros Wf D S F E. pose proof (stix_validation o d from to opts force s t Wf D) as Va. cbv zeta in Va.
  destruct (stix_start from t) as [a|] eqn:Ea; [|rewrite Va in E; injection E as <- _; left; constructor].
  set (b := match given to with Some b => b | None => "1.2.1" end) in *.
  destruct stix_table_ok as [_ Nt]. destruct (older_dec STIX_VERSIONS a b Nt) as [Ho|Ho]; [|rewrite (proj1 Va Ho) in E; injection E as <- _; left; constructor].
  pose proof (slice_between _ _ _ Nt Ho) as B.
  pose proof (stix_update_runs o d from to opts force s t a _ Wf D Ea B) as Rn. unfold runs_chain in Rn.
  destruct (chain _ _ _ _) as [[[e l] ds]|y] eqn:Ch.
  - destruct Rn as (r & s0 & ns & E0 & _). rewrite E in E0. discriminate.
  - destruct Rn as (n & s0 & E0). rewrite E in E0. injection E0 as -> _. apply excused_shift. destruct B as (l1 & l2 & l3 & B & _).
    eapply stix_chain_sound; [exact B| |exact Ch]. split; [apply steady_erase; exact S|intros _; apply fields_erase; exact F].
Qed.

Lemma cybox_update_sound o d from to opts force s t x s' : wf_state s -> denotes s d t -> steady t -> fields_ok force t ->
  cybox_update o d from to opts force s = (Err x, s') -> documented x.
Proof.
  intros Wf D S F E. pose proof (cybox_validation o d from to opts force s t Wf D) as Va. cbv zeta in Va.
  destruct (cybox_start from t) as [a|] eqn:Ea; [|rewrite Va in E; injection E as <- _; constructor].
  set (b := match given to with Some b => b | None => "2.1" end) in *.
  destruct cybox_table_ok as [_ Nt]. destruct (older_dec CYBOX_VERSIONS a b Nt) as [Ho|Ho]; [|rewrite (proj1 Va Ho) in E; injection E as <- _; constructor].
  pose proof (slice_between _ _ _ Nt Ho) as B.
  pose proof (cybox_update_runs o d from to opts force s t a _ Wf D Ea B) as Rn. unfold runs_chain in Rn.
  destruct (chain _ _ _ _) as [[[e l] ds]|y] eqn:Ch.
  - destruct Rn as (r & s0 & ns & E0 & _). rewrite E in E0. discriminate.
  - destruct Rn as (n & s0 & E0). rewrite E in E0. injection E0 as -> _. assert (K : documented y); [|destruct K; constructor]. destruct B as (l1 & l2 & l3 & B & _).
    eapply cybox_chain_sound; [exact B|apply steady_erase; exact S|apply fields_erase; exact F|exact Ch].
Qed.

Lemma entry_sound o update d from to opts force s t x s' : entry o update -> wf_state s -> denotes s d t -> is_elem t = true ->
  distinct_attributes t -> acceptable t -> (force = true -> plain_values_present t) ->
  update d from to opts force s = (Err x, s') -> documented x \/ x = NotImplementedError /\ force = true.
Proof.
  intros En W D El Di A P E. pose proof (steady_of t El Di A) as S. pose proof (fields_of force t A P) as F.
  destruct En as [->|[->| ->]]; [|eapply stix_update_sound; eauto|left; eapply cybox_update_sound; eauto].
  destruct (String.eqb_spec (q_local (h_tag (head t))) "STIX_Package") as [N|N].
  - rewrite (ramrod_is_stix o d from to opts force s t W D N) in E. eapply stix_update_sound; eauto.
  - destruct (String.eqb_spec (q_local (h_tag (head t))) "Observables") as [N'|N'].
    + rewrite (ramrod_is_cybox o d from to opts force s t W D N') in E. left. eapply cybox_update_sound; eauto.
    + pose proof (ramrod_other o d from to opts force s t W D N N') as Z. rewrite E in Z. injection Z as ->. left. constructor.
Qed.

Lemma cybox_never o d from to opts force s t x s' : wf_state s -> denotes s d t -> is_elem t = true ->
  distinct_attributes t -> acceptable t -> (force = true -> plain_values_present t) ->
  cybox_update o d from to opts force s = (Err x, s') -> documented x.
Proof. intros W D El Di A P E. eapply cybox_update_sound; eauto using steady_of, fields_of. Qed.

(** ** One step, in terms of the API *)

Lemma steady_parts t : steady t -> is_elem t = true /\ distinct_attributes t /\ types_readable t /\ prefixes_on_root t /\ no_broken_reference t /\
  sources_plain t /\ versions_readable t /\ sections_whole t.
Proof. intros (El & T & A & B & C). pose proof (tidy_distinct t T). pose proof (tidy_sources t T). pose proof (tidy_versions t T). pose proof (tidy_sections t T). tauto. Qed.

Lemma step_keeps o opts v up d force s t r s' new :
  dict_get v (STIX_UPDATERS o) = Some up -> v <> "1.2" -> wf_state s -> denotes s d t -> is_elem t = true -> distinct_attributes t -> acceptable t ->
  updater_update o up d opts force s = (Ok r, s') -> document s' (r_document r) new ->
  is_elem new = true /\ distinct_attributes new /\ types_readable new /\ prefixes_on_root new /\ no_broken_reference new /\
  sources_plain new /\ versions_readable new /\ sections_whole new.
Proof.
  intros U N W Dn El Dt A E Doc. pose proof (stix_step_performed o opts v up d force s t U W Dn) as P.
  destruct (stix_single o (or_default o opts) force v (gen s) (numbered (next s) t)) as [oc|y] eqn:S in P; [|destruct P as (s2 & P); rewrite E in P; discriminate].
  destruct P as (r2 & s2 & P & W2 & Doc2 & _). rewrite E in P. injection P as <- <-. apply steady_parts.
  rewrite (document_unique _ _ _ _ W2 Doc Doc2). eapply stix_single_steady; [exact N|apply steady_of; eassumption|exact S].
Qed.

Lemma cybox_step_keeps o opts v up d force s t r s' new :
  dict_get v (CYBOX_UPDATERS o) = Some up -> wf_state s -> denotes s d t -> is_elem t = true -> distinct_attributes t -> acceptable t ->
  updater_update o up d opts force s = (Ok r, s') -> document s' (r_document r) new ->
  is_elem new = true /\ distinct_attributes new /\ types_readable new /\ prefixes_on_root new /\ no_broken_reference new /\
  sources_plain new /\ versions_readable new /\ sections_whole new.
Proof.
  intros U W Dn El Dt A E Doc. pose proof (cybox_step_performed o opts v up d force s t U W Dn) as P.
  destruct (cybox_single (or_default o opts) force v (gen s) (numbered (next s) t)) as [oc|y] eqn:S in P; [|destruct P as (s2 & P); rewrite E in P; discriminate].
  destruct P as (r2 & s2 & P & W2 & Doc2 & _). rewrite E in P. injection P as <- <-. apply steady_parts.
  rewrite (document_unique _ _ _ _ W2 Doc Doc2). eapply cybox_single_steady; [apply steady_of; eassumption|exact S].
Qed.
