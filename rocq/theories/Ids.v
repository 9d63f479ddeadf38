(** * Proofs: attributes that no step loses. *)

From Coq Require Import String Ascii List Bool Arith Lia.
From Verif Require Import Str Xml XPath Utils Base Tables Cybox Stix Ramrod Spec SpecDoc SpecPass SpecStep
  SpecCheck SpecClean SpecUpdate SpecTrace SpecIds Lib Api Frame Refine RefineBase RefineTrans RefineLists RefineSteps RefineCheck
  RefineClean Relabel RefineUpdate Updates Reports UpdateFacts Trace Fields Carried Vocab Marks Worked Follow Natural Root Kept Declared Cleaned Faults Translated.
Import ListNotations.
Local Open Scope string_scope.

Definition preserved (P : tree -> Prop) (f : tree -> res tree) : Prop := forall t e, f t = Ok e -> P t -> P e.

Lemma preserved_cons P f l : preserved P f -> preserved P (in_order l) -> preserved P (in_order (f :: l)).
Proof. intros H H' t e E A. apply in_order_ok in E as (m & E1 & E2). eauto. Qed.
Lemma preserved_nil P : preserved P (in_order []).
Proof. intros t e E A. rewrite in_order_nil in E. injection E as <-. exact A. Qed.
Lemma preserved_when P b f : preserved P f -> preserved P (when b f).
Proof. intros H t e E A. unfold when in E. destruct b; [eauto|]. injection E as <-. exact A. Qed.
Lemma preserved_passes {A} P (f : A -> tree -> res tree) l : (forall x, In x l -> preserved P (f x)) -> preserved P (passes f l).
Proof.
  induction l as [|x l IH]; intros H t e E A0.
  - injection E as <-. exact A0.
  - rewrite passes_cons in E. destruct (f x t) as [m|] eqn:E1; [|discriminate]. eapply IH; eauto.
    + intros y Hy. apply H. right. auto.
    + eapply H; eauto. left. auto.
Qed.
Lemma preserved_always (P : tree -> Prop) f : (forall t, P t -> P (f t)) -> preserved P (always f).
Proof. intros H t e E A. injection E as <-. auto. Qed.

(** ** Names *)

Definition special : list qname :=
  (common "Contributors" :: common "Source" :: indicator "Source" :: indicator "Sighting" ::
   cybox_2_0_1_replaced ++ sourced)%list.

(** A name that does not become one of the special names. *)
Definition tag_ok (a b : qname) : Prop := b = a \/ ~ In b special.

Lemma special_cybox q : In q cybox_2_0_1_replaced -> In q special.
Proof. intro H. unfold special. do 4 right. apply in_app_iff. auto. Qed.
Lemma special_sourced q : In q sourced -> In q special.
Proof. intro H. unfold special. do 4 right. apply in_app_iff. auto. Qed.

Lemma field_ok p c p' c' : tag_ok p p' -> tag_ok c c' -> ~ replaced_field p c -> ~ replaced_field p' c'.
Proof.
  intros Hp Hc N [H|[[H1 H2]|[H1 H2]]]; apply N.
  - destruct Hc as [<-|Hc]; [left; exact H|]. elim Hc. apply special_cybox. exact H.
  - right. left. destruct Hc as [<-|Hc]; [|elim Hc; subst; simpl; auto]. destruct Hp as [<-|Hp]; [auto|].
    elim Hp. apply special_sourced. exact H1.
  - right. right. destruct Hc as [<-|Hc]; [|elim Hc; subst; simpl; auto]. destruct Hp as [<-|Hp]; [auto|].
    elim Hp. subst. simpl. auto.
Qed.


Lemma plain_field p c : ~ In c special -> ~ replaced_field p c.
Proof.
  intros N [H|[[_ ->]|[_ ->]]]; apply N; [apply special_cybox; auto|simpl; auto|simpl; auto].
Qed.

Lemma plain_parent p c : ~ In p special -> ~ In c cybox_2_0_1_replaced -> ~ replaced_field p c.
Proof.
  intros N C [H|[[H _]|[-> _]]]; auto; apply N; [apply special_sourced; auto|simpl; auto].
Qed.

Definition in_special (q : qname) : bool := existsb (fun p => qn_eqb q p) special.
Lemma not_special q : in_special q = false -> ~ In q special.
Proof.
  unfold in_special. intros E H. assert (X : existsb (fun p => qn_eqb q p) special = true).
  { apply existsb_exists. exists q. split; auto. apply qn_eqb_eq. reflexivity. }
  congruence.
Qed.

Lemma NoDup_del_plain k (l : list (qname * string)) : NoDup (map fst l) -> NoDup (map fst (attr_del k l)).
Proof.
  intro H. induction l as [|[a v] l IH]; cbn [attr_del map fst] in *; auto. inversion H as [|? ? N1 N2]; subst.
  destruct (qn_eqb k a); [exact N2|]. cbn [map fst]. constructor; [|auto]. intro X. apply N1. clear - X.
  induction l as [|[a' v'] l IH]; cbn [attr_del map] in *; auto. destruct (qn_eqb k a'); [right; exact X|].
  cbn [map fst] in X. destruct X as [X|X]; [left; exact X|right; auto].
Qed.

Section Attr.
  Variables (k : qname) (w : string).

  (** A header whose attribute [k] is as before. *)
  Definition same_here (h h' : hdr) : Prop :=
    h_kind h' = h_kind h /\ tag_ok (h_tag h) (h_tag h') /\
    (NoDup (map fst (h_attr h)) -> NoDup (map fst (h_attr h')) /\ attr_get k (h_attr h') = attr_get k (h_attr h)).

  Lemma same_refl h : same_here h h.
  Proof. split; [|split]; auto. left. reflexivity. Qed.

  Lemma tag_ok_trans a b c : tag_ok a b -> tag_ok b c -> tag_ok a c.
  Proof. intros [->|H1] [->|H2]; unfold tag_ok; auto. Qed.

  Lemma same_trans h1 h2 h3 : same_here h1 h2 -> same_here h2 h3 -> same_here h1 h3.
  Proof.
    intros (A1 & A2 & A3) (B1 & B2 & B3). split; [congruence|]. split; [eapply tag_ok_trans; eauto|].
    intro N. destruct (A3 N) as [N2 E2]. destruct (B3 N2) as [N3 E3]. split; congruence.
  Qed.

  Lemma same_set q v h : k <> q -> same_here h (hset_attr q v h).
  Proof.
    intro H. split; [reflexivity|]. split; [left; reflexivity|]. intro N. cbn [hset_attr set_attrs h_attr]. split; [apply attr_set_NoDup; exact N|].
    rewrite RefineBase.attr_get_set. apply qn_eqb_neq in H. rewrite H. reflexivity.
  Qed.

  Lemma same_del q h : k <> q -> same_here h (hdel_attr q h).
  Proof.
    intro H. split; [reflexivity|]. split; [left; reflexivity|]. intro N. cbn [hdel_attr set_attrs h_attr]. split; [apply NoDup_del_plain; exact N|].
    apply Fields.attr_get_del. exact H.
  Qed.

  Lemma same_text s h : same_here h (set_text s h).
  Proof. split; [reflexivity|]. split; [left; reflexivity|]. auto. Qed.

  Lemma same_tag q h : in_special q = false -> same_here h (set_tag q h).
  Proof. intro H. split; [reflexivity|]. split; [right; apply not_special; exact H|]. auto. Qed.

  Lemma retains_elem t : retains k w t -> h_kind (head t) = KElem.
  Proof. intro H. destruct H; assumption. Qed.

  (** A node changed at the head. *)
  Lemma retains_head h h' ks : same_here h h' -> retains k w (Node h ks) -> retains k w (Node h' ks).
  Proof.
    intros (A & B & C) H. inversion H as [? ? K T N G|? ? c K I R Kc]; subst.
    - destruct (C N) as [N' G']. constructor; [congruence| |exact N'|congruence].
      destruct B as [->|B]; [exact T|]. intro E. apply B. rewrite E. simpl. auto.
    - apply retains_below with c; [congruence|exact I| |exact Kc]. eapply field_ok; [exact B|left; reflexivity|exact R].
  Qed.

  Lemma retains_edit f : (forall b y, same_here (head y) (f b y)) -> forall t anc, retains k w t -> retains k w (edit f anc t).
  Proof.
    intros H t. tree_induction t. intros anc Hk. cbn [edit]. apply retains_head with h; [apply (H anc (Node h ks))|].
    inversion Hk as [? ? K T N G|? ? c K I R Kc]; subst; [constructor; auto|].
    apply retains_below with (edit f (Node h ks :: anc) c); [exact K|apply in_map; exact I| |apply IH; auto].
    destruct c as [hc kc]. eapply field_ok; [left; reflexivity| |exact R]. cbn [edit head].
    destruct (H (Node h ks :: anc) (Node hc kc)) as (_ & B & _). exact B.
  Qed.

  Lemma retains_subst F :
    (forall p anc x l, F (p :: anc) x = Some l -> ~ replaced_field (h_tag (head p)) (h_tag (head x)) -> retains k w x ->
       exists z, In z l /\ ~ replaced_field (h_tag (head p)) (h_tag (head z)) /\ retains k w z) ->
    forall t anc, retains k w t -> retains k w (subst_nodes F anc t).
  Proof.
    intros H t. tree_induction t. intros anc Hk. cbn [subst_nodes].
    inversion Hk as [? ? K T N G|? ? c K I R Kc]; subst; [constructor; auto|].
    destruct (F (Node h ks :: anc) c) as [l|] eqn:E.
    - destruct (H _ _ _ _ E R Kc) as (z & Iz & Rz & Kz). apply retains_below with z; [exact K| |exact Rz|exact Kz].
      apply in_flat_map. exists c. split; [exact I|]. rewrite E. exact Iz.
    - apply retains_below with (subst_nodes F (Node h ks :: anc) c); [exact K| | |apply IH; auto].
      + apply in_flat_map. exists c. split; [exact I|]. rewrite E. left. reflexivity.
      + destruct c as [hc kc]. exact R.
  Qed.

  Lemma retains_on_root g t : same_here (head t) (g (head t)) -> retains k w t -> retains k w (on_root g t).
  Proof. intros S H. destruct t as [h ks]. exact (retains_head _ _ _ S H). Qed.

  (** *** Namespaces *)
  Lemma retains_ns drop m : (forall b y, is_elem y = true -> moves m y = true -> same_here (head y) (rebuilt drop m b y)) ->
    forall t anc, retains k w t -> retains k w (ns_pass drop m anc t).
  Proof.
    intros H t. tree_induction t. intros anc Hk. pose proof (retains_elem _ Hk) as Ke. cbn [ns_pass].
    assert (S : same_here h (if moves m (Node h ks) then rebuilt drop m anc (Node h ks) else h)).
    { destruct (moves m (Node h ks)) eqn:M; [|apply same_refl]. apply (H anc (Node h ks)); auto. unfold is_elem. cbn [head] in *. rewrite Ke. reflexivity. }
    apply retains_head with h; [exact S|].
    inversion Hk as [? ? K T N G|? ? c K I R Kc]; subst; [constructor; auto|]. pose proof (retains_elem _ Kc) as Kec.
    assert (El : is_elem c = true) by (unfold is_elem; rewrite Kec; reflexivity).
    apply retains_below with (ns_pass drop m (Node h ks :: anc) c); [exact K| | |apply IH; auto].
    - apply in_map_iff. exists c. rewrite El. auto.
    - destruct c as [hc kc]. eapply field_ok; [left; reflexivity| |exact R]. cbn [ns_pass head].
      destruct (moves m (Node hc kc)) eqn:M; [|left; reflexivity].
      destruct (H (Node h ks :: anc) (Node hc kc) El M) as (_ & B & _). exact B.
  Qed.

  Definition foreign (m : dict string) : bool :=
    forallb (fun n => negb (existsb (fun q => ostr_eqb (q_ns q) (Some n)) special)) (map snd m).

  Lemma lookup_in ns (m : dict string) : mem_str ns (map fst m) = true -> In (lookup ns ns m) (map snd m).
  Proof.
    unfold lookup. unfold dict in *. induction m as [|[a b] m IH]; simpl; [discriminate|].
    destruct (String.eqb ns a) eqn:E; [left; reflexivity|]. intro H. right. apply IH. exact H.
  Qed.

  Lemma same_rebuilt drop m b y : foreign m = true -> is_elem y = true -> moves m y = true -> same_here (head y) (rebuilt drop m b y).
  Proof.
    intros F El M. split; [|split].
    - cbn [rebuilt h_kind]. unfold is_elem in El. destruct (h_kind (head y)); try discriminate. reflexivity.
    - right. cbn [rebuilt h_tag]. unfold moves in M. destruct (q_ns (h_tag (head y))) as [ns|]; [|discriminate].
      intro I. unfold foreign in F. rewrite forallb_forall in F. specialize (F _ (lookup_in ns m M)). apply negb_true_iff in F.
      assert (X : existsb (fun q => ostr_eqb (q_ns q) (Some (lookup ns ns m))) special = true).
      { apply existsb_exists. eexists. split; [exact I|]. cbn [q_ns]. apply ostr_eqb_eq. reflexivity. }
      congruence.
    - intro N. cbn [rebuilt h_attr]. rewrite (attr_update_all (h_attr (head y)) []) by exact N. auto.
  Qed.

  (** *** Optional fields *)
  Lemma nodes_below h ks c y : In c ks -> In y (nodes c) -> In y (nodes (Node h ks)).
  Proof. intros I H. cbn [nodes]. right. apply in_flat_map. eauto. Qed.

  Lemma retains_shows t : retains k w t -> shows k w t.
  Proof.
    induction 1 as [h ks K T N G|h ks c K I R Kc (x & Ix & X)].
    - exists (Node h ks). split; [left; reflexivity|]. unfold is_elem. cbn [head]. rewrite K. auto.
    - exists x. split; [eapply nodes_below; eauto|exact X].
  Qed.

  Lemma retains_not_blank t : retains k w t -> blank t = false.
  Proof.
    intro H. apply retains_shows in H as (x & I & E & G). destruct (blank t) eqn:B; [|reflexivity].
    unfold blank in B. rewrite forallb_forall in B. apply nodes_in in I as (a & I). specialize (B _ I). cbn [snd] in B.
    rewrite E in B. cbn [negb orb] in B. destruct (h_attr (head x)); discriminate.
  Qed.

  Lemma retains_prune p t : (forall anc x, p anc x = true -> blank x = true) -> retains k w t -> retains k w (prune p t).
  Proof.
    intros H. apply retains_subst. intros q anc x l E R Kx. destruct (p (q :: anc) x) eqn:P; [|discriminate].
    apply H in P. apply retains_not_blank in Kx. congruence.
  Qed.

  (** *** Rewriting *)
  Lemma retains_rewrite p G :
    (forall q anc x e, p (q :: anc) x = true -> G x = Ok e -> ~ replaced_field (h_tag (head q)) (h_tag (head x)) -> retains k w x ->
       ~ replaced_field (h_tag (head q)) (h_tag (head e)) /\ retains k w e) ->
    preserved (retains k w) (rewrite_all p G).
  Proof.
    intros H t e E A. unfold rewrite_all in E. destruct (first_err _ _); [discriminate|]. injection E as <-.
    apply retains_subst; auto. intros q anc x l E R Kx. destruct (p (q :: anc) x) eqn:P; [|discriminate].
    destruct (G x) as [e'|] eqn:Gx; [|discriminate]. injection E as <-. exists e'. split; [left; reflexivity|]. eauto.
  Qed.

  Lemma retains_vocab v : ~ In k set_by_steps -> preserved (retains k w) (vocab_pass v).
  Proof.
    intros Hk t e E A. unfold vocab_pass in E. destruct (first_err type_of _); [discriminate|].
    destruct (first_err (upgraded v) _); [discriminate|]. injection E as <-.
    apply retains_edit; auto. intros b y. destruct (outdated v (b, y)); [|apply same_refl].
    destruct (upgraded v (b, y)) as [h|] eqn:U; [|apply same_refl].
    unfold upgraded in U. destruct (type_of (b, y)) as [i|]; [|discriminate]. cbn [rbind] in U. unfold upgraded_with in U.
    assert (K1 : k <> TAG_XSI_TYPE) by (intros ->; apply Hk; unfold set_by_steps; simpl; tauto).
    assert (K2 : k <> lq "vocab_reference") by (intros ->; apply Hk; unfold set_by_steps; simpl; tauto).
    assert (K3 : k <> lq "vocab_name") by (intros ->; apply Hk; unfold set_by_steps; simpl; tauto).
    cbn [snd] in U. set (h0 := head y) in *.
    assert (SIP : forall q s a h1 h2, k <> q -> set_if_present q s a h1 = Ok h2 -> same_here h1 h2).
    { intros q s a h1 h2 N X. unfold set_if_present in X. destruct (has_attr q a); [|injection X as <-; apply same_refl].
      destruct s; [|discriminate]. injection X as <-. apply same_set. exact N. }
    destruct (set_if_present (lq "vocab_reference") _ _ _) as [h1|] eqn:E1 in U; [|discriminate]. cbn [rbind] in U.
    destruct (set_if_present (lq "vocab_name") _ _ _) as [h2|] eqn:E2 in U; [|discriminate]. cbn [rbind] in U. injection U as <-.
    apply SIP in E1; [|exact K2]. apply SIP in E2; [|exact K3].
    eapply same_trans; [apply same_set; exact K1|]. eapply same_trans; [exact E1|]. eapply same_trans; [exact E2|].
    destruct (h_text h0) as [s|]; [destruct (dict_get s (v_terms v))|]; apply same_refl || apply same_text.
  Qed.
End Attr.

(** ** The steps *)

Ltac apart := intros ->; match goal with H : ~ In _ set_by_steps |- _ => apply H; unfold set_by_steps; simpl; tauto end.
Ltac seq_steps := repeat (apply preserved_cons; [|]); [..|apply preserved_nil].

Section Steps.
  Variables (k : qname) (w : string).
  Hypothesis Hk : ~ In k set_by_steps.

  Lemma retains_schemaloc drop m1 m2 : preserved (retains k w) (always (schemaloc_pass drop m1 m2)).
  Proof.
    apply preserved_always. intros t H. apply retains_on_root; auto.
    destruct (attr_get TAG_SCHEMALOCATION _); [|apply same_refl]. apply same_set. apart.
  Qed.

  Lemma retains_where p g : (forall h, same_here k h (g h)) -> preserved (retains k w) (always (edit_where p g)).
  Proof.
    intro H. apply preserved_always. intros t R. apply retains_edit; auto. intros b y. destruct (p b y); [apply H|apply same_refl].
  Qed.

  Lemma retains_stix_stamp p a b : preserved (retains k w) (always (edit_where p (stamp_stix a b))).
  Proof. apply retains_where. intro h. apply same_set. apart. Qed.

  Lemma retains_cybox_stamp_1 p : preserved (retains k w) (always (edit_where p stamp_cybox_2_0_1)).
  Proof. apply retains_where. intro h. unfold stamp_cybox_2_0_1. repeat (eapply same_trans; [|apply same_set; apart]). apply same_refl. Qed.

  Lemma retains_cybox_stamp_2 p : preserved (retains k w) (always (edit_where p stamp_cybox_2_1)).
  Proof.
    apply retains_where. intro h. unfold stamp_cybox_2_1. eapply same_trans; [|apply same_del; apart].
    repeat (eapply same_trans; [|apply same_set; apart]). apply same_refl.
  Qed.

  Lemma retains_rename old new : in_special new = false -> preserved (retains k w) (rename old new).
  Proof. intro H. apply retains_where. intro h. apply same_tag. exact H. Qed.

  Lemma same_convert h : same_here k h (convert_text h).
  Proof. unfold convert_text. destruct (h_text h) as [s|]; [destruct (String.eqb s "")|]; apply same_refl || apply same_text. Qed.

  Lemma retains_lists obj prop : preserved (retains k w) (always (lists_pass obj prop)).
  Proof.
    apply preserved_always. intros t R. apply retains_edit; auto. intros b y. destruct (is_elem y); [|apply same_refl].
    generalize (properties_above obj prop b). intro n. induction n as [|n IH]; cbn [repeat_edit]; [apply same_refl|].
    eapply same_trans; [exact IH|apply same_convert].
  Qed.

  Lemma retains_move drop m : foreign m = true -> preserved (retains k w) (namespaces_pass drop m).
  Proof. intros F t e E R. apply namespaces_ok in E as ->. apply retains_ns; auto. intros b y E M. apply same_rebuilt; auto. Qed.

  Lemma any_inside_tag q anc x : any_inside [q] anc x = true -> h_tag (head x) = q.
  Proof.
    unfold any_inside, named_in, named. cbn [existsb]. intro H. apply andb_true_iff in H as [_ H]. rewrite orb_false_r in H.
    destruct (h_kind (head x)); try discriminate. apply qn_eqb_eq. exact H.
  Qed.

  Lemma retains_dropped q G : In q cybox_2_0_1_replaced -> preserved (retains k w) (rewrite_all (any_inside [q]) G).
  Proof.
    intro I. apply retains_rewrite. intros p anc x e P _ R _. apply any_inside_tag in P. elim R. left. rewrite P. exact I.
  Qed.

  Lemma named_in_tag qs x : named_in qs x = true -> In (h_tag (head x)) qs.
  Proof.
    unfold named_in, named. intro H. apply existsb_exists in H as (q & I & H). destruct (h_kind (head x)); try discriminate.
    apply qn_eqb_eq in H. rewrite H. exact I.
  Qed.

  Lemma child_in_tags ps q p anc x : child_in ps q (p :: anc) x = true -> In (h_tag (head p)) ps /\ h_tag (head x) = q.
  Proof.
    unfold child_in, child_of. intro H. apply andb_true_iff in H as [H1 H2]. apply andb_true_iff in H1 as [H1 _].
    split; [apply named_in_tag; exact H1|]. unfold named in H2. destruct (h_kind (head x)); try discriminate. apply qn_eqb_eq. exact H2.
  Qed.

  Lemma retains_sources G : preserved (retains k w) (rewrite_all (child_in sourced (common "Source")) G).
  Proof.
    apply retains_rewrite. intros p anc x e P _ R _. apply child_in_tags in P as [P1 P2]. elim R. right. left. auto.
  Qed.

  Lemma retains_sighting G : preserved (retains k w) (rewrite_all (child_in [indicator "Sighting"] (indicator "Source")) G).
  Proof.
    apply retains_rewrite. intros p anc x e P _ R _. apply child_in_tags in P as [P1 P2]. elim R. right. right.
    destruct P1 as [P1|[]]. auto.
  Qed.

  Lemma retains_wrapped ps q wrapper : in_special q = false -> in_special wrapper = false ->
    preserved (retains k w) (rewrite_all (child_in ps q) (wrap wrapper)).
  Proof.
    intros Sq Sw. apply retains_rewrite. intros p anc x e P E R Kx. injection E as <-. apply child_in_tags in P as [_ P].
    split; [apply plain_field, not_special; exact Sw|]. apply retains_below with x; [reflexivity|left; reflexivity| |exact Kx].
    apply plain_field. rewrite P. apply not_special. exact Sq.
  Qed.

  Lemma retains_wrapped_renamed ps q wrapper new : in_special new = false -> in_special wrapper = false ->
    preserved (retains k w) (rewrite_all (child_in ps q) (wrap_renamed wrapper new)).
  Proof.
    intros Sq Sw. apply retains_rewrite. intros p anc x e P E R Kx. injection E as <-.
    split; [apply plain_field, not_special; exact Sw|]. apply retains_below with (renamed_to new x); [reflexivity|left; reflexivity| |].
    - apply plain_field, not_special. exact Sq.
    - destruct x as [h ks]. apply retains_head with h; [apply same_tag; exact Sq|exact Kx].
  Qed.

  Lemma retains_contributors : preserved (retains k w) (rewrite_all (any_inside [common "Contributors"]) (contributing_sources NS_COMMON)).
  Proof.
    apply retains_rewrite. intros p anc x e P E R Kx. apply any_inside_tag in P. unfold contributing_sources in E.
    destruct (forallb is_elem (kids x)); [|discriminate]. injection E as <-.
    split; [apply plain_field, not_special; reflexivity|].
    destruct x as [h ks]. cbn [head] in P. inversion Kx as [? ? K T N G|? ? c K I Rc Kc]; subst; [contradiction|].
    eapply retains_below; [reflexivity|apply in_map; exact I| |].
    - apply plain_parent; [apply not_special; reflexivity|]. simpl. intuition discriminate.
    - eapply retains_below; [reflexivity|left; reflexivity|apply plain_field, not_special; reflexivity|].
      destruct c as [hc kc]. apply retains_head with hc; [apply same_tag; reflexivity|exact Kc].
  Qed.

  Lemma retains_unwrap q inner new : In q cybox_2_0_1_replaced -> preserved (retains k w) (always (unwrap_pass q inner new)).
  Proof.
    intro I. apply preserved_always. intros t. apply retains_subst. intros p anc x l E R Kx.
    destruct (inside (p :: anc) && named q x) eqn:N; [|discriminate]. apply andb_true_iff in N as [_ N].
    elim R. left. unfold named in N. destruct (h_kind (head x)); try discriminate. apply qn_eqb_eq in N. rewrite N. exact I.
  Qed.

  Lemma retains_optional p : preserved (retains k w) (always (optional_pass p)).
  Proof. apply preserved_always. intros t. apply retains_prune. intros anc x H. apply andb_true_iff in H as [_ H]. exact H. Qed.

  Lemma retains_optional_in a b : preserved (retains k w) (optional_in_type a b).
  Proof.
    intros t e E. unfold optional_in_type in E. destruct (first_err _ _); [discriminate|]. injection E as <-.
    apply retains_prune. intros anc x H. destruct anc as [|p anc]; [discriminate|]. apply andb_true_iff in H as [_ H]. exact H.
  Qed.

  Lemma retains_vocabs l : preserved (retains k w) (passes vocab_pass l).
  Proof. apply preserved_passes. intros v _. apply retains_vocab. exact Hk. Qed.

  Ltac one :=
    first [ apply retains_schemaloc | apply retains_stix_stamp | apply retains_cybox_stamp_1 | apply retains_cybox_stamp_2
          | apply retains_lists | apply retains_rename; reflexivity | apply retains_move; vm_compute; reflexivity
          | apply retains_dropped; simpl; tauto | apply retains_sources | apply retains_sighting | apply retains_contributors
          | apply retains_wrapped; reflexivity | apply retains_wrapped_renamed; reflexivity | apply retains_unwrap; simpl; tauto
          | apply retains_optional | apply retains_optional_in | apply retains_vocabs | apply retains_vocab; exact Hk ].
  Ltac each :=
    repeat match goal with
           | |- preserved _ (in_order (_ :: _)) => apply preserved_cons
           | |- preserved _ (in_order []) => apply preserved_nil
           | |- preserved _ (when _ _) => apply preserved_when
           | |- preserved _ _ => one
           end.

  Lemma retains_2_0 marked opts : preserved (retains k w) (cybox_2_0_step marked opts).
  Proof. unfold cybox_2_0_step. each. Qed.
  Lemma retains_2_0_1 marked opts : preserved (retains k w) (cybox_2_0_1_step marked opts).
  Proof. unfold cybox_2_0_1_step. each. Qed.

  Lemma stix_step_retains o opts v f : stix_step o opts v = Some f -> preserved (retains k w) f.
  Proof.
    intro E. unfold stix_step in E. by_version E.
    - unfold stix_1_0_step. each. apply retains_2_0.
    - unfold stix_1_0_1_step. each. apply retains_2_0_1.
    - unfold stix_1_1_step. each.
    - unfold stix_1_1_1_step. each.
    - unfold stix_1_2_step. each. apply preserved_always. intros t H. apply retains_on_root; auto. apply same_set. apart.
  Qed.

  Lemma cybox_step_retains opts v f : cybox_step opts v = Some f -> preserved (retains k w) f.
  Proof. intro E. unfold cybox_step in E. by_version E; [apply retains_2_0|apply retains_2_0_1]. Qed.
End Steps.

(** ** Numbering *)

Lemma retains_erase k w t : retains k w t <-> retains k w (erase t).
Proof.
  tree_induction t. cbn [erase]. split; intro H.
  - inversion H as [? ? K T N G|? ? c K I R Kc]; subst; [apply retains_here; assumption|].
    apply retains_below with (erase c); [exact K|apply in_map; exact I| |exact (proj1 (IH c I) Kc)]. destruct c; exact R.
  - inversion H as [? ? K T N G|? ? c K I R Kc]; subst; [apply retains_here; assumption|].
    apply in_map_iff in I as (c0 & <- & I). apply retains_below with c0; [exact K|exact I| |exact (proj2 (IH c0 I) Kc)]. destruct c0; exact R.
Qed.

Lemma retains_content k w t e : erase t = erase e -> retains k w t -> retains k w e.
Proof. intros E H. apply retains_erase. rewrite <- E. apply (proj1 (retains_erase k w t)). exact H. Qed.

Lemma shows_erase k w t : shows k w t -> shows k w (erase t).
Proof.
  tree_induction t. intros (x & I & E & G). cbn [nodes] in I. destruct I as [<-|I].
  - exists (erase (Node h ks)). split; [apply nodes_self|]. auto.
  - apply in_flat_map in I as (c & Ic & Ix). destruct (IH c Ic) as (y & Iy & Y); [exists x; auto|].
    exists y. split; [|exact Y]. cbn [erase nodes]. right. apply in_flat_map. exists (erase c). split; [apply in_map; exact Ic|exact Iy].
Qed.

(** ** Cleaning *)

Lemma retains_fresh k w f g l t :
  (forall x, In x (nodes t) -> k = lq "id" -> attr_get k (h_attr (head x)) = Some w -> position (tid x) l = None) ->
  retains k w t -> retains k w (fresh_ids f g l t).
Proof.
  unfold fresh_ids.
  set (F := fun (_ : list tree) (x : tree) => match position (tid x) l, id_of x with
                   | Some n, Some old => hset_attr (lq "id") (f (g + n) old) (head x)
                   | _, _ => head x
                   end).
  assert (TF : forall b x, h_tag (F b x) = h_tag (head x) /\ h_kind (F b x) = h_kind (head x)).
  { intros b x. unfold F. destruct (position (tid x) l); [destruct (id_of x)|]; auto. }
  generalize (@nil tree). tree_induction t. intros anc H Hk. cbn [edit].
  inversion Hk as [? ? K T N G|? ? c K I R Kc]; subst.
  - destruct (TF anc (Node h ks)) as [T1 T2]. apply retains_here; [rewrite T2; exact K|rewrite T1; exact T| |].
    + unfold F. destruct (position (tid (Node h ks)) l); [destruct (id_of (Node h ks))|]; auto. apply attr_set_NoDup. exact N.
    + unfold F. destruct (position (tid (Node h ks)) l) as [n|] eqn:P; [destruct (id_of (Node h ks)) as [old|] eqn:Io|]; auto.
      cbn [hset_attr set_attrs h_attr]. rewrite RefineBase.attr_get_set. destruct (qn_eqb k (lq "id")) eqn:E; [|exact G].
      apply qn_eqb_eq in E. pose proof (H (Node h ks) (nodes_self _) E G). congruence.
  - destruct (TF anc (Node h ks)) as [T1 T2]. apply retains_below with (edit F (Node h ks :: anc) c); [rewrite T2; exact K|apply in_map; exact I| |].
    + rewrite T1. destruct c as [hc kc]. cbn [edit head]. rewrite (proj1 (TF _ _)). exact R.
    + apply IH; auto. intros x Ix. apply H. eapply nodes_below; eauto.
Qed.

Lemma same_node T x y : NoDup (ids T) -> In x (nodes T) -> In y (nodes T) -> tid x = tid y -> x = y.
Proof.
  intros N Hx Hy E. apply nodes_in in Hx as (a & Hx). apply nodes_in in Hy as (b & Hy).
  pose proof (visits_keys_NoDup T [] N) as M. assert (X : (a, x) = (b, y)); [|congruence].
  revert Hx Hy M. generalize (visits [] T). intros l Hx Hy M. clear N. induction l as [|c l IH]; [destruct Hx|].
  cbn [map] in M. inversion M as [|? ? M1 M2]; subst. destruct Hx as [Hx|Hx], Hy as [Hy|Hy]; auto; try congruence; exfalso; apply M1.
  - subst c. cbn [snd]. rewrite E. apply in_map_iff. exists (b, y). auto.
  - subst c. cbn [snd]. rewrite <- E. apply in_map_iff. exists (a, x). auto.
Qed.

(** The nodes on the way are not cut. *)
Definition cut (l : list nat) (anc : list tree) (t : tree) : tree :=
  subst_nodes (fun _ x => if existsb (Nat.eqb (tid x)) l then Some [] else None) anc t.

Lemma cut_anc l t : forall a b, cut l a t = cut l b t.
Proof.
  tree_induction t. intros a b. unfold cut. cbn [subst_nodes]. f_equal. apply flat_map_ext_in. intros c Hc.
  destruct (existsb _ _); auto. f_equal. apply (IH c Hc).
Qed.

Lemma without_cut l t a : without l t = cut l a t.
Proof. unfold without, prune. change (cut l [] t = cut l a t). apply cut_anc. Qed.

Lemma cut_head l a t : head (cut l a t) = head t.
Proof. destruct t as [h ks]. reflexivity. Qed.

(** Taking one more node out. *)
Lemma retains_taken k w before i t : retains k w (without before t) ->
  retains k w (without (before ++ [i]) t) \/ exists x, In x (nodes t) /\ tid x = i /\ retains k w (without before x).
Proof.
  rewrite (without_cut before t []), (without_cut (before ++ [i]) t []). generalize (@nil tree).
  tree_induction t. intros anc H. unfold cut in H. cbn [subst_nodes] in H. inversion H as [? ? K T N G|? ? c K I R Kc]; subst.
  - left. constructor; auto.
  - apply in_flat_map in I as (c0 & Ic & I). destruct (existsb (Nat.eqb (tid c0)) before) eqn:E; [destruct I|]. destruct I as [<-|[]].
    change (retains k w (cut before (Node h ks :: anc) c0)) in Kc.
    destruct (Nat.eq_dec (tid c0) i) as [Ei|Ei].
    + right. exists c0. split; [eapply nodes_below; [exact Ic|apply nodes_self]|]. split; [exact Ei|]. erewrite without_cut. exact Kc.
    + destruct (IH c0 Ic (Node h ks :: anc) Kc) as [L|(x & Ix & Tx & Kx)].
      * left. unfold cut. cbn [subst_nodes]. apply retains_below with (cut (before ++ [i]) (Node h ks :: anc) c0); [exact K| | |exact L].
        -- apply in_flat_map. exists c0. split; [exact Ic|]. rewrite existsb_app, E. cbn [existsb orb].
           rewrite (proj2 (Nat.eqb_neq _ _) Ei). left. reflexivity.
        -- rewrite cut_head. change (~ replaced_field (h_tag h) (h_tag (head (cut before (Node h ks :: anc) c0)))) in R. rewrite cut_head in R. exact R.
      * right. exists x. split; [eapply nodes_below; eauto|auto].
Qed.

Lemma retains_removed k w l : forall before t, retains k w (without before t) ->
  retains k w (without (before ++ l) t) \/ exists x, In x (taken before l t) /\ retains k w x.
Proof.
  induction l as [|i l IH]; intros before t H; [left; rewrite app_nil_r; exact H|].
  apply (retains_taken k w before i t) in H as [H|(x & Ix & Tx & Kx)].
  - destruct (IH (before ++ [i])%list t H) as [L|(x & Ix & Kx)].
    + left. rewrite <- app_assoc in L. exact L.
    + right. exists x. split; [|exact Kx]. cbn [taken]. apply in_app_iff. right. exact Ix.
  - right. exists (without before x). split; [|exact Kx]. cbn [taken]. apply in_app_iff. left. apply in_map. apply filter_In.
    split; [|apply Nat.eqb_eq; exact Tx]. apply nodes_in in Ix as (a & Ix). apply in_map_iff. exists (a, x). auto.
Qed.

Lemma without_nothing t : without [] t = t.
Proof.
  rewrite (without_cut [] t []). generalize (@nil tree). tree_induction t. intro a. unfold cut. cbn [subst_nodes existsb]. f_equal.
  transitivity (flat_map (fun c => [c]) ks); [|clear IH; induction ks; cbn; congruence].
  apply flat_map_ext_in. intros c Hc. f_equal. apply (IH c Hc).
Qed.

(** The ids under which a dictionary lists nodes of the document. *)
Definition entries (T : tree) (d : dict (list nat)) : Prop :=
  forall old b i, In (old, b) d -> In i b -> exists x, In x (nodes T) /\ tid x = i /\ id_of x = Some old.

Lemma retains_cleaned k w f g d T : NoDup (ids T) -> entries T (snd d) -> retains k w T ->
  retains k w (cleaned f g d T) \/ (exists x, In x (removed_content f g d T) /\ retains k w x) \/
  k = lq "id" /\ In w (map fst (snd d)).
Proof.
  intros N En H. assert (Dk : {In w (map fst (snd d))} + {~ In w (map fst (snd d))}) by (apply in_dec, string_dec).
  assert (Dq : k = lq "id" \/ k <> lq "id").
  { destruct (qn_eqb k (lq "id")) eqn:E; [left; apply qn_eqb_eq; exact E|right; apply qn_eqb_neq; exact E]. }
  assert (D : k = lq "id" /\ In w (map fst (snd d)) \/ (k = lq "id" -> ~ In w (map fst (snd d)))) by tauto. clear Dk Dq.
  destruct D as [D|D]; [auto|]. assert (F : retains k w (fresh_ids f g (renumbered d) T)).
  { apply retains_fresh; auto. intros x Ix Ek G. destruct (position (tid x) (renumbered d)) as [n|] eqn:P; [|reflexivity]. exfalso.
    apply (D Ek). assert (I : In (tid x) (renumbered d)).
    { clear - P. revert n P. generalize (renumbered d). intro l. induction l as [|j l IH]; intros n P; [discriminate|]. simpl in P.
      destruct (Nat.eqb_spec (tid x) j); [left; auto|]. destruct (position (tid x) l) as [m|]; [|discriminate]. right. eapply IH. reflexivity. }
    apply in_flat_map in I as ([old b] & I1 & I2). destruct (En old b _ I1 I2) as (y & Iy & Ty & Oy).
    assert (x = y) by (eapply same_node; eauto). subst y. unfold id_of in Oy. rewrite Ek in G. assert (old = w) by congruence. subst old.
    apply in_map_iff. exists (w, b). auto. }
  pose proof (retains_removed k w (fst d) [] (fresh_ids f g (renumbered d) T)) as X. rewrite without_nothing in X.
  destruct (X F) as [L|(x & Ix & Kx)]; [left; exact L|right; left; exists x; auto].
Qed.

Lemma stix_entries o v D T d : stix_dirt o v = Some D -> D T = Ok d -> entries T (snd d).
Proof.
  intros E Ed. unfold stix_dirt in E. by_version E;
    try (destruct (untranslatable _ _) as [l|]; [|discriminate]; cbn [rbind] in Ed); try discriminate; injection Ed as <-; intros old b i H Hi;
    try destruct H. apply (with_bearers_entry _ _ _ _ _ _ H) in Hi as (a & x & Hx & Tx & Ix). exists x. split; [apply nodes_in; eauto|auto].
Qed.

Lemma cybox_entries v D T d : cybox_dirt v = Some D -> D T = Ok d -> entries T (snd d).
Proof.
  intros E Ed. unfold cybox_dirt in E. by_version E;
    try (destruct (untranslatable _ _) as [l|]; [|discriminate]; cbn [rbind] in Ed); try discriminate; injection Ed as <-; intros old b i H Hi;
    try destruct H. apply (with_bearers_entry _ _ _ _ _ _ H) in Hi as (a & x & Hx & Tx & Ix). exists x. split; [apply nodes_in; eauto|auto].
Qed.

(** ** One step, several steps *)

Definition found (k : qname) (w : string) (e : tree) (l : list tree) (keys : list string) : Prop :=
  retains k w e \/ (exists x, In x l /\ retains k w x) \/ k = lq "id" /\ In w keys.

Lemma single_retains k w c D f new_id force g T oc : NoDup (ids T) ->
  (forall d, D T = Ok d -> entries T (snd d)) -> preserved (retains k w) f ->
  single c D f new_id force g T = Ok oc -> retains k w T ->
  found k w (new_document oc) (removed_subtrees oc) (map fst (replaced oc)) /\
  (force = false -> retains k w (new_document oc)).
Proof.
  intros N En P S H. unfold single in S. destruct (c T) as [u|x].
  - destruct (f (erase T)) as [e|] eqn:E; [|discriminate]. injection S as <-. cbn [new_document].
    assert (R : retains k w e) by (eapply P; [exact E|apply (proj1 (retains_erase k w T)); exact H]). split; [left; exact R|auto].
  - destruct (force && forceable x) eqn:Fo; [|discriminate]. apply andb_true_iff in Fo as [-> _]. split; [|discriminate].
    destruct (D T) as [d|] eqn:Ed; [|discriminate]. cbn [rbind] in S.
    destruct (f (erase (cleaned new_id g d T))) as [e|] eqn:E; [|discriminate]. injection S as <-. cbn [new_document removed_subtrees replaced].
    destruct (retains_cleaned k w new_id g d T N (En d eq_refl) H) as [R|[(x0 & Ix & Kx)|R]].
    + left. eapply P; [exact E|]. apply (proj1 (retains_erase k w _)). exact R.
    + right. left. exists (erase x0). split; [apply in_map; exact Ix|]. apply (proj1 (retains_erase k w _)). exact Kx.
    + right. right. exact R.
Qed.

Lemma chain_retains k w one force : (forall v g T oc, NoDup (ids T) -> one v g T = Ok oc -> retains k w T ->
    found k w (new_document oc) (removed_subtrees oc) (map fst (replaced oc)) /\ (force = false -> retains k w (new_document oc))) ->
  forall vs g t e l ds, chain one vs g t = Ok (e, l, ds) -> retains k w t ->
  found k w e l (flat_map (map fst) ds) /\ (force = false -> retains k w e).
Proof.
  intro H. induction vs as [|v vs IH]; intros g t e l ds E R.
  - injection E as <- <- <-. split; [left; exact R|auto].
  - cbn [chain] in E. destruct (one v g (numbered 0 t)) as [oc|] eqn:E1; [|discriminate]. cbn [rbind] in E.
    destruct (chain one vs (g + replacements oc) (new_document oc)) as [[[e' l'] ds']|] eqn:E2; [|discriminate]. cbn [rbind] in E.
    injection E as <- <- <-. apply H in E1 as [F1 F2];
      [|unfold numbered; rewrite renum_ids; apply seq_NoDup|eapply retains_content; [symmetry; apply numbered_erase|exact R]].
    split.
    + destruct F1 as [F1|[(x & Ix & Kx)|[-> F1]]].
      * destruct (IH _ _ _ _ _ E2 F1) as [[F|[(x & Ix & Kx)|[-> F]]] _].
        -- left. exact F.
        -- right. left. exists x. split; [apply in_app_iff; auto|exact Kx].
        -- right. right. split; [reflexivity|]. cbn [flat_map]. apply in_app_iff. auto.
      * right. left. exists x. split; [apply in_app_iff; auto|exact Kx].
      * right. right. split; [reflexivity|]. cbn [flat_map]. apply in_app_iff. auto.
    + intro Fo. exact (proj2 (IH _ _ _ _ _ E2 (F2 Fo)) Fo).
Qed.

Lemma dict_set_keys {A} k (v : A) d x : In x (map fst d) \/ x = k -> In x (map fst (dict_set k v d)).
Proof.
  unfold dict in *. induction d as [|[a b] d IH]; simpl; intro H.
  - destruct H as [[]| ->]. auto.
  - destruct (String.eqb k a) eqn:E; simpl.
    + destruct H as [[H|H]|H]; auto. left. apply String.eqb_eq in E. congruence.
    + destruct H as [[H|H]|H]; auto.
Qed.

Lemma dict_update_keys {A} (e d : dict A) x : In x (map fst d) \/ In x (map fst e) -> In x (map fst (dict_update d e)).
Proof.
  unfold dict_update. unfold dict in *. revert d. induction e as [|[a b] e IH]; simpl; intros d H.
  - destruct H as [H|[]]. exact H.
  - apply IH. destruct H as [H|[H|H]]; auto; left; apply dict_set_keys; auto.
Qed.

Lemma merge_keys x ds : forall ns base, length ns = length ds -> In x (map fst base) \/ In x (flat_map (map fst) ds) ->
  In x (map fst (merge base ns ds)).
Proof.
  unfold merge. induction ds as [|d ds IH]; intros [|n ns] base L H; try discriminate.
  - destruct H as [H|[]]. exact H.
  - cbn [combine fold_left fst snd]. apply IH; [injection L; auto|]. cbn [flat_map] in H. rewrite in_app_iff in H.
    destruct H as [H|[H|H]]; auto; left; apply dict_update_keys; auto. right. unfold shift_dict. rewrite map_map. exact H.
Qed.

Lemma ran k w m s t one force vs g r s' : retains k w t ->
  (forall v g T oc, NoDup (ids T) -> one v g T = Ok oc -> retains k w T ->
    found k w (new_document oc) (removed_subtrees oc) (map fst (replaced oc)) /\ (force = false -> retains k w (new_document oc))) ->
  runs_chain m s (chain one vs g (erase t)) -> m s = (Ok r, s') ->
  accounted_for k w s' r /\ (force = false -> exists new, document s' (r_document r) new /\ retains k w new).
Proof.
  intros R H Rn E. unfold runs_chain in Rn. destruct (chain one vs g (erase t)) as [[[e l] ds]|x] eqn:Ch.
  - destruct Rn as (r0 & s0 & ns & E0 & W & Doc & Rm & L & Mp). rewrite E in E0. injection E0 as <- <-.
    destruct (chain_retains k w one force H _ _ _ _ _ _ Ch (proj1 (retains_erase k w t) R)) as [F1 F2].
    split; [|intro Fo; exists e; auto].
    destruct F1 as [F|[(x & Ix & Kx)|[-> F]]].
    + left. eauto.
    + right. left. clear - Rm Ix Kx. induction Rm as [|i y ri yl Di Rm IH]; [destruct Ix|]. destruct Ix as [<-|Ix].
      * exists i, y. split; [left; reflexivity|auto].
      * destruct (IH Ix) as (j & z & Ij & Z). exists j, z. split; [right; exact Ij|exact Z].
    + right. right. split; [reflexivity|]. rewrite Mp. apply merge_keys; auto.
  - destruct Rn as (n & s0 & E0). rewrite E in E0. discriminate.
Qed.

Lemma stix_retains k w o d from to opts force s t r s' : ~ In k set_by_steps -> wf_state s -> denotes s d t -> retains k w t ->
  stix_update o d from to opts force s = (Ok r, s') ->
  accounted_for k w s' r /\ (force = false -> exists new, document s' (r_document r) new /\ retains k w new).
Proof.
  intros Hk W D R E. pose proof (stix_validation o d from to opts force s t W D) as V. cbv zeta in V.
  destruct (stix_start from t) as [a|] eqn:Ea; [|rewrite V in E; discriminate].
  set (b := match given to with Some b => b | None => "1.2.1" end) in *.
  destruct stix_table_ok as [_ N]. destruct (older_dec STIX_VERSIONS a b N) as [Ho|Ho]; [|rewrite (proj1 V Ho) in E; discriminate].
  pose proof (slice_between _ _ _ N Ho) as B.
  pose proof (stix_update_runs o d from to opts force s t a _ W D Ea B) as Rn.
  eapply ran; [exact R| |exact Rn|exact E].
  intros v g T oc Nd S RT. unfold stix_single in S. destruct (stix_check o _ v) as [c|]; [|discriminate].
  destruct (stix_dirt o v) as [Di|] eqn:Ed; [|discriminate]. destruct (stix_step o _ v) as [f|] eqn:Ef; [|discriminate].
  eapply single_retains; [exact Nd| | |exact S|exact RT].
  - intros d0 H0. eapply stix_entries; eauto.
  - eapply stix_step_retains; eauto.
Qed.

Lemma cybox_retains k w o d from to opts force s t r s' : ~ In k set_by_steps -> wf_state s -> denotes s d t -> retains k w t ->
  cybox_update o d from to opts force s = (Ok r, s') ->
  accounted_for k w s' r /\ (force = false -> exists new, document s' (r_document r) new /\ retains k w new).
Proof.
  intros Hk W D R E. pose proof (cybox_validation o d from to opts force s t W D) as V. cbv zeta in V.
  destruct (cybox_start from t) as [a|] eqn:Ea; [|rewrite V in E; discriminate].
  set (b := match given to with Some b => b | None => "2.1" end) in *.
  destruct cybox_table_ok as [_ N]. destruct (older_dec CYBOX_VERSIONS a b N) as [Ho|Ho]; [|rewrite (proj1 V Ho) in E; discriminate].
  pose proof (slice_between _ _ _ N Ho) as B.
  pose proof (cybox_update_runs o d from to opts force s t a _ W D Ea B) as Rn.
  eapply ran; [exact R| |exact Rn|exact E].
  intros v g T oc Nd S RT. unfold cybox_single in S. destruct (cybox_check _ v) as [c|]; [|discriminate].
  destruct (cybox_dirt v) as [Di|] eqn:Ed; [|discriminate]. destruct (cybox_step _ v) as [f|] eqn:Ef; [|discriminate].
  eapply single_retains; [exact Nd| | |exact S|exact RT].
  - intros d0 H0. eapply cybox_entries; eauto.
  - eapply cybox_step_retains; eauto.
Qed.
