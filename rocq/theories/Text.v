(** * Proofs: text that no step loses. *)

From Coq Require Import String Ascii List Bool Arith Lia.
From Verif Require Import Str Xml XPath Utils Base Tables Cybox Stix Ramrod Spec SpecDoc SpecPass SpecStep
  SpecCheck SpecClean SpecUpdate SpecTrace SpecIds SpecText Lib Api Frame Refine RefineBase RefineTrans RefineLists RefineSteps RefineCheck
  RefineClean Relabel RefineUpdate Updates Reports UpdateFacts Trace Fields Carried Vocab Marks Worked Follow Natural Root Kept Declared Cleaned Faults Translated Codec Ids Refs.
Import ListNotations.
Local Open Scope string_scope.

Section Text.
  Variable w : string.
  Hypothesis Hw : ordinary w.

  (** A header whose text is still [w]. *)
  Definition same_words (h h' : hdr) : Prop :=
    h_kind h' = h_kind h /\ tag_ok (h_tag h) (h_tag h') /\ (h_text h = Some w -> h_text h' = Some w).

  Lemma words_refl h : same_words h h.
  Proof. split; [|split]; auto. left. reflexivity. Qed.

  Lemma words_trans h1 h2 h3 : same_words h1 h2 -> same_words h2 h3 -> same_words h1 h3.
  Proof.
    intros (A1 & A2 & A3) (B1 & B2 & B3). split; [congruence|]. split; [eapply tag_ok_trans; eauto|auto].
  Qed.

  Lemma words_set q v h : same_words h (hset_attr q v h).
  Proof. split; [reflexivity|]. split; [left; reflexivity|]. auto. Qed.

  Lemma words_del q h : same_words h (hdel_attr q h).
  Proof. split; [reflexivity|]. split; [left; reflexivity|]. auto. Qed.

  Lemma words_tag q h : in_special q = false -> same_words h (set_tag q h).
  Proof. intro H. split; [reflexivity|]. split; [right; apply not_special; exact H|]. auto. Qed.

  Lemma words_convert h : same_words h (convert_text h).
  Proof.
    unfold convert_text. destruct (h_text h) as [s|] eqn:E; [|apply words_refl]. destruct (String.eqb s ""); [apply words_refl|].
    split; [reflexivity|]. split; [left; reflexivity|]. rewrite E. intro X. injection X as ->. cbn [set_text h_text]. f_equal.
    destruct Hw as (_ & _ & A & B). rewrite (replace_none "," "##comma##" w); [|intros (a & b & X); exact (A a b X)].
    apply replace_none. intros (a & b & X). exact (B a b X).
  Qed.

  Lemma says_elem t : says w t -> h_kind (head t) = KElem.
  Proof. intro H. destruct H; assumption. Qed.

  Lemma says_head h h' ks : same_words h h' -> says w (Node h ks) -> says w (Node h' ks).
  Proof.
    intros (A & B & C) H. inversion H as [? K T G|? ? c K I R Kc]; subst.
    - constructor; [congruence| |auto]. destruct B as [->|B]; [exact T|]. intro E. apply B. rewrite E. simpl. auto.
    - apply says_below with c; [congruence|exact I| |exact Kc]. eapply field_ok; [exact B|left; reflexivity|exact R].
  Qed.

  Lemma says_edit f : (forall b y, same_words (head y) (f b y)) -> forall t anc, says w t -> says w (edit f anc t).
  Proof.
    intros H t. tree_induction t. intros anc Hk. cbn [edit]. apply says_head with h; [apply (H anc (Node h ks))|].
    inversion Hk as [? K T G|? ? c K I R Kc]; subst; [constructor; auto|].
    apply says_below with (edit f (Node h ks :: anc) c); [exact K|apply in_map; exact I| |apply IH; auto].
    destruct c as [hc kc]. eapply field_ok; [left; reflexivity| |exact R]. cbn [edit head].
    destruct (H (Node h ks :: anc) (Node hc kc)) as (_ & B & _). exact B.
  Qed.

  Lemma says_subst F :
    (forall p anc x l, F (p :: anc) x = Some l -> ~ replaced_field (h_tag (head p)) (h_tag (head x)) -> says w x ->
       exists z, In z l /\ ~ replaced_field (h_tag (head p)) (h_tag (head z)) /\ says w z) ->
    forall t anc, says w t -> says w (subst_nodes F anc t).
  Proof.
    intros H t. tree_induction t. intros anc Hk. cbn [subst_nodes].
    inversion Hk as [? K T G|? ? c K I R Kc]; subst; [constructor; auto|].
    destruct (F (Node h ks :: anc) c) as [l|] eqn:E.
    - destruct (H _ _ _ _ E R Kc) as (z & Iz & Rz & Kz). apply says_below with z; [exact K| |exact Rz|exact Kz].
      apply in_flat_map. exists c. split; [exact I|]. rewrite E. exact Iz.
    - apply says_below with (subst_nodes F (Node h ks :: anc) c); [exact K| | |apply IH; auto].
      + apply in_flat_map. exists c. split; [exact I|]. rewrite E. left. reflexivity.
      + destruct c as [hc kc]. exact R.
  Qed.

  Lemma says_on_root g t : same_words (head t) (g (head t)) -> says w t -> says w (on_root g t).
  Proof. intros S H. destruct t as [h ks]. exact (says_head _ _ _ S H). Qed.

  (** *** Namespaces *)
  Lemma says_ns drop m : foreign m = true -> forall t anc, says w t -> says w (ns_pass drop m anc t).
  Proof.
    intros F.
    assert (S : forall b y, is_elem y = true -> moves m y = true ->
      h_kind (rebuilt drop m b y) = h_kind (head y) /\ tag_ok (h_tag (head y)) (h_tag (rebuilt drop m b y))).
    { intros b y El M. destruct (same_rebuilt (lq "id") drop m b y F El M) as (A & B & _). auto. }
    intro t. tree_induction t. intros anc Hk. pose proof (says_elem _ Hk) as Ke. cbn [ns_pass]. cbn [head] in Ke.
    assert (Ee : is_elem (Node h ks) = true) by (unfold is_elem; cbn [head]; rewrite Ke; reflexivity).
    inversion Hk as [? K T G|? ? c K I R Kc]; subst.
    - cbn [map]. destruct (moves m (Node h [])) eqn:M; [|constructor; auto]. destruct (S anc _ Ee M) as [A B]. constructor.
      + rewrite A. exact K.
      + destruct B as [->|B]; [exact T|]. intro E. apply B. rewrite E. simpl. auto.
      + cbn [rebuilt kids h_text head]. exact G.
    - pose proof (says_elem _ Kc) as Kec. assert (El : is_elem c = true) by (unfold is_elem; rewrite Kec; reflexivity).
      apply says_below with (ns_pass drop m (Node h ks :: anc) c); [| | |apply IH; auto].
      + destruct (moves m (Node h ks)) eqn:M; [|exact K]. rewrite (proj1 (S anc _ Ee M)). exact K.
      + apply in_map_iff. exists c. rewrite El. auto.
      + eapply field_ok; [| |exact R].
        * destruct (moves m (Node h ks)) eqn:M; [|left; reflexivity]. exact (proj2 (S anc _ Ee M)).
        * destruct c as [hc kc]. cbn [ns_pass head]. destruct (moves m (Node hc kc)) eqn:M; [|left; reflexivity].
          exact (proj2 (S (Node h ks :: anc) _ El M)).
  Qed.

  (** *** Optional fields *)
  Lemma says_somewhere t : says w t -> exists x, In x (nodes t) /\ is_elem x = true /\ h_text (head x) = Some w.
  Proof.
    induction 1 as [h K T G|h ks c K I R Kc (x & Ix & X)].
    - exists (Node h []). split; [left; reflexivity|]. unfold is_elem. cbn [head]. rewrite K. auto.
    - exists x. split; [eapply nodes_below; eauto|exact X].
  Qed.

  Lemma says_not_blank t : says w t -> blank t = false.
  Proof.
    intro H. apply says_somewhere in H as (x & I & E & G). destruct (blank t) eqn:B; [|reflexivity].
    unfold blank in B. rewrite forallb_forall in B. apply nodes_in in I as (a & I). specialize (B _ I). cbn [snd] in B.
    rewrite E in B. cbn [negb orb] in B. apply andb_true_iff in B as [_ B]. rewrite G in B. destruct Hw as [Q _]. congruence.
  Qed.

  Lemma says_prune p t : (forall anc x, p anc x = true -> blank x = true) -> says w t -> says w (prune p t).
  Proof.
    intros H. apply says_subst. intros q anc x l E R Kx. destruct (p (q :: anc) x) eqn:P; [|discriminate].
    apply H in P. apply says_not_blank in Kx. congruence.
  Qed.

  (** *** Rewriting *)
  Lemma says_rewrite p G :
    (forall q anc x e, p (q :: anc) x = true -> G x = Ok e -> ~ replaced_field (h_tag (head q)) (h_tag (head x)) -> says w x ->
       ~ replaced_field (h_tag (head q)) (h_tag (head e)) /\ says w e) ->
    preserved (says w) (rewrite_all p G).
  Proof.
    intros H t e E A. unfold rewrite_all in E. destruct (first_err _ _); [discriminate|]. injection E as <-.
    apply says_subst; auto. intros q anc x l E R Kx. destruct (p (q :: anc) x) eqn:P; [|discriminate].
    destruct (G x) as [e'|] eqn:Gx; [|discriminate]. injection E as <-. exists e'. split; [left; reflexivity|]. eauto.
  Qed.

  Definition respelt_by (v : vocab) : Prop := forall s, In s (map fst (v_terms v)) -> In s (map fst respelt).

  Lemma says_vocab v : respelt_by v -> preserved (says w) (vocab_pass v).
  Proof.
    intros Hv t e E A. unfold vocab_pass in E. destruct (first_err type_of _); [discriminate|].
    destruct (first_err (upgraded v) _); [discriminate|]. injection E as <-.
    apply says_edit; auto. intros b y. destruct (outdated v (b, y)); [|apply words_refl].
    destruct (upgraded v (b, y)) as [h|] eqn:U; [|apply words_refl].
    unfold upgraded in U. destruct (type_of (b, y)) as [i|]; [|discriminate]. cbn [rbind] in U. unfold upgraded_with in U.
    cbn [snd] in U. set (h0 := head y) in *.
    assert (SIP : forall q s a h1 h2, set_if_present q s a h1 = Ok h2 -> same_words h1 h2).
    { intros q s a h1 h2 X. unfold set_if_present in X. destruct (has_attr q a); [|injection X as <-; apply words_refl].
      destruct s; [|discriminate]. injection X as <-. apply words_set. }
    destruct (set_if_present (lq "vocab_reference") _ _ _) as [h1|] eqn:E1 in U; [|discriminate]. cbn [rbind] in U.
    destruct (set_if_present (lq "vocab_name") _ _ _) as [h2|] eqn:E2 in U; [|discriminate]. cbn [rbind] in U. injection U as <-.
    apply SIP in E1. apply SIP in E2.
    assert (S2 : same_words h0 h2).
    { eapply words_trans; [apply words_set|]. eapply words_trans; [exact E1|exact E2]. }
    destruct (h_text h0) as [s|] eqn:Es; [|exact S2]. destruct (dict_get s (v_terms v)) as [new|] eqn:Ed; [|exact S2].
    destruct S2 as (A1 & A2 & A3). split; [exact A1|]. split; [exact A2|]. rewrite Es. intro X. injection X as ->. exfalso.
    destruct Hw as (_ & N & _). apply N, Hv. apply Located.dict_get_pair in Ed. apply in_map_iff. exists (w, new). auto.
  Qed.

  (** *** The steps *)
  Lemma says_schemaloc drop m1 m2 : preserved (says w) (always (schemaloc_pass drop m1 m2)).
  Proof.
    apply preserved_always. intros t H. apply says_on_root; auto.
    destruct (attr_get TAG_SCHEMALOCATION _); [|apply words_refl]. apply words_set.
  Qed.

  Lemma says_where p g : (forall h, same_words h (g h)) -> preserved (says w) (always (edit_where p g)).
  Proof.
    intro H. apply preserved_always. intros t R. apply says_edit; auto. intros b y. destruct (p b y); [apply H|apply words_refl].
  Qed.

  Lemma says_stix_stamp p a b : preserved (says w) (always (edit_where p (stamp_stix a b))).
  Proof. apply says_where. intro h. apply words_set. Qed.

  Lemma says_cybox_stamp_1 p : preserved (says w) (always (edit_where p stamp_cybox_2_0_1)).
  Proof. apply says_where. intro h. unfold stamp_cybox_2_0_1. repeat (eapply words_trans; [|apply words_set]). apply words_refl. Qed.

  Lemma says_cybox_stamp_2 p : preserved (says w) (always (edit_where p stamp_cybox_2_1)).
  Proof.
    apply says_where. intro h. unfold stamp_cybox_2_1. eapply words_trans; [|apply words_del].
    repeat (eapply words_trans; [|apply words_set]). apply words_refl.
  Qed.

  Lemma says_rename old new : in_special new = false -> preserved (says w) (rename old new).
  Proof. intro H. apply says_where. intro h. apply words_tag. exact H. Qed.

  Lemma says_lists obj prop : preserved (says w) (always (lists_pass obj prop)).
  Proof.
    apply preserved_always. intros t R. apply says_edit; auto. intros b y. destruct (is_elem y); [|apply words_refl].
    generalize (properties_above obj prop b). intro n. induction n as [|n IH]; cbn [repeat_edit]; [apply words_refl|].
    eapply words_trans; [exact IH|apply words_convert].
  Qed.

  Lemma says_move drop m : foreign m = true -> preserved (says w) (namespaces_pass drop m).
  Proof. intros F t e E R. apply namespaces_ok in E as ->. apply says_ns; auto. Qed.

  Lemma says_dropped q G : In q cybox_2_0_1_replaced -> preserved (says w) (rewrite_all (any_inside [q]) G).
  Proof.
    intro I. apply says_rewrite. intros p anc x e P _ R _. apply any_inside_tag in P. elim R. left. rewrite P. exact I.
  Qed.

  Lemma says_sources G : preserved (says w) (rewrite_all (child_in sourced (common "Source")) G).
  Proof.
    apply says_rewrite. intros p anc x e P _ R _. apply child_in_tags in P as [P1 P2]. elim R. right. left. auto.
  Qed.

  Lemma says_sighting G : preserved (says w) (rewrite_all (child_in [indicator "Sighting"] (indicator "Source")) G).
  Proof.
    apply says_rewrite. intros p anc x e P _ R _. apply child_in_tags in P as [P1 P2]. elim R. right. right.
    destruct P1 as [P1|[]]. auto.
  Qed.

  Lemma says_wrapped ps q wrapper : in_special q = false -> in_special wrapper = false ->
    preserved (says w) (rewrite_all (child_in ps q) (wrap wrapper)).
  Proof.
    intros Sq Sw. apply says_rewrite. intros p anc x e P E R Kx. injection E as <-. apply child_in_tags in P as [_ P].
    split; [apply plain_field, not_special; exact Sw|]. apply says_below with x; [reflexivity|left; reflexivity| |exact Kx].
    apply plain_field. rewrite P. apply not_special. exact Sq.
  Qed.

  Lemma says_wrapped_renamed ps q wrapper new : in_special new = false -> in_special wrapper = false ->
    preserved (says w) (rewrite_all (child_in ps q) (wrap_renamed wrapper new)).
  Proof.
    intros Sq Sw. apply says_rewrite. intros p anc x e P E R Kx. injection E as <-.
    split; [apply plain_field, not_special; exact Sw|]. apply says_below with (renamed_to new x); [reflexivity|left; reflexivity| |].
    - apply plain_field, not_special. exact Sq.
    - destruct x as [h ks]. apply says_head with h; [apply words_tag; exact Sq|exact Kx].
  Qed.

  Lemma says_contributors : preserved (says w) (rewrite_all (any_inside [common "Contributors"]) (contributing_sources NS_COMMON)).
  Proof.
    apply says_rewrite. intros p anc x e P E R Kx. apply any_inside_tag in P. unfold contributing_sources in E.
    destruct (forallb is_elem (kids x)); [|discriminate]. injection E as <-.
    split; [apply plain_field, not_special; reflexivity|].
    destruct x as [h ks]. cbn [head] in P. inversion Kx as [? K T G|? ? c K I Rc Kc]; subst; [contradiction|].
    eapply says_below; [reflexivity|apply in_map; exact I| |].
    - apply plain_parent; [apply not_special; reflexivity|]. simpl. intuition discriminate.
    - eapply says_below; [reflexivity|left; reflexivity|apply plain_field, not_special; reflexivity|].
      destruct c as [hc kc]. apply says_head with hc; [apply words_tag; reflexivity|exact Kc].
  Qed.

  Lemma says_unwrap q inner new : In q cybox_2_0_1_replaced -> preserved (says w) (always (unwrap_pass q inner new)).
  Proof.
    intro I. apply preserved_always. intros t. apply says_subst. intros p anc x l E R Kx.
    destruct (inside (p :: anc) && named q x) eqn:N; [|discriminate]. apply andb_true_iff in N as [_ N].
    elim R. left. unfold named in N. destruct (h_kind (head x)); try discriminate. apply qn_eqb_eq in N. rewrite N. exact I.
  Qed.

  Lemma says_optional p : preserved (says w) (always (optional_pass p)).
  Proof. apply preserved_always. intros t. apply says_prune. intros anc x H. apply andb_true_iff in H as [_ H]. exact H. Qed.

  Lemma says_optional_in a b : preserved (says w) (optional_in_type a b).
  Proof.
    intros t e E. unfold optional_in_type in E. destruct (first_err _ _); [discriminate|]. injection E as <-.
    apply says_prune. intros anc x H. destruct anc as [|p anc]; [discriminate|]. apply andb_true_iff in H as [_ H]. exact H.
  Qed.

  Lemma vocabularies_respelt v : In v vocabularies -> respelt_by v.
  Proof.
    intros I s H. assert (X : In s (flat_map (fun v => map fst (v_terms v)) vocabularies)) by (apply in_flat_map; eauto).
    vm_compute in X. vm_compute. tauto.
  Qed.

  Lemma says_vocabs l : incl l vocabularies -> preserved (says w) (passes vocab_pass l).
  Proof. intro I. apply preserved_passes. intros v Hv. apply says_vocab, vocabularies_respelt. auto. Qed.

  Ltac among := intros ? H; unfold vocabularies; simpl in H |- *; tauto.
  Ltac one :=
    first [ apply says_schemaloc | apply says_stix_stamp | apply says_cybox_stamp_1 | apply says_cybox_stamp_2
          | apply says_lists | apply says_rename; reflexivity | apply says_move; vm_compute; reflexivity
          | apply says_dropped; simpl; tauto | apply says_sources | apply says_sighting | apply says_contributors
          | apply says_wrapped; reflexivity | apply says_wrapped_renamed; reflexivity | apply says_unwrap; simpl; tauto
          | apply says_optional | apply says_optional_in | apply says_vocabs; among
          | apply says_vocab, vocabularies_respelt; unfold vocabularies; simpl; tauto ].
  Ltac each :=
    repeat match goal with
           | |- preserved _ (in_order (_ :: _)) => apply preserved_cons
           | |- preserved _ (in_order []) => apply preserved_nil
           | |- preserved _ (when _ _) => apply preserved_when
           | |- preserved _ _ => one
           end.

  Lemma says_2_0 marked opts : preserved (says w) (cybox_2_0_step marked opts).
  Proof. unfold cybox_2_0_step. each. Qed.
  Lemma says_2_0_1 marked opts : preserved (says w) (cybox_2_0_1_step marked opts).
  Proof. unfold cybox_2_0_1_step. each. Qed.

  Lemma stix_step_says o opts v f : stix_step o opts v = Some f -> preserved (says w) f.
  Proof.
    intro E. unfold stix_step in E. by_version E.
    - unfold stix_1_0_step. each. apply says_2_0.
    - unfold stix_1_0_1_step. each. apply says_2_0_1.
    - unfold stix_1_1_step. each.
    - unfold stix_1_1_1_step. each.
    - unfold stix_1_2_step. each. apply preserved_always. intros t H. apply says_on_root; auto. apply words_set.
  Qed.

  Lemma cybox_step_says opts v f : cybox_step opts v = Some f -> preserved (says w) f.
  Proof. intro E. unfold cybox_step in E. by_version E; [apply says_2_0|apply says_2_0_1]. Qed.

  (** *** Numbering and cleaning *)
  Lemma says_erase t : says w t <-> says w (erase t).
  Proof.
    tree_induction t. cbn [erase]. split; intro H.
    - inversion H as [? K T G|? ? c K I R Kc]; subst; [apply says_here; assumption|].
      apply says_below with (erase c); [exact K|apply in_map; exact I| |exact (proj1 (IH c I) Kc)]. destruct c; exact R.
    - inversion H as [? K T G|? ? c K I R Kc]; subst.
      + assert (ks = []) as -> by (destruct ks; [reflexivity|discriminate]). apply says_here; assumption.
      + apply in_map_iff in I as (c0 & <- & I). apply says_below with c0; [exact K|exact I| |exact (proj2 (IH c0 I) Kc)]. destruct c0; exact R.
  Qed.

  Lemma says_content t e : erase t = erase e -> says w t -> says w e.
  Proof. intros E H. apply says_erase. rewrite <- E. apply (proj1 (says_erase t)). exact H. Qed.

  Lemma says_fresh f g l t : says w t -> says w (fresh_ids f g l t).
  Proof.
    apply says_edit. intros b y. destruct (position (tid y) l); [destruct (id_of y)|]; apply words_set || apply words_refl.
  Qed.

  Lemma says_taken before i t : says w (without before t) ->
    says w (without (before ++ [i]) t) \/ exists x, In x (nodes t) /\ tid x = i /\ says w (without before x).
  Proof.
    rewrite (without_cut before t []), (without_cut (before ++ [i]) t []). generalize (@nil tree).
    tree_induction t. intros anc H. unfold cut in H. cbn [subst_nodes] in H. inversion H as [? K T G Eh|? ? c K I R Kc]; subst.
    - left. unfold cut. cbn [subst_nodes]. match goal with E : _ = flat_map _ ks |- _ => rename E into Hk | E : flat_map _ ks = _ |- _ => symmetry in E; rename E into Hk end.
      assert (Cut : forall c, In c ks -> existsb (Nat.eqb (tid c)) before = true).
      { intros c Ic. destruct (existsb (Nat.eqb (tid c)) before) eqn:E; [reflexivity|]. exfalso.
        match type of Hk with _ = ?l => assert (X : In (subst_nodes (fun _ x => if existsb (Nat.eqb (tid x)) before then Some [] else None) (Node h ks :: anc) c) l) end.
        { apply in_flat_map. exists c. rewrite E. split; [exact Ic|left; reflexivity]. }
        rewrite <- Hk in X. destruct X. }
      replace (flat_map _ ks) with (@nil tree); [constructor; auto|]. symmetry.
      match goal with |- flat_map ?F ks = [] => assert (Z : forall c, In c ks -> F c = []) by (intros c Ic; rewrite existsb_app, (Cut c Ic); reflexivity); revert Z; generalize F end.
      clear. intros F Z. induction ks as [|c ks IH]; [reflexivity|]. cbn [flat_map]. rewrite (Z c) by (left; reflexivity). apply IH. intros x Hx. apply Z. right. exact Hx.
    - apply in_flat_map in I as (c0 & Ic & I). destruct (existsb (Nat.eqb (tid c0)) before) eqn:E; [destruct I|]. destruct I as [<-|[]].
      change (says w (cut before (Node h ks :: anc) c0)) in Kc.
      destruct (Nat.eq_dec (tid c0) i) as [Ei|Ei].
      + right. exists c0. split; [eapply nodes_below; [exact Ic|apply nodes_self]|]. split; [exact Ei|]. erewrite without_cut. exact Kc.
      + destruct (IH c0 Ic (Node h ks :: anc) Kc) as [L|(x & Ix & Tx & Kx)].
        * left. unfold cut. cbn [subst_nodes]. apply says_below with (cut (before ++ [i]) (Node h ks :: anc) c0); [exact K| | |exact L].
          -- apply in_flat_map. exists c0. split; [exact Ic|]. rewrite existsb_app, E. cbn [existsb orb].
             rewrite (proj2 (Nat.eqb_neq _ _) Ei). left. reflexivity.
          -- rewrite cut_head. change (~ replaced_field (h_tag h) (h_tag (head (cut before (Node h ks :: anc) c0)))) in R. rewrite cut_head in R. exact R.
        * right. exists x. split; [eapply nodes_below; eauto|auto].
  Qed.

  Lemma says_removed l : forall before t, says w (without before t) ->
    says w (without (before ++ l) t) \/ exists x, In x (taken before l t) /\ says w x.
  Proof.
    induction l as [|i l IH]; intros before t H; [left; rewrite app_nil_r; exact H|].
    apply (says_taken before i t) in H as [H|(x & Ix & Tx & Kx)].
    - destruct (IH (before ++ [i])%list t H) as [L|(x & Ix & Kx)].
      + left. rewrite <- app_assoc in L. exact L.
      + right. exists x. split; [|exact Kx]. cbn [taken]. apply in_app_iff. right. exact Ix.
    - right. exists (without before x). split; [|exact Kx]. cbn [taken]. apply in_app_iff. left. apply in_map. apply filter_In.
      split; [|apply Nat.eqb_eq; exact Tx]. apply nodes_in in Ix as (a & Ix). apply in_map_iff. exists (a, x). auto.
  Qed.

  Lemma says_cleaned f g d T : says w T ->
    says w (cleaned f g d T) \/ exists x, In x (removed_content f g d T) /\ says w x.
  Proof.
    intro H. pose proof (says_removed (fst d) [] (fresh_ids f g (renumbered d) T)) as X. rewrite without_nothing in X.
    exact (X (says_fresh _ _ _ _ H)).
  Qed.

  (** *** Steps and chains *)
  Definition told (e : tree) (l : list tree) : Prop := says w e \/ exists x, In x l /\ says w x.

  Lemma single_says c D f new_id force g T oc : preserved (says w) f ->
    single c D f new_id force g T = Ok oc -> says w T ->
    told (new_document oc) (removed_subtrees oc) /\ (force = false -> says w (new_document oc)).
  Proof.
    intros P S H. unfold single in S. destruct (c T) as [u|x].
    - destruct (f (erase T)) as [e|] eqn:E; [|discriminate]. injection S as <-. cbn [new_document].
      assert (R : says w e) by (eapply P; [exact E|apply (proj1 (says_erase T)); exact H]). split; [left; exact R|auto].
    - destruct (force && forceable x) eqn:Fo; [|discriminate]. apply andb_true_iff in Fo as [-> _]. split; [|discriminate].
      destruct (D T) as [d|] eqn:Ed; [|discriminate]. cbn [rbind] in S.
      destruct (f (erase (cleaned new_id g d T))) as [e|] eqn:E; [|discriminate]. injection S as <-. cbn [new_document removed_subtrees replaced].
      destruct (says_cleaned new_id g d T H) as [R|(x0 & Ix & Kx)].
      + left. eapply P; [exact E|]. apply (proj1 (says_erase _)). exact R.
      + right. exists (erase x0). split; [apply in_map; exact Ix|]. apply (proj1 (says_erase _)). exact Kx.
  Qed.

  Lemma chain_says one force : (forall v g T oc, one v g T = Ok oc -> says w T ->
      told (new_document oc) (removed_subtrees oc) /\ (force = false -> says w (new_document oc))) ->
    forall vs g t e l ds, chain one vs g t = Ok (e, l, ds) -> says w t -> told e l /\ (force = false -> says w e).
  Proof.
    intro H. induction vs as [|v vs IH]; intros g t e l ds E R.
    - injection E as <- <- <-. split; [left; exact R|auto].
    - cbn [chain] in E. destruct (one v g (numbered 0 t)) as [oc|] eqn:E1; [|discriminate]. cbn [rbind] in E.
      destruct (chain one vs (g + replacements oc) (new_document oc)) as [[[e' l'] ds']|] eqn:E2; [|discriminate]. cbn [rbind] in E.
      injection E as <- <- <-. apply H in E1 as [F1 F2]; [|eapply says_content; [symmetry; apply numbered_erase|exact R]].
      split.
      + destruct F1 as [F1|(x & Ix & Kx)].
        * destruct (IH _ _ _ _ _ E2 F1) as [[F|(x & Ix & Kx)] _].
          -- left. exact F.
          -- right. exists x. split; [apply in_app_iff; auto|exact Kx].
        * right. exists x. split; [apply in_app_iff; auto|exact Kx].
      + intro Fo. exact (proj2 (IH _ _ _ _ _ E2 (F2 Fo)) Fo).
  Qed.

  Lemma ran_says m s t one force vs g r s' : says w t ->
    (forall v g T oc, one v g T = Ok oc -> says w T ->
      told (new_document oc) (removed_subtrees oc) /\ (force = false -> says w (new_document oc))) ->
    runs_chain m s (chain one vs g (erase t)) -> m s = (Ok r, s') ->
    text_accounted_for w s' r /\ (force = false -> exists new, document s' (r_document r) new /\ says w new).
  Proof.
    intros R H Rn E. unfold runs_chain in Rn. destruct (chain one vs g (erase t)) as [[[e l] ds]|x] eqn:Ch.
    - destruct Rn as (r0 & s0 & ns & E0 & W & Doc & Rm & L & Mp). rewrite E in E0. injection E0 as <- <-.
      destruct (chain_says one force H _ _ _ _ _ _ Ch (proj1 (says_erase t) R)) as [F1 F2].
      split; [|intro Fo; exists e; auto].
      destruct F1 as [F|(x & Ix & Kx)].
      + left. eauto.
      + right. clear - Rm Ix Kx. induction Rm as [|i y ri yl Di Rm IH]; [destruct Ix|]. destruct Ix as [<-|Ix].
        * exists i, y. split; [left; reflexivity|auto].
        * destruct (IH Ix) as (j & z & Ij & Z). exists j, z. split; [right; exact Ij|exact Z].
    - destruct Rn as (n & s0 & E0). rewrite E in E0. discriminate.
  Qed.

  Lemma stix_says o d from to opts force s t r s' : wf_state s -> denotes s d t -> says w t ->
    stix_update o d from to opts force s = (Ok r, s') ->
    text_accounted_for w s' r /\ (force = false -> exists new, document s' (r_document r) new /\ says w new).
  Proof.
    intros W D R E. pose proof (stix_validation o d from to opts force s t W D) as V. cbv zeta in V.
    destruct (stix_start from t) as [a|] eqn:Ea; [|rewrite V in E; discriminate].
    set (b := match given to with Some b => b | None => "1.2.1" end) in *.
    destruct stix_table_ok as [_ N]. destruct (older_dec STIX_VERSIONS a b N) as [Ho|Ho]; [|rewrite (proj1 V Ho) in E; discriminate].
    pose proof (slice_between _ _ _ N Ho) as B.
    pose proof (stix_update_runs o d from to opts force s t a _ W D Ea B) as Rn.
    eapply ran_says; [exact R| |exact Rn|exact E].
    intros v g T oc S RT. unfold stix_single in S. destruct (stix_check o _ v) as [c|]; [|discriminate].
    destruct (stix_dirt o v) as [Di|] eqn:Ed; [|discriminate]. destruct (stix_step o _ v) as [f|] eqn:Ef; [|discriminate].
    eapply single_says; [|exact S|exact RT]. eapply stix_step_says; eauto.
  Qed.

  Lemma cybox_says o d from to opts force s t r s' : wf_state s -> denotes s d t -> says w t ->
    cybox_update o d from to opts force s = (Ok r, s') ->
    text_accounted_for w s' r /\ (force = false -> exists new, document s' (r_document r) new /\ says w new).
  Proof.
    intros W D R E. pose proof (cybox_validation o d from to opts force s t W D) as V. cbv zeta in V.
    destruct (cybox_start from t) as [a|] eqn:Ea; [|rewrite V in E; discriminate].
    set (b := match given to with Some b => b | None => "2.1" end) in *.
    destruct cybox_table_ok as [_ N]. destruct (older_dec CYBOX_VERSIONS a b N) as [Ho|Ho]; [|rewrite (proj1 V Ho) in E; discriminate].
    pose proof (slice_between _ _ _ N Ho) as B.
    pose proof (cybox_update_runs o d from to opts force s t a _ W D Ea B) as Rn.
    eapply ran_says; [exact R| |exact Rn|exact E].
    intros v g T oc S RT. unfold cybox_single in S. destruct (cybox_check _ v) as [c|]; [|discriminate].
    destruct (cybox_dirt v) as [Di|] eqn:Ed; [|discriminate]. destruct (cybox_step _ v) as [f|] eqn:Ef; [|discriminate].
    eapply single_says; [|exact S|exact RT]. eapply cybox_step_says; eauto.
  Qed.

  Lemma ramrod_says o d from to opts force s t r s' : wf_state s -> denotes s d t -> says w t ->
    ramrod_update o d from to opts force s = (Ok r, s') ->
    text_accounted_for w s' r /\ (force = false -> exists new, document s' (r_document r) new /\ says w new).
  Proof.
    intros W D R E. destruct (String.eqb_spec (q_local (h_tag (head t))) "STIX_Package") as [N|N].
    - rewrite (ramrod_is_stix o d from to opts force s t W D N) in E. eapply stix_says; eauto.
    - destruct (String.eqb_spec (q_local (h_tag (head t))) "Observables") as [N'|N'].
      + rewrite (ramrod_is_cybox o d from to opts force s t W D N') in E. eapply cybox_says; eauto.
      + pose proof (ramrod_other o d from to opts force s t W D N N') as Q. rewrite E in Q. discriminate.
  Qed.

  Lemma entry_says o u d from to opts force s t r s' : entry o u -> wf_state s -> denotes s d t -> says w t ->
    u d from to opts force s = (Ok r, s') ->
    text_accounted_for w s' r /\ (force = false -> forall new, document s' (r_document r) new -> says w new).
  Proof.
    intros En W D R E. pose proof (entry_wf _ _ _ _ _ _ _ _ _ _ _ En W D E) as W'.
    assert (X : text_accounted_for w s' r /\ (force = false -> exists new, document s' (r_document r) new /\ says w new))
      by (destruct En as [->|[->| ->]]; [eapply ramrod_says|eapply stix_says|eapply cybox_says]; first [exact W|exact D|exact R|exact E]).
    destruct X as [X1 X2]. split; [exact X1|]. intros F new Doc. destruct (X2 F) as (e & De & Re).
    rewrite (document_unique _ _ _ _ W' Doc De). exact Re.
  Qed.
End Text.
