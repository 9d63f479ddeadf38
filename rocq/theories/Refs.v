(** * Proofs: references still resolve. *)

From Coq Require Import String Ascii List Bool Arith Lia.
From Verif Require Import Str Xml XPath Utils Base Tables Cybox Stix Ramrod Spec SpecDoc SpecPass SpecStep
  SpecCheck SpecClean SpecUpdate SpecTrace SpecIds Lib Api Frame Refine RefineBase RefineTrans RefineLists RefineSteps RefineCheck
  RefineClean Relabel RefineUpdate Updates Reports UpdateFacts Trace Fields Carried Vocab Marks Worked Follow Natural Root Kept Declared
  Cleaned Located Scripts SpecFault Faults Chained Translated Ids SpecRead Reading.
Import ListNotations.
Local Open Scope string_scope.

(** ** Text without markup characters *)

Definition clear_text (s : string) : Prop := contains "<" s = false /\ contains "&" s = false.

Lemma contains_app c a b : contains (String c "") (a ++ b) = contains (String c "") a || contains (String c "") b.
Proof.
  induction a as [|x a IH].
  - cbn [append]. destruct b; reflexivity.
  - cbn [append contains]. rewrite IH, orb_assoc. do 2 f_equal. unfold starts_with. simpl. destruct (c =? x)%char; reflexivity.
Qed.

Lemma contains_replace c old new s : contains (String c "") new = false -> contains (String c "") s = false ->
  contains (String c "") (replace old new s) = false.
Proof.
  intros N. unfold replace. generalize 0 as k. induction s as [|a s IH]; intros k H; [exact H|].
  apply contains_head in H as [H1 H2]. cbn [replace_from]. destruct k as [|k]; [|apply IH; exact H2].
  destruct (starts_with old (String a s)).
  - rewrite contains_app, N. apply IH. exact H2.
  - cbn [contains]. unfold starts_with. cbn [drop_prefix]. rewrite H1. cbn [orb]. apply IH. exact H2.
Qed.

Lemma clear_replace old new s : clear_text new -> clear_text s -> clear_text (replace old new s).
Proof. intros [A B] [C D]. split; apply contains_replace; auto. Qed.

Definition clear_source (h : hdr) : Prop :=
  named_in [common "Source"; indicator "Source"] (Node h []) = true -> forall s, h_text h = Some s -> clear_text s.

Lemma clear_all t : sources_without_markup t <-> all clear_source t.
Proof.
  split; intro H.
  - intros x Hx N s E. eapply H; eauto.
  - intros x s Hx N E. apply (H x Hx); auto.
Qed.

(** ** Headers *)
Section Back.
  Variables (k : qname) (W : string -> Prop).
  Hypothesis Hk : ~ In k set_by_steps.

  Definition known (h : hdr) : Prop := (forall x, In (k, x) (h_attr h) -> W x) /\ clear_source h.

  Lemma in_attr_set q v l x : k <> q -> In (k, x) (attr_set q v l) -> In (k, x) l.
  Proof.
    intros N. induction l as [|[a b] l IH]; simpl.
    - intros [E|[]]. injection E as -> _. contradiction.
    - destruct (qn_eqb q a) eqn:E; simpl; intros [H|H]; auto. injection H as -> _. apply qn_eqb_eq in E. congruence.
  Qed.

  Lemma in_attr_del q l x : In (k, x) (attr_del q l) -> In (k, x) l.
  Proof. induction l as [|[a b] l IH]; simpl; auto. destruct (qn_eqb q a); simpl; intuition auto. Qed.

  Lemma in_attr_update l x : forall e, In (k, x) (attr_update e l) -> In (k, x) e \/ In (k, x) l.
  Proof.
    unfold attr_update. induction l as [|[a b] l IH]; intros e H; [left; exact H|]. cbn [fold_left fst snd] in H.
    apply IH in H as [H|H]; [|right; right; exact H].
    assert (D : In (k, x) e \/ (k, x) = (a, b)).
    { clear -H. induction e as [|[c d] e IHe]; simpl in H.
      - destruct H as [H|[]]. right. congruence.
      - destruct (qn_eqb a c) eqn:E; simpl in H.
        + destruct H as [H|H]; [right|left; right; exact H]. apply qn_eqb_eq in E. congruence.
        + destruct H as [H|H]; [left; left; exact H|]. destruct (IHe H); [left; right; auto|auto]. }
    destruct D as [D|D]; [left; exact D|right; left; symmetry; exact D].
  Qed.

  Lemma named_in_same qs h h' : h_tag h' = h_tag h -> h_kind h' = h_kind h -> named_in qs (Node h' []) = named_in qs (Node h []).
  Proof. intros A B. unfold named_in, named. cbn [head]. rewrite A, B. reflexivity. Qed.

  Lemma clear_same h h' : h_tag h' = h_tag h -> h_kind h' = h_kind h -> h_text h' = h_text h -> clear_source h -> clear_source h'.
  Proof. intros A B C H N s E. rewrite C in E. rewrite (named_in_same _ h h' A B) in N. apply H; auto. Qed.

  Lemma clear_other h : ~ In (h_tag h) special -> clear_source h.
  Proof.
    intros N H. unfold named_in in H. apply existsb_exists in H as (q & I & H). unfold named in H. cbn [head] in H.
    destruct (h_kind h); try discriminate. apply qn_eqb_eq in H. elim N. rewrite H. unfold special. simpl in I. simpl. tauto.
  Qed.

  Lemma known_set q v h : k <> q -> known h -> known (hset_attr q v h).
  Proof. intros N [A B]. split; [intros x H; apply A; exact (in_attr_set _ _ _ _ N H)|]. eapply clear_same; [..|exact B]; reflexivity. Qed.
  Lemma known_del q h : known h -> known (hdel_attr q h).
  Proof. intros [A B]. split; [intros x H; apply A; exact (in_attr_del _ _ _ H)|]. eapply clear_same; [..|exact B]; reflexivity. Qed.
  Lemma known_tag q h : in_special q = false -> known h -> known (set_tag q h).
  Proof. intros N [A B]. split; [exact A|]. apply clear_other. apply not_special. exact N. Qed.
  Lemma known_text s h : (h_text h = None -> False) -> (forall o, h_text h = Some o -> clear_text o -> clear_text s) -> known h -> known (set_text (Some s) h).
  Proof.
    intros Nn T [A B]. split; [exact A|]. intros N s' E. injection E as <-. destruct (h_text h) as [o|] eqn:Eo; [|elim (Nn eq_refl)].
    apply (T o eq_refl). apply B; auto.
  Qed.
  Lemma known_new q l s : (forall x, In (k, x) l -> W x) -> in_special q = false -> known (Hdr 0 KElem q [] l s false None).
  Proof. intros H N. split; [exact H|]. apply clear_other. apply not_special. exact N. Qed.

  Lemma known_convert h : known h -> known (convert_text h).
  Proof.
    intro H. unfold convert_text. destruct (h_text h) as [s|] eqn:E; [|exact H]. destruct (String.eqb s ""); [exact H|].
    apply known_text; auto.
    - congruence.
    - intros o Eo C. assert (o = s) by congruence. subst o. apply clear_replace; [split; reflexivity|]. apply clear_replace; [split; reflexivity|exact C].
  Qed.

  (** Passes *)
  Lemma known_loc drop m1 m2 : invariant known (always (schemaloc_pass drop m1 m2)).
  Proof. apply invariant_on_root. intros h H. destruct (attr_get _ _); auto. apply known_set; auto. apart. Qed.

  Lemma known_lists a b : invariant known (always (lists_pass a b)).
  Proof.
    apply invariant_edit. intros c y H. destruct (is_elem y); auto. generalize (properties_above a b c). induction n as [|n IH]; auto.
    cbn [repeat_edit]. apply known_convert. exact IH.
  Qed.

  Lemma known_stix_stamp p a b : invariant known (always (edit_where p (stamp_stix a b))).
  Proof. apply invariant_edit_where. intros h H. apply known_set; auto. apart. Qed.
  Lemma known_stamp_1 p : invariant known (always (edit_where p stamp_cybox_2_0_1)).
  Proof. apply invariant_edit_where. intros h H. unfold stamp_cybox_2_0_1. repeat (apply known_set; [apart|]). exact H. Qed.
  Lemma known_stamp_2 p : invariant known (always (edit_where p stamp_cybox_2_1)).
  Proof. apply invariant_edit_where. intros h H. unfold stamp_cybox_2_1. apply known_del. repeat (apply known_set; [apart|]). exact H. Qed.
  Lemma known_rename old new : in_special new = false -> invariant known (rename old new).
  Proof. intro N. apply invariant_rename. intros h _ H. apply known_tag; auto. Qed.

  Definition clear_terms (v : vocab) : bool := forallb (fun p => negb (contains "<" (snd p)) && negb (contains "&" (snd p))) (v_terms v).

  Lemma known_vocab v : clear_terms v = true -> invariant known (vocab_pass v).
  Proof.
    intro C. apply invariant_vocab. intros b y h H U. unfold upgraded in U. destruct (type_of (b, y)) as [i|]; [|discriminate].
    cbn [rbind snd] in U. unfold upgraded_with in U. set (h0 := head y) in *.
    assert (SIP : forall q s a h1 h2, k <> q -> set_if_present q s a h1 = Ok h2 -> known h1 -> known h2 /\ h_text h2 = h_text h1).
    { intros q s a h1 h2 N X Q. unfold set_if_present in X. destruct (has_attr q a); [|injection X as <-; auto].
      destruct s; [|discriminate]. injection X as <-. split; [apply known_set; auto|reflexivity]. }
    destruct (set_if_present (lq "vocab_reference") _ _ _) as [h1|] eqn:E1 in U; [|discriminate]. cbn [rbind] in U.
    destruct (set_if_present (lq "vocab_name") _ _ _) as [h2|] eqn:E2 in U; [|discriminate]. cbn [rbind] in U. injection U as <-.
    apply SIP in E1 as [K1 T1]; [|apart|apply known_set; [apart|exact H]]. apply SIP in E2 as [K2 T2]; [|apart|exact K1].
    destruct (h_text h0) as [s|] eqn:Es; [|exact K2]. destruct (dict_get s (v_terms v)) as [new|] eqn:Ed; [|exact K2].
    apply known_text; [rewrite T2, T1; unfold hset_attr, set_attrs; cbn [h_text]; congruence| |exact K2].
    intros o _ _. apply Located.dict_get_pair in Ed. unfold clear_terms in C. rewrite forallb_forall in C. specialize (C _ Ed). cbn [snd] in C.
    apply andb_true_iff in C as [C1 C2]. split; apply negb_true_iff; assumption.
  Qed.

  Lemma known_vocabs l : forallb clear_terms l = true -> invariant known (passes vocab_pass l).
  Proof. intro H. apply invariant_passes. intros v Hv. apply known_vocab. rewrite forallb_forall in H. auto. Qed.

  Lemma known_child_value q u : in_special q = false \/ In q cybox_2_0_1_replaced -> invariant known (rewrite_all (any_inside [q]) (value_of_child u)).
  Proof.
    intro N. apply invariant_rewrite. intros b x e P E A. apply any_inside_tag in P. unfold value_of_child in E.
    destruct (filter _ _) as [|v l] eqn:F; [discriminate|]. injection E as <-.
    assert (Iv : In v (kids x)) by (assert (H : In v (filter (named u) (kids x))) by (rewrite F; left; auto); apply filter_In in H; tauto).
    intros z [<-|[]]. cbn [head]. split.
    - intros y H. cbn [h_attr] in H. apply in_attr_update in H as [[]|H]. apply (kid_all known x v A Iv v (nodes_self v)). exact H.
    - rewrite P. intros Q. unfold named_in, named in Q. cbn [head h_kind h_tag] in Q.
      destruct N as [N|N].
      + exfalso. apply (not_special _ N). apply existsb_exists in Q as (q' & I & Q). apply qn_eqb_eq in Q. subst q'. simpl in I. unfold special. simpl. tauto.
      + exfalso. simpl in N. repeat destruct N as [<-|N]; try discriminate Q. destruct N.
  Qed.

  Lemma known_as_string q : In q cybox_2_0_1_replaced -> k <> lq "datatype" -> invariant known (rewrite_all (any_inside [q]) as_string).
  Proof.
    intros N Nd. apply invariant_rewrite. intros b x e P E A. apply any_inside_tag in P. injection E as <-.
    intros z [<-|[]]. cbn [head]. split.
    - intros y H. cbn [h_attr] in H. apply (proj1 (A x (nodes_self x))).
      destruct (has_attr _ _); [apply in_attr_set in H; [|exact Nd]|]; apply in_attr_update in H as [[]|H]; exact H.
    - rewrite P. intros Q. unfold named_in, named in Q. cbn [head h_kind h_tag] in Q.
      exfalso. simpl in N. repeat destruct N as [<-|N]; try discriminate Q. destruct N.
  Qed.

  Lemma known_renamed q x : in_special q = false -> all known x -> all known (renamed_to q x).
  Proof. intros N A z [<-|Hz]; [apply known_tag; [exact N|]; apply A, nodes_self|]. apply A. destruct x as [h ks]. right. exact Hz. Qed.

  Lemma known_element q ks : (forall c, In c ks -> all known c) -> all known (element q ks).
  Proof.
    intros H z [<-|Hz].
    - split; [intros x []|]. intros _ s E. discriminate.
    - apply in_flat_map in Hz as (c & Hc & Hz). exact (H c Hc z Hz).
  Qed.

  Lemma known_unwrap a b c : in_special c = false \/ In c cybox_2_0_1_replaced -> invariant known (always (unwrap_pass a b c)).
  Proof.
    intros N t e E A. injection E as <-. apply invariant_subst; auto. intros d x l z _ E Hz Ak.
    destruct (inside d && named _ x); [|discriminate]. destruct (filter _ (kids x)) as [|y ys] eqn:Fl; [discriminate|].
    injection E as <-. destruct Hz as [<-|[]].
    assert (Hy : In y (kids x)). { assert (H : In y (filter (named b) (kids x))) by (rewrite Fl; left; auto). apply filter_In in H. tauto. }
    pose proof (kid_all known x y Ak Hy) as Ay. destruct N as [N|N]; [apply known_renamed; auto|].
    intros z [<-|Hz]; [|apply Ay; destruct y as [h ks]; right; exact Hz].
    split; [exact (proj1 (Ay y (nodes_self y)))|]. intro Q. unfold named_in, named, renamed_to, set_tag in Q. cbn [head h_kind h_tag] in Q.
    exfalso. destruct (h_kind (head y)); try discriminate Q. simpl in N. repeat destruct N as [<-|N]; try discriminate Q. destruct N.
  Qed.

  Lemma known_optional p : invariant known (always (optional_pass p)).
  Proof. intros t e E A. injection E as <-. apply invariant_prune. exact A. Qed.

  Lemma known_optional_in a b : invariant known (optional_in_type a b).
  Proof. intros t e E A. unfold optional_in_type in E. destruct (first_err _ _); [discriminate|]. injection E as <-. apply invariant_prune. exact A. Qed.

  Lemma known_contributing p u : in_special (qn u "Identity") = false -> invariant known (rewrite_all p (contributing_sources u)).
  Proof.
    intros N. apply invariant_rewrite. intros b x e _ E A. unfold contributing_sources in E.
    destruct (forallb _ _); [|discriminate]. injection E as <-. apply known_element. intros z Hz.
    apply in_map_iff in Hz as (c & <- & Hc). apply known_element. intros y [<-|[]]. apply known_renamed; auto. eapply kid_all; eauto.
  Qed.

  Lemma known_wrap p q : invariant known (rewrite_all p (wrap q)).
  Proof. apply invariant_rewrite. intros b x e _ E A. injection E as <-. apply known_element. intros y [<-|[]]. exact A. Qed.

  Lemma known_wrap_renamed p q n : in_special n = false -> invariant known (rewrite_all p (wrap_renamed q n)).
  Proof. intro N. apply invariant_rewrite. intros b x e _ E A. injection E as <-. apply known_element. intros y [<-|[]]. apply known_renamed; auto. Qed.

  Lemma known_ns drop m : foreign m = true -> invariant known (namespaces_pass drop m).
  Proof.
    intro F. apply invariant_ns. intros b y M [A B]. split.
    - intros x H. cbn [rebuilt h_attr] in H. apply in_attr_update in H as [[]|H]. auto.
    - apply clear_other. cbn [rebuilt h_tag]. unfold moves in M. destruct (q_ns (h_tag (head y))) as [ns|]; [|discriminate].
      intro I. unfold foreign in F. rewrite forallb_forall in F. specialize (F _ (lookup_in ns m M)). apply negb_true_iff in F.
      assert (X : existsb (fun q => ostr_eqb (q_ns q) (Some (lookup ns ns m))) special = true).
      { apply existsb_exists. eexists. split; [exact I|]. cbn [q_ns]. apply ostr_eqb_eq. reflexivity. }
      congruence.
  Qed.

  Lemma clear_no_markup s : clear_text s -> no_markup s = true.
  Proof. intros [A B]. unfold no_markup. rewrite A, (contains_wider _ _ _ B). reflexivity. Qed.

  Lemma known_source_tree outer od id name : (forall s, False -> clear_text s) -> all known (erase (source_tree outer od id name)).
  Proof.
    intros _ x [<-|[<-|[<-|[]]]]; (split; [intros y []|]).
    - intros _ s E. injection E as <-. split; reflexivity.
    - intro N. discriminate N.
    - intro N. discriminate N.
  Qed.

  Lemma known_structured o b p : (forall anc y, p anc y = true -> named_in [common "Source"; indicator "Source"] y = true) ->
    invariant known (rewrite_all p (structured_source o b)).
  Proof.
    intro P. apply invariant_rewrite. intros a x e Px E A. apply P in Px. unfold structured_source in E.
    assert (C : clear_text (match h_text (head x) with Some s => s | None => "None" end)).
    { destruct (h_text (head x)) as [s|] eqn:Es; [|split; reflexivity]. destruct (A x (nodes_self x)) as [_ B]. apply B; auto. }
    unfold parse_source in E. rewrite (clear_no_markup _ C) in E. destruct (chardata _) as [name|]; [|discriminate]. injection E as <-.
    destruct b; apply known_source_tree; intros ? [].
  Qed.

  Hypothesis Hd : k <> lq "datatype".

  Ltac one :=
    first [ apply known_loc | apply known_stix_stamp | apply known_stamp_1 | apply known_stamp_2
          | apply known_lists | apply known_rename; reflexivity | apply known_ns; vm_compute; reflexivity
          | apply known_child_value; right; simpl; tauto | apply known_as_string; [simpl; tauto|exact Hd]
          | apply known_structured; intros ? ? X; eapply child_in_source; [|exact X]; simpl; tauto
          | apply known_contributing; reflexivity
          | apply known_wrap | apply known_wrap_renamed; reflexivity | apply known_unwrap; right; simpl; tauto
          | apply known_optional | apply known_optional_in | apply known_vocabs; vm_compute; reflexivity | apply known_vocab; vm_compute; reflexivity ].
  Ltac each :=
    repeat match goal with
           | |- invariant _ (in_order (_ :: _)) => apply invariant_cons
           | |- invariant _ (in_order []) => apply invariant_nil
           | |- invariant _ (when _ _) => apply invariant_when
           | |- invariant _ _ => one
           end.

  Lemma known_2_0 marked opts : invariant known (cybox_2_0_step marked opts).
  Proof. unfold cybox_2_0_step. each. Qed.
  Lemma known_2_0_1 marked opts : invariant known (cybox_2_0_1_step marked opts).
  Proof. unfold cybox_2_0_1_step. each. Qed.

  Lemma stix_step_known o opts v f : stix_step o opts v = Some f -> invariant known f.
  Proof.
    intro E. unfold stix_step in E. by_version E.
    - unfold stix_1_0_step. each. apply known_2_0.
    - unfold stix_1_0_1_step. each. apply known_2_0_1.
    - unfold stix_1_1_step. each.
    - unfold stix_1_1_1_step. each.
    - unfold stix_1_2_step. each. apply invariant_on_root. intros h H. apply known_set; auto. apart.
  Qed.

  Lemma cybox_step_known opts v f : cybox_step opts v = Some f -> invariant known f.
  Proof. intro E. unfold cybox_step in E. by_version E; [apply known_2_0|apply known_2_0_1]. Qed.

  Lemma known_blind h : known (set_id 0 h) <-> known h.
  Proof. reflexivity. Qed.

  Lemma robust_known : k <> lq "id" -> robust known.
  Proof. intro N. split; [apply known_blind|]. intros w h H. apply known_set; auto. Qed.

  Lemma single_known c D f new_id force g T oc : (force = true -> k <> lq "id") -> invariant known f ->
    single c D f new_id force g T = Ok oc -> all known T -> all known (new_document oc).
  Proof.
    intros N P S H. destruct (single_worked _ _ _ _ _ _ _ _ S) as (t1 & F & Fit & Wk). apply (P _ _ F).
    destruct Wk as [->|(Fo & _)]; [apply all_erase; [apply known_blind|exact H]|]. apply Fit; [apply robust_known; auto|exact H].
  Qed.

  Lemma chain_known one : (forall v g T oc, one v g T = Ok oc -> all known T -> all known (new_document oc)) ->
    forall vs g t e l ds, chain one vs g t = Ok (e, l, ds) -> all known t -> all known e.
  Proof.
    intro H. induction vs as [|v vs IH]; intros g t e l ds E R.
    - injection E as <- <- <-. exact R.
    - apply chain_ok in E as (oc & l' & ds' & E1 & E2). eapply IH; [exact E2|]. eapply H; [exact E1|].
      apply all_numbered; [apply known_blind|exact R].
  Qed.

  Lemma ran_known m s t one vs g r s' : all known t ->
    (forall v g T oc, one v g T = Ok oc -> all known T -> all known (new_document oc)) ->
    runs_chain m s (chain one vs g (erase t)) -> m s = (Ok r, s') -> exists new, document s' (r_document r) new /\ all known new.
  Proof.
    intros R H Rn E. unfold runs_chain in Rn. destruct (chain one vs g (erase t)) as [[[e l] ds]|x] eqn:Ch.
    - destruct Rn as (r0 & s0 & ns & E0 & Wf & Doc & _). rewrite E in E0. injection E0 as <- <-. exists e. split; auto.
      eapply chain_known; [exact H|exact Ch|]. apply all_erase; [apply known_blind|exact R].
    - destruct Rn as (n & s0 & E0). rewrite E in E0. discriminate.
  Qed.

  Lemma stix_known o d from to opts force s t r s' : (force = true -> k <> lq "id") -> wf_state s -> denotes s d t -> all known t ->
    stix_update o d from to opts force s = (Ok r, s') -> exists new, document s' (r_document r) new /\ all known new.
  Proof.
    intros N Wf D R E. pose proof (stix_validation o d from to opts force s t Wf D) as V. cbv zeta in V.
    destruct (stix_start from t) as [a|] eqn:Ea; [|rewrite V in E; discriminate].
    set (b := match given to with Some b => b | None => "1.2.1" end) in *.
    destruct stix_table_ok as [_ Nt]. destruct (older_dec STIX_VERSIONS a b Nt) as [Ho|Ho]; [|rewrite (proj1 V Ho) in E; discriminate].
    pose proof (slice_between _ _ _ Nt Ho) as B.
    pose proof (stix_update_runs o d from to opts force s t a _ Wf D Ea B) as Rn.
    eapply ran_known; [exact R| |exact Rn|exact E].
    intros v g T oc S RT. unfold stix_single in S. destruct (stix_check o _ v) as [c|]; [|discriminate].
    destruct (stix_dirt o v) as [Di|] eqn:Ed; [|discriminate]. destruct (stix_step o _ v) as [f|] eqn:Ef; [|discriminate].
    eapply single_known; [exact N|eapply stix_step_known; eauto|exact S|exact RT].
  Qed.

  Lemma cybox_known o d from to opts force s t r s' : (force = true -> k <> lq "id") -> wf_state s -> denotes s d t -> all known t ->
    cybox_update o d from to opts force s = (Ok r, s') -> exists new, document s' (r_document r) new /\ all known new.
  Proof.
    intros N Wf D R E. pose proof (cybox_validation o d from to opts force s t Wf D) as V. cbv zeta in V.
    destruct (cybox_start from t) as [a|] eqn:Ea; [|rewrite V in E; discriminate].
    set (b := match given to with Some b => b | None => "2.1" end) in *.
    destruct cybox_table_ok as [_ Nt]. destruct (older_dec CYBOX_VERSIONS a b Nt) as [Ho|Ho]; [|rewrite (proj1 V Ho) in E; discriminate].
    pose proof (slice_between _ _ _ Nt Ho) as B.
    pose proof (cybox_update_runs o d from to opts force s t a _ Wf D Ea B) as Rn.
    eapply ran_known; [exact R| |exact Rn|exact E].
    intros v g T oc S RT. unfold cybox_single in S. destruct (cybox_check _ v) as [c|]; [|discriminate].
    destruct (cybox_dirt v) as [Di|] eqn:Ed; [|discriminate]. destruct (cybox_step _ v) as [f|] eqn:Ef; [|discriminate].
    eapply single_known; [exact N|eapply cybox_step_known; eauto|exact S|exact RT].
  Qed.
End Back.

Lemma known_start k t : sources_without_markup t -> all (known k (fun w => names k w t)) t.
Proof.
  intros S x Hx. split; [intros w H; exists x; auto|]. apply clear_all in S. apply S. exact Hx.
Qed.

Lemma known_names k (W : string -> Prop) e w : all (known k W) e -> names k w e -> W w.
Proof. intros A (x & Ix & H). apply (A x Ix). exact H. Qed.

Lemma document_unique s i a b : wf_state s -> document s i a -> document s i b -> a = b.
Proof.
  intros [N _] (A & IA & TA & <-) (B & IB & TB & <-). f_equal. rewrite <- TB in TA. clear TB i.
  revert IA IB N. generalize (heap s). intro l. induction l as [|x l IH]; intros IA IB N; [destruct IA|].
  cbn [flat_map] in N. apply NoDup_app in N as (N1 & N2 & N3).
  assert (R : forall t, In (tid t) (ids t)) by (intros [h ks]; left; reflexivity).
  destruct IA as [->|IA], IB as [->|IB]; auto; exfalso.
  - apply (N3 (tid A)); [apply R|]. apply in_flat_map. exists B. split; auto. rewrite TA. apply R.
  - apply (N3 (tid B)); [apply R|]. apply in_flat_map. exists A. split; auto. rewrite <- TA. apply R.
Qed.

Lemma id_free : ~ In (lq "id") set_by_steps.
Proof. unfold set_by_steps. simpl. intuition discriminate. Qed.

Lemma ramrod_retains k w o d from to opts force s t r s' : ~ In k set_by_steps -> wf_state s -> denotes s d t -> retains k w t ->
  ramrod_update o d from to opts force s = (Ok r, s') ->
  accounted_for k w s' r /\ (force = false -> exists new, document s' (r_document r) new /\ retains k w new).
Proof.
  intros Hk W D R E. destruct (String.eqb_spec (q_local (h_tag (head t))) "STIX_Package") as [N|N].
  - rewrite (ramrod_is_stix o d from to opts force s t W D N) in E. eapply stix_retains; eauto.
  - destruct (String.eqb_spec (q_local (h_tag (head t))) "Observables") as [N'|N'].
    + rewrite (ramrod_is_cybox o d from to opts force s t W D N') in E. eapply cybox_retains; eauto.
    + pose proof (ramrod_other o d from to opts force s t W D N N') as Q. rewrite E in Q. discriminate.
Qed.

Lemma ramrod_known k V o d from to opts force s t r s' : ~ In k set_by_steps -> k <> lq "datatype" -> (force = true -> k <> lq "id") ->
  wf_state s -> denotes s d t -> all (known k V) t ->
  ramrod_update o d from to opts force s = (Ok r, s') -> exists new, document s' (r_document r) new /\ all (known k V) new.
Proof.
  intros Hk Hd Hf W D R E. destruct (String.eqb_spec (q_local (h_tag (head t))) "STIX_Package") as [N|N].
  - rewrite (ramrod_is_stix o d from to opts force s t W D N) in E. eapply stix_known; eauto.
  - destruct (String.eqb_spec (q_local (h_tag (head t))) "Observables") as [N'|N'].
    + rewrite (ramrod_is_cybox o d from to opts force s t W D N') in E. eapply cybox_known; eauto.
    + pose proof (ramrod_other o d from to opts force s t W D N N') as Q. rewrite E in Q. discriminate.
Qed.

Lemma entry_wf o u d from to opts force s t r s' : entry o u -> wf_state s -> denotes s d t -> u d from to opts force s = (Ok r, s') -> wf_state s'.
Proof.
  intros [->|[->| ->]] W D E; [eapply ramrod_renumbers|eapply stix_renumbers|eapply cybox_renumbers]; eauto.
Qed.

Lemma entry_retains o u k w d from to opts force s t r s' : entry o u -> ~ In k set_by_steps -> wf_state s -> denotes s d t -> retains k w t ->
  u d from to opts force s = (Ok r, s') ->
  accounted_for k w s' r /\ (force = false -> forall new, document s' (r_document r) new -> retains k w new).
Proof.
  intros En Hk W D R E. pose proof (entry_wf _ _ _ _ _ _ _ _ _ _ _ En W D E) as W'.
  assert (X : accounted_for k w s' r /\ (force = false -> exists new, document s' (r_document r) new /\ retains k w new))
    by (destruct En as [->|[->| ->]]; [eapply ramrod_retains|eapply stix_retains|eapply cybox_retains]; first [exact Hk|exact W|exact D|exact R|exact E]).
  destruct X as [X1 X2]. split; [exact X1|]. intros F new Doc. destruct (X2 F) as (e & De & Re).
  rewrite (document_unique _ _ _ _ W' Doc De). exact Re.
Qed.

Lemma entry_names o u k d from to opts force s t r s' new w : entry o u -> ~ In k set_by_steps -> k <> lq "datatype" ->
  (force = true -> k <> lq "id") -> wf_state s -> denotes s d t -> sources_without_markup t ->
  u d from to opts force s = (Ok r, s') -> document s' (r_document r) new -> names k w new -> names k w t.
Proof.
  intros En Hk Hd Hf W D S E Doc Hn. pose proof (entry_wf _ _ _ _ _ _ _ _ _ _ _ En W D E) as W'.
  pose proof (known_start k t S) as K.
  assert (X : exists e, document s' (r_document r) e /\ all (known k (fun w => names k w t)) e)
    by (destruct En as [->|[->| ->]]; [eapply ramrod_known|eapply stix_known|eapply cybox_known]; first [exact Hk|exact Hd|exact Hf|exact W|exact D|exact K|exact E]).
  destruct X as (e & De & Ke). rewrite (document_unique _ _ _ _ W' Doc De) in Hn. exact (known_names _ _ _ _ Ke Hn).
Qed.

Lemma entry_resolved o u ref d from to opts s t r s' new : entry o u -> ~ In ref set_by_steps -> ref <> lq "datatype" ->
  wf_state s -> denotes s d t -> sources_without_markup t -> resolved ref t ->
  u d from to opts false s = (Ok r, s') -> document s' (r_document r) new -> resolved ref new.
Proof.
  intros En Hk Hd W D S R E Doc w Hn. apply (entry_names o u ref d from to opts false s t r s' new w) in Hn; auto; [|discriminate].
  apply R in Hn. apply (entry_retains o u _ _ d from to opts false s t r s' En id_free W D Hn E); auto.
Qed.
