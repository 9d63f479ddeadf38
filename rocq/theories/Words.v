(** * Proofs: no step invents text. *)

From Coq Require Import String Ascii List Bool Arith Lia.
From Verif Require Import Str Xml XPath Utils Base Tables Cybox Stix Ramrod Spec SpecDoc SpecPass SpecStep
  SpecCheck SpecClean SpecUpdate SpecTrace SpecIds SpecText Lib Api Frame Refine RefineBase RefineTrans RefineLists RefineSteps RefineCheck
  RefineClean Relabel RefineUpdate Updates Reports UpdateFacts Trace Fields Carried Vocab Marks Worked Follow Natural Root Kept Declared
  Cleaned Located Scripts SpecFault Faults Chained Translated Ids Refs Text SpecRead Reading.
Import ListNotations.
Local Open Scope string_scope.

Definition credited : list qname := [common "Source"; indicator "Source"; common "Contributors"].

Lemma credited_special q : In q credited -> In q special.
Proof. unfold credited, special. simpl. tauto. Qed.

Section Words.
  Variables (W V : string -> Prop) (Kept : option string -> Prop) (Missing : Prop).
  Hypothesis W_respelt : forall s s', W s -> In (s, s') respelt -> W s'.
  Hypothesis W_listed : forall s, W s -> W (replace "&comma;" "," (replace "," "##comma##" s)).
  Hypothesis W_parsed : forall s s', W s -> read_as s s' -> W s'.
  Hypothesis W_blank : forall s, blank_text (Some s) = true -> W s.
  Hypothesis V_blank : forall s, blank_text (Some s) = true -> V s.
  Hypothesis W_missing : Missing -> W "None".

  (** What follows the element, and its text where it is a CDATA section. *)
  Definition beside (h : hdr) : Prop :=
    (forall s, h_tail h = Some s -> V s) /\ (h_cdata h = true -> Kept (h_text h)).

  Lemma beside_none h : h_tail h = None -> h_cdata h = false -> beside h.
  Proof. intros A B. split; [intros s E|intro E]; congruence. Qed.

  Definition quoted (h : hdr) : Prop :=
    (forall s, h_text h = Some s -> W s) /\
    beside h /\
    clear_source h /\ (h_kind h = KElem -> In (h_tag h) credited -> Missing).

  Lemma quoted_same h h' : h_tag h' = h_tag h -> h_kind h' = h_kind h -> h_text h' = h_text h -> h_tail h' = h_tail h -> h_cdata h' = h_cdata h ->
    quoted h -> quoted h'.
  Proof.
    intros A B Tx D Cd (H1 & H2 & H3 & H4). unfold quoted, beside. rewrite A, B, Tx, D, Cd. split; [exact H1|]. split; [exact H2|]. split; [|exact H4]. eapply clear_same; [..|exact H3]; auto.
  Qed.

  Lemma quoted_set q v h : quoted h -> quoted (hset_attr q v h).
  Proof. apply quoted_same; reflexivity. Qed.
  Lemma quoted_del q h : quoted h -> quoted (hdel_attr q h).
  Proof. apply quoted_same; reflexivity. Qed.

  Lemma plain_tag q : in_special q = false -> ~ In q credited.
  Proof. intros N H. apply (not_special _ N). apply credited_special. exact H. Qed.

  Lemma quoted_tag q h : in_special q = false -> quoted h -> quoted (set_tag q h).
  Proof.
    intros N (H1 & H2 & H3 & H4). split; [exact H1|]. split; [exact H2|]. split; [apply clear_other, not_special; exact N|].
    intros _ I. elim (plain_tag _ N I).
  Qed.

  Lemma quoted_text s h : (h_text h = None -> False) -> (forall o, h_text h = Some o -> clear_text o -> clear_text s) ->
    (forall o, h_text h = Some o -> W o -> W s) -> quoted h -> quoted (set_text (Some s) h).
  Proof.
    intros Nn T U (H1 & H2 & H3 & H4). destruct (h_text h) as [o|] eqn:Eo; [|elim (Nn eq_refl)]. split; [|split; [split; [apply H2|intro X; discriminate X]|split; [|exact H4]]].
    - intros s' E. injection E as <-. apply (U o eq_refl). auto.
    - intros N s' E. injection E as <-. apply (T o eq_refl). apply H3; auto.
  Qed.

  Lemma quoted_convert h : quoted h -> quoted (convert_text h).
  Proof.
    intro H. unfold convert_text. destruct (h_text h) as [s|] eqn:E; [|exact H]. destruct (String.eqb s ""); [exact H|].
    apply quoted_text; [congruence| | |exact H].
    - intros o Eo C. assert (o = s) by congruence. subst o. apply clear_replace; [split; reflexivity|]. apply clear_replace; [split; reflexivity|exact C].
    - intros o Eo C. assert (o = s) by congruence. subst o. auto.
  Qed.

  (** Passes *)
  Lemma quoted_loc drop m1 m2 : invariant quoted (always (schemaloc_pass drop m1 m2)).
  Proof. apply invariant_on_root. intros h H. destruct (attr_get _ _); [apply quoted_set|]; exact H. Qed.

  Lemma quoted_lists a b : invariant quoted (always (lists_pass a b)).
  Proof.
    apply invariant_edit. intros c y H. destruct (is_elem y); auto. generalize (properties_above a b c). induction n as [|n IH]; auto.
    cbn [repeat_edit]. apply quoted_convert. exact IH.
  Qed.

  Lemma quoted_stix_stamp p a b : invariant quoted (always (edit_where p (stamp_stix a b))).
  Proof. apply invariant_edit_where. intros h H. apply quoted_set; auto. Qed.
  Lemma quoted_stamp_1 p : invariant quoted (always (edit_where p stamp_cybox_2_0_1)).
  Proof. apply invariant_edit_where. intros h H. unfold stamp_cybox_2_0_1. repeat (apply quoted_set). exact H. Qed.
  Lemma quoted_stamp_2 p : invariant quoted (always (edit_where p stamp_cybox_2_1)).
  Proof. apply invariant_edit_where. intros h H. unfold stamp_cybox_2_1. apply quoted_del. repeat (apply quoted_set). exact H. Qed.
  Lemma quoted_rename old new : in_special new = false -> invariant quoted (rename old new).
  Proof. intro N. apply invariant_rename. intros h _ H. apply quoted_tag; auto. Qed.

  Lemma terms_respelt v s s' : In v vocabularies -> In (s, s') (v_terms v) -> In (s, s') respelt.
  Proof.
    intros I H. assert (X : In (s, s') (flat_map v_terms vocabularies)) by (apply in_flat_map; eauto).
    vm_compute in X. vm_compute. tauto.
  Qed.

  Lemma respelt_clear s s' : In (s, s') respelt -> clear_text s'.
  Proof. intro H. simpl in H. repeat destruct H as [H|H]; try (injection H as <- <-; split; reflexivity). destruct H. Qed.

  Lemma quoted_vocab v : In v vocabularies -> invariant quoted (vocab_pass v).
  Proof.
    intro C. apply invariant_vocab. intros b y h H U. unfold upgraded in U. destruct (type_of (b, y)) as [i|]; [|discriminate].
    cbn [rbind snd] in U. unfold upgraded_with in U. set (h0 := head y) in *.
    assert (SIP : forall q s a h1 h2, set_if_present q s a h1 = Ok h2 -> quoted h1 -> quoted h2 /\ h_text h2 = h_text h1).
    { intros q s a h1 h2 X Q. unfold set_if_present in X. destruct (has_attr q a); [|injection X as <-; auto].
      destruct s; [|discriminate]. injection X as <-. split; [apply quoted_set; auto|reflexivity]. }
    destruct (set_if_present (lq "vocab_reference") _ _ _) as [h1|] eqn:E1 in U; [|discriminate]. cbn [rbind] in U.
    destruct (set_if_present (lq "vocab_name") _ _ _) as [h2|] eqn:E2 in U; [|discriminate]. cbn [rbind] in U. injection U as <-.
    apply SIP in E1 as [K1 T1]; [|apply quoted_set; exact H]. apply SIP in E2 as [K2 T2]; [|exact K1].
    assert (T : h_text h2 = h_text h0) by (rewrite T2, T1; reflexivity).
    destruct (h_text h0) as [s|] eqn:Es; [|exact K2]. destruct (dict_get s (v_terms v)) as [new|] eqn:Ed; [|exact K2].
    apply Located.dict_get_pair in Ed. apply (terms_respelt _ _ _ C) in Ed.
    apply quoted_text; [congruence| | |exact K2].
    - intros _ _ _. eapply respelt_clear; eauto.
    - intros o Eo Wo. assert (o = s) by congruence. subst o. eauto.
  Qed.

  Lemma quoted_vocabs l : incl l vocabularies -> invariant quoted (passes vocab_pass l).
  Proof. intro H. apply invariant_passes. intros v Hv. apply quoted_vocab. auto. Qed.

  Lemma replaced_plain q : In q cybox_2_0_1_replaced -> ~ In q credited.
  Proof. intros I [<-|[<-|[<-|[]]]]; vm_compute in I; repeat (destruct I as [I|I]; [discriminate I|]); destruct I. Qed.

  Lemma replaced_clear h : In (h_tag h) cybox_2_0_1_replaced -> clear_source h.
  Proof.
    intros N Q. unfold named_in in Q. apply existsb_exists in Q as (q' & I & Q). unfold named in Q. cbn [head] in Q.
    destruct (h_kind h); try discriminate. apply qn_eqb_eq in Q. elim (replaced_plain _ N). rewrite Q. simpl in I. simpl. tauto.
  Qed.

  Lemma quoted_child_value q u : In q cybox_2_0_1_replaced -> invariant quoted (rewrite_all (any_inside [q]) (value_of_child u)).
  Proof.
    intro N. apply invariant_rewrite. intros b x e P E A. apply any_inside_tag in P. unfold value_of_child in E.
    destruct (filter _ _) as [|v l] eqn:F; [discriminate|]. injection E as <-.
    assert (Iv : In v (kids x)) by (assert (H : In v (filter (named u) (kids x))) by (rewrite F; left; auto); apply filter_In in H; tauto).
    destruct (kid_all quoted x v A Iv v (nodes_self v)) as (H1 & _).
    intros z [<-|[]]. cbn [head]. split; [exact H1|]. split; [apply beside_none; reflexivity|]. split.
    - apply replaced_clear. cbn [h_tag]. rewrite P. exact N.
    - cbn [h_tag]. rewrite P. intros _ I. elim (replaced_plain _ N I).
  Qed.

  Lemma quoted_as_string q : In q cybox_2_0_1_replaced -> invariant quoted (rewrite_all (any_inside [q]) as_string).
  Proof.
    intros N. apply invariant_rewrite. intros b x e P E A. apply any_inside_tag in P. injection E as <-.
    destruct (A x (nodes_self x)) as (H1 & _).
    intros z [<-|[]]. cbn [head]. split; [exact H1|]. split; [apply beside_none; reflexivity|]. split.
    - apply replaced_clear. cbn [h_tag]. rewrite P. exact N.
    - cbn [h_tag]. rewrite P. intros _ I. elim (replaced_plain _ N I).
  Qed.

  Lemma quoted_renamed q x : in_special q = false -> all quoted x -> all quoted (renamed_to q x).
  Proof. intros N A z [<-|Hz]; [apply quoted_tag; [exact N|]; apply A, nodes_self|]. apply A. destruct x as [h ks]. right. exact Hz. Qed.

  Lemma quoted_element q ks : (In q credited -> Missing) -> (forall c, In c ks -> all quoted c) -> all quoted (element q ks).
  Proof.
    intros N H z [<-|Hz].
    - split; [intros x E; discriminate|]. split; [apply beside_none; reflexivity|]. split; [intros _ s E; discriminate|]. intros _. exact N.
    - apply in_flat_map in Hz as (c & Hc & Hz). exact (H c Hc z Hz).
  Qed.

  Lemma quoted_unwrap a b c : In c cybox_2_0_1_replaced -> invariant quoted (always (unwrap_pass a b c)).
  Proof.
    intros N t e E A. injection E as <-. apply invariant_subst; auto. intros d x l z _ E Hz Ak.
    destruct (inside d && named _ x); [|discriminate]. destruct (filter _ (kids x)) as [|y ys] eqn:Fl; [discriminate|].
    injection E as <-. destruct Hz as [<-|[]].
    assert (Hy : In y (kids x)). { assert (H : In y (filter (named b) (kids x))) by (rewrite Fl; left; auto). apply filter_In in H. tauto. }
    pose proof (kid_all quoted x y Ak Hy) as Ay.
    intros z [<-|Hz]; [|apply Ay; destruct y as [h ks]; right; exact Hz].
    destruct (Ay y (nodes_self y)) as (H1 & H2 & H3 & H4). split; [exact H1|]. split; [exact H2|]. split; [apply replaced_clear; exact N|].
    intros _ I. elim (replaced_plain _ N I).
  Qed.

  Lemma quoted_optional p : invariant quoted (always (optional_pass p)).
  Proof. intros t e E A. injection E as <-. apply invariant_prune. exact A. Qed.

  Lemma quoted_optional_in a b : invariant quoted (optional_in_type a b).
  Proof. intros t e E A. unfold optional_in_type in E. destruct (first_err _ _); [discriminate|]. injection E as <-. apply invariant_prune. exact A. Qed.

  Lemma quoted_contributing : invariant quoted (rewrite_all (any_inside [common "Contributors"]) (contributing_sources NS_COMMON)).
  Proof.
    apply invariant_rewrite. intros b x e P E A. unfold contributing_sources in E.
    assert (M : Missing).
    { destruct (A x (nodes_self x)) as (_ & _ & _ & H4). apply H4.
      - unfold any_inside, named_in, named in P. cbn [existsb] in P. destruct (h_kind (head x)); auto; rewrite andb_false_r in P; discriminate.
      - apply any_inside_tag in P. rewrite P. simpl. tauto. }
    destruct (forallb _ _); [|discriminate]. injection E as <-. apply quoted_element; [auto|]. intros z Hz.
    apply in_map_iff in Hz as (c & <- & Hc). apply quoted_element; [auto|]. intros y [<-|[]]. apply quoted_renamed; [reflexivity|]. eapply kid_all; eauto.
  Qed.

  Lemma quoted_wrap p q : in_special q = false -> invariant quoted (rewrite_all p (wrap q)).
  Proof.
    intro N. apply invariant_rewrite. intros b x e _ E A. injection E as <-. apply quoted_element; [intro I; elim (plain_tag _ N I)|].
    intros y [<-|[]]. exact A.
  Qed.

  Lemma quoted_wrap_renamed p q n : in_special q = false -> in_special n = false -> invariant quoted (rewrite_all p (wrap_renamed q n)).
  Proof.
    intros Nq N. apply invariant_rewrite. intros b x e _ E A. injection E as <-. apply quoted_element; [intro I; elim (plain_tag _ Nq I)|].
    intros y [<-|[]]. apply quoted_renamed; auto.
  Qed.

  Lemma quoted_ns drop m : foreign m = true -> invariant quoted (namespaces_pass drop m).
  Proof.
    intro F. apply invariant_ns. intros b y M (H1 & H2 & H3 & H4).
    assert (N : ~ In (h_tag (rebuilt drop m b y)) special).
    { cbn [rebuilt h_tag]. unfold moves in M. destruct (q_ns (h_tag (head y))) as [ns|]; [|discriminate].
      intro I. unfold foreign in F. rewrite forallb_forall in F. specialize (F _ (lookup_in ns m M)). apply negb_true_iff in F.
      assert (X : existsb (fun q => ostr_eqb (q_ns q) (Some (lookup ns ns m))) special = true).
      { apply existsb_exists. eexists. split; [exact I|]. cbn [q_ns]. apply ostr_eqb_eq. reflexivity. }
      congruence. }
    split; [|split; [|split]].
    - intros s E. cbn [rebuilt h_text] in E. destruct (kids y); [auto|discriminate].
    - split; [intros s E; discriminate|]. cbn [rebuilt h_cdata h_text]. destruct (kids y); [apply H2|discriminate].
    - apply clear_other. exact N.
    - intros _ I. elim N. apply credited_special. exact I.
  Qed.

  Lemma quoted_source_tree outer od id name : In outer [common "Source"; indicator "Source"] -> Missing -> (forall s, opt_text name = Some s -> W s) ->
    all quoted (erase (source_tree outer od id name)).
  Proof.
    intros _ M N x [<-|[<-|[<-|[]]]]; (split; [|split; [|split]]); cbn [erase source_tree set_id head h_text h_tail h_tag h_kind].
    - intros s E. injection E as <-. apply W_blank; reflexivity.
    - apply beside_none; reflexivity.
    - intros _ s E. injection E as <-. split; reflexivity.
    - auto.
    - intros s E. injection E as <-. apply W_blank; reflexivity.
    - split; [intros s E; injection E as <-; apply V_blank; reflexivity|intro X; discriminate X].
    - intro Q. discriminate Q.
    - auto.
    - exact N.
    - split; [intros s E; injection E as <-; apply V_blank; reflexivity|intro X; discriminate X].
    - intro Q. discriminate Q.
    - auto.
  Qed.

  Lemma quoted_structured o b p : (forall anc y, p anc y = true -> named_in [common "Source"; indicator "Source"] y = true) ->
    invariant quoted (rewrite_all p (structured_source o b)).
  Proof.
    intro P. apply invariant_rewrite. intros a x e Px E A. apply P in Px. unfold structured_source in E.
    destruct (A x (nodes_self x)) as (H1 & H2 & H3 & H4).
    assert (M : Missing).
    { apply H4.
      - unfold named_in, named in Px. destruct (h_kind (head x)); auto; apply existsb_exists in Px as (? & _ & Px); discriminate.
      - apply named_in_tag in Px. simpl in Px |- *. tauto. }
    assert (Cl : clear_text (match h_text (head x) with Some s => s | None => "None" end)).
    { destruct (h_text (head x)) as [s|] eqn:Es; [|split; reflexivity]. apply H3; auto. }
    unfold parse_source in E. rewrite (clear_no_markup _ Cl) in E. set (raw := match h_text (head x) with Some s => s | None => "None" end) in *.
    destruct (chardata raw) as [name|] eqn:Ch; [|discriminate]. injection E as <-. unfold raw in Ch, Cl. clear raw.
    apply chardata_read in Ch as [_ Ch]; [|apply Cl].
    assert (N : forall s, opt_text name = Some s -> W s).
    { intros s Es. assert (s = name) by (unfold opt_text in Es; destruct (String.eqb name ""); [discriminate|injection Es as <-; reflexivity]). subst s.
      destruct (h_text (head x)) as [s|] eqn:Et; [|rewrite (read_unique "None" name "None" Ch) by (apply read_plain; repeat split; reflexivity); exact (W_missing M)].
      exact (W_parsed s name (H1 s eq_refl) Ch). }
    destruct b; apply quoted_source_tree; simpl; auto.
  Qed.
  Ltac among := intros ? H; unfold vocabularies; simpl in H |- *; tauto.
  Ltac one :=
    first [ apply quoted_loc | apply quoted_stix_stamp | apply quoted_stamp_1 | apply quoted_stamp_2
          | apply quoted_lists | apply quoted_rename; reflexivity | apply quoted_ns; vm_compute; reflexivity
          | apply quoted_child_value; simpl; tauto | apply quoted_as_string; simpl; tauto
          | apply quoted_structured; intros ? ? X; eapply child_in_source; [|exact X]; simpl; tauto
          | apply quoted_contributing
          | apply quoted_wrap; reflexivity | apply quoted_wrap_renamed; reflexivity | apply quoted_unwrap; simpl; tauto
          | apply quoted_optional | apply quoted_optional_in | apply quoted_vocabs; among
          | apply quoted_vocab; unfold vocabularies; simpl; tauto ].
  Ltac each :=
    repeat match goal with
           | |- invariant _ (in_order (_ :: _)) => apply invariant_cons
           | |- invariant _ (in_order []) => apply invariant_nil
           | |- invariant _ (when _ _) => apply invariant_when
           | |- invariant _ _ => one
           end.

  Lemma quoted_2_0 marked opts : invariant quoted (cybox_2_0_step marked opts).
  Proof. unfold cybox_2_0_step. each. Qed.
  Lemma quoted_2_0_1 marked opts : invariant quoted (cybox_2_0_1_step marked opts).
  Proof. unfold cybox_2_0_1_step. each. Qed.

  Lemma stix_step_quoted o opts v f : stix_step o opts v = Some f -> invariant quoted f.
  Proof.
    intro E. unfold stix_step in E. by_version E.
    - unfold stix_1_0_step. each. apply quoted_2_0.
    - unfold stix_1_0_1_step. each. apply quoted_2_0_1.
    - unfold stix_1_1_step. each.
    - unfold stix_1_1_1_step. each.
    - unfold stix_1_2_step. each. apply invariant_on_root. intros h H. apply quoted_set; exact H.
  Qed.

  Lemma cybox_step_quoted opts v f : cybox_step opts v = Some f -> invariant quoted f.
  Proof. intro E. unfold cybox_step in E. by_version E; [apply quoted_2_0|apply quoted_2_0_1]. Qed.

  Lemma quoted_blind h : quoted (set_id 0 h) <-> quoted h.
  Proof. reflexivity. Qed.

  Lemma robust_quoted : robust quoted.
  Proof. split; [apply quoted_blind|]. intros w h H. apply quoted_set; auto. Qed.

  Lemma single_quoted c D f new_id force g T oc : invariant quoted f ->
    single c D f new_id force g T = Ok oc -> all quoted T -> all quoted (new_document oc).
  Proof.
    intros P S H. destruct (single_worked _ _ _ _ _ _ _ _ S) as (t1 & F & Fit & Wk). apply (P _ _ F).
    destruct Wk as [->|(Fo & _)]; [apply all_erase; [apply quoted_blind|exact H]|]. apply Fit; [apply robust_quoted|exact H].
  Qed.

  Lemma chain_quoted one : (forall v g T oc, one v g T = Ok oc -> all quoted T -> all quoted (new_document oc)) ->
    forall vs g t e l ds, chain one vs g t = Ok (e, l, ds) -> all quoted t -> all quoted e.
  Proof.
    intro H. induction vs as [|v vs IH]; intros g t e l ds E R.
    - injection E as <- <- <-. exact R.
    - apply chain_ok in E as (oc & l' & ds' & E1 & E2). eapply IH; [exact E2|]. eapply H; [exact E1|].
      apply all_numbered; [apply quoted_blind|exact R].
  Qed.

  Lemma ran_quoted m s t one vs g r s' : all quoted t ->
    (forall v g T oc, one v g T = Ok oc -> all quoted T -> all quoted (new_document oc)) ->
    runs_chain m s (chain one vs g (erase t)) -> m s = (Ok r, s') -> exists new, document s' (r_document r) new /\ all quoted new.
  Proof.
    intros R H Rn E. unfold runs_chain in Rn. destruct (chain one vs g (erase t)) as [[[e l] ds]|x] eqn:Ch.
    - destruct Rn as (r0 & s0 & ns & E0 & Wf & Doc & _). rewrite E in E0. injection E0 as <- <-. exists e. split; auto.
      eapply chain_quoted; [exact H|exact Ch|]. apply all_erase; [apply quoted_blind|exact R].
    - destruct Rn as (n & s0 & E0). rewrite E in E0. discriminate.
  Qed.

  Lemma stix_quoted o d from to opts force s t r s' : wf_state s -> denotes s d t -> all quoted t ->
    stix_update o d from to opts force s = (Ok r, s') -> exists new, document s' (r_document r) new /\ all quoted new.
  Proof.
    intros Wf D R E. pose proof (stix_validation o d from to opts force s t Wf D) as Va. cbv zeta in Va.
    destruct (stix_start from t) as [a|] eqn:Ea; [|rewrite Va in E; discriminate].
    set (b := match given to with Some b => b | None => "1.2.1" end) in *.
    destruct stix_table_ok as [_ Nt]. destruct (older_dec STIX_VERSIONS a b Nt) as [Ho|Ho]; [|rewrite (proj1 Va Ho) in E; discriminate].
    pose proof (slice_between _ _ _ Nt Ho) as B.
    pose proof (stix_update_runs o d from to opts force s t a _ Wf D Ea B) as Rn.
    eapply ran_quoted; [exact R| |exact Rn|exact E].
    intros v g T oc S RT. unfold stix_single in S. destruct (stix_check o _ v) as [c|]; [|discriminate].
    destruct (stix_dirt o v) as [Di|] eqn:Ed; [|discriminate]. destruct (stix_step o _ v) as [f|] eqn:Ef; [|discriminate].
    eapply single_quoted; [eapply stix_step_quoted; eauto|exact S|exact RT].
  Qed.

  Lemma cybox_quoted o d from to opts force s t r s' : wf_state s -> denotes s d t -> all quoted t ->
    cybox_update o d from to opts force s = (Ok r, s') -> exists new, document s' (r_document r) new /\ all quoted new.
  Proof.
    intros Wf D R E. pose proof (cybox_validation o d from to opts force s t Wf D) as Va. cbv zeta in Va.
    destruct (cybox_start from t) as [a|] eqn:Ea; [|rewrite Va in E; discriminate].
    set (b := match given to with Some b => b | None => "2.1" end) in *.
    destruct cybox_table_ok as [_ Nt]. destruct (older_dec CYBOX_VERSIONS a b Nt) as [Ho|Ho]; [|rewrite (proj1 Va Ho) in E; discriminate].
    pose proof (slice_between _ _ _ Nt Ho) as B.
    pose proof (cybox_update_runs o d from to opts force s t a _ Wf D Ea B) as Rn.
    eapply ran_quoted; [exact R| |exact Rn|exact E].
    intros v g T oc S RT. unfold cybox_single in S. destruct (cybox_check _ v) as [c|]; [|discriminate].
    destruct (cybox_dirt v) as [Di|] eqn:Ed; [|discriminate]. destruct (cybox_step _ v) as [f|] eqn:Ef; [|discriminate].
    eapply single_quoted; [eapply cybox_step_quoted; eauto|exact S|exact RT].
  Qed.
End Words.

(** ** The texts of a document *)

Definition may_miss (t : tree) : Prop :=
  exists x, In x (nodes t) /\ named_in credited x = true.

Lemma quoted_start t : sources_without_markup t -> all (quoted (text_from t) (tail_from t) (section_from t) (may_miss t)) t.
Proof.
  intros S x Hx. split; [|split; [|split]].
  - intros s E. eapply from_there; eauto.
  - split; [intros s E; right; exists x; auto|]. intro E. exists x. auto.
  - apply clear_all in S. apply S. exact Hx.
  - intros K I. exists x. split; auto. unfold named_in. apply existsb_exists. exists (h_tag (head x)). split; auto.
    unfold named. rewrite K. apply qn_eqb_refl.
Qed.

Lemma entry_quoted o u d from to opts force s t r s' new : entry o u -> wf_state s -> denotes s d t -> sources_without_markup t ->
  u d from to opts force s = (Ok r, s') -> document s' (r_document r) new ->
  all (quoted (text_from t) (tail_from t) (section_from t) (may_miss t)) new.
Proof.
  intros En W D S E Doc. pose proof (entry_wf _ _ _ _ _ _ _ _ _ _ _ En W D E) as W'.
  pose proof (quoted_start t S) as Q.
  assert (C1 : forall a b, text_from t a -> In (a, b) respelt -> text_from t b) by (intros; eapply from_respelt; eauto).
  assert (C2 : forall a, text_from t a -> text_from t (replace "&comma;" "," (replace "," "##comma##" a))) by (intros; apply from_listed; auto).
  assert (C3 : forall a b, text_from t a -> read_as a b -> text_from t b) by (intros; eapply from_parsed; eauto).
  assert (C4 : forall a, blank_text (Some a) = true -> text_from t a) by (intros; apply from_blank; auto).
  assert (C5 : forall a, blank_text (Some a) = true -> tail_from t a) by (intros; left; auto).
  assert (C6 : may_miss t -> text_from t "None") by (intros (x & Ix & Nx); eapply from_missing; eauto).
  assert (ST : forall to opts d from, denotes s d t -> stix_update o d from to opts force s = (Ok r, s') ->
    exists e, document s' (r_document r) e /\ all (quoted (text_from t) (tail_from t) (section_from t) (may_miss t)) e)
    by (intros to0 opts0 d0 from0 D0 E0; eapply stix_quoted; [exact C1|exact C2|exact C3|exact C4|exact C5|exact C6|exact W|exact D0|exact Q|exact E0]).
  assert (CY : forall to opts d from, denotes s d t -> cybox_update o d from to opts force s = (Ok r, s') ->
    exists e, document s' (r_document r) e /\ all (quoted (text_from t) (tail_from t) (section_from t) (may_miss t)) e)
    by (intros to0 opts0 d0 from0 D0 E0; eapply cybox_quoted; first [exact C1|exact C2|exact C4|exact C5|exact W|exact D0|exact Q|exact E0]).
  assert (X : exists e, document s' (r_document r) e /\ all (quoted (text_from t) (tail_from t) (section_from t) (may_miss t)) e).
  { destruct En as [->|[->| ->]]; [|eapply ST; eauto|eapply CY; eauto].
    destruct (String.eqb_spec (q_local (h_tag (head t))) "STIX_Package") as [N|N].
    - rewrite (ramrod_is_stix o d from to opts force s t W D N) in E. eapply ST; eauto.
    - destruct (String.eqb_spec (q_local (h_tag (head t))) "Observables") as [N'|N'].
      + rewrite (ramrod_is_cybox o d from to opts force s t W D N') in E. eapply CY; eauto.
      + pose proof (ramrod_other o d from to opts force s t W D N N') as Z. rewrite E in Z. discriminate. }
  destruct X as (e & De & Ke). rewrite (document_unique _ _ _ _ W' Doc De). exact Ke.
Qed.
