(** * List values through the steps from STIX 1.0 and CybOX 2.0. *)

From Coq Require Import String Ascii List Bool Arith Lia.
From Verif Require Import Str Xml XPath Utils Base Tables Cybox Stix Spec SpecDoc SpecPass SpecStep SpecUpdate SpecTrace SpecField SpecLocation SpecName Lib Worked Marks Codec.
Import ListNotations.
Local Open Scope string_scope.

Lemma stems_at_impl (R R' : list tree -> tree -> hdr -> Prop) T e : (forall anc x h', R anc x h' -> R' anc x h') -> stems_at R T e -> stems_at R' T e.
Proof. intros H S x Hx Nz. destruct (S x Hx Nz) as (b & y & I & E & P). exists b, y. auto. Qed.

Lemma repeat_none n h : h_text h = None -> h_text (repeat_edit n h) = None.
Proof. intro H. induction n as [|n IH]; auto. cbn [repeat_edit]. unfold convert_text. rewrite IH. exact IH. Qed.

Lemma repeat_relisted n h s : h_text h = Some s -> exists s', h_text (repeat_edit n h) = Some s' /\ relisted_times n s s'.
Proof.
  intro H. induction n as [|n (m & E & R)]; [exists s; split; [exact H|reflexivity]|].
  cbn [repeat_edit]. unfold convert_text. rewrite E.
  destruct (String.eqb m "") eqn:Em.
  - apply String.eqb_eq in Em. subst m. exists "". split; auto. exists "". split; auto. apply relisted_replace. reflexivity.
  - eexists. split; [reflexivity|]. exists m. split; auto. apply relisted_replace. reflexivity.
Qed.

Lemma value_list v vs anc x h' : existsb (String.eqb v) ["1.0"; "2.0"] = true -> vocabulary_value v vs anc x h' -> list_kept vs anc x h'.
Proof.
  intros V [_ R] El N. unfold text_before in R. rewrite V in R.
  assert (V1 : existsb (String.eqb v) ["1.0.1"; "2.0.1"] = false).
  { cbn [existsb] in V. rewrite orb_false_r in V. apply orb_true_iff in V as [V|V]; apply String.eqb_eq in V; subst; reflexivity. }
  rewrite V1 in R. destruct (R eq_refl) as [_ R']. specialize (R' N). unfold list_text in R'. rewrite El in R'. split.
  - intro P. rewrite P in R'. exact R'.
  - rewrite R'. split; [|split].
    + intro Nn. apply repeat_none. exact Nn.
    + intros s Hs. apply repeat_relisted. exact Hs.
    + intros P s l Hs Sp. rewrite P. cbn [repeat_edit]. unfold convert_text. rewrite Hs.
      destruct (codec_exact s l Sp) as (l' & D & S'). exists (replace "&comma;" "," (replace "," "##comma##" s)), l'. split; auto.
      destruct (String.eqb s "") eqn:E; [|reflexivity]. apply String.eqb_eq in E. subst s. exact Hs.
Qed.

Lemma stix_1_0_lists o opts up d force s t r s' :
  dict_get "1.0" (STIX_UPDATERS o) = Some up -> wf_state s -> denotes s d t -> is_elem t = true -> distinct_attributes t ->
  updater_update o up d opts force s = (Ok r, s') ->
  exists t1 e, worked_on o up d opts force s t t1 /\ document s' (r_document r) (erase e) /\
    carried (stix_gone (or_default o opts) "1.0") (labelled t1) e /\
    stems_at (list_kept (if update_vocabularies (or_default o opts) then stix_vocabularies "1.0" else [])) (labelled t1) e.
Proof.
  intros U W Dn El DA E. destruct (stix_vocabularies_updated o opts "1.0" up d force s t r s' U) as (t1 & e & A & B & C & D); auto; try discriminate.
  exists t1, e. split; auto. split; auto. split; auto. eapply stems_at_impl; [|exact D]. intros anc x h'. apply value_list. reflexivity.
Qed.

Lemma cybox_2_0_lists o opts up d force s t r s' :
  dict_get "2.0" (CYBOX_UPDATERS o) = Some up -> wf_state s -> denotes s d t -> is_elem t = true -> distinct_attributes t ->
  updater_update o up d opts force s = (Ok r, s') ->
  exists t1 e, worked_on o up d opts force s t t1 /\ document s' (r_document r) (erase e) /\
    carried (cybox_gone (or_default o opts) "2.0") (labelled t1) e /\
    stems_at (list_kept (if update_vocabularies (or_default o opts) then cybox_vocabularies "2.0" else [])) (labelled t1) e.
Proof.
  intros U W Dn El DA E. destruct (cybox_vocabularies_updated o opts "2.0" up d force s t r s' U) as (t1 & e & A & B & C & D); auto; try discriminate.
  exists t1, e. split; auto. split; auto. split; auto. eapply stems_at_impl; [|exact D]. intros anc x h'. apply value_list. reflexivity.
Qed.
