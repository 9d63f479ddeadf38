(** * The version the returned document declares. *)

From Coq Require Import String Ascii List Bool Arith Lia.
From Verif Require Import Str Xml XPath Utils Base Tables Spec SpecDoc SpecPass SpecStep
  SpecCheck SpecClean SpecUpdate SpecTrace SpecField Lib Refine RefineBase RefineTrans RefineLists RefineSteps Relabel Cybox Stix Ramrod Api RefineUpdate Natural Updates Reports UpdateFacts Trace Fields Carried Follow Vocab Worked Marks Root.
Import ListNotations.
Local Open Scope string_scope.

Definition hname (h : hdr) : kind * qname := (h_kind h, h_tag h).

Definition called (q : qname) (t : tree) : Prop := hname (head t) = (KElem, q).

Lemma named_called q t : named q t = true <-> called q t.
Proof.
  unfold named, called, hname. destruct (h_kind (head t)); split; try discriminate.
  - intro H. apply qn_eqb_eq in H. congruence.
  - intro H. injection H as ->. apply qn_eqb_refl.
Qed.

(** The root of the document a step works on. *)
Lemma cleaned_root f g d t : hname (head (erase (cleaned f g d t))) = hname (head t).
Proof.
  unfold cleaned, without, prune, fresh_ids. destruct t as [h ks]. cbn [edit subst_nodes erase head].
  destruct (position (tid (Node h ks)) (renumbered d)), (id_of (Node h ks)); reflexivity.
Qed.

Lemma cleaned_root_NoDup f g d t : NoDup (map fst (h_attr (head t))) -> NoDup (map fst (h_attr (head (erase (cleaned f g d t))))).
Proof.
  unfold cleaned, without, prune, fresh_ids. destruct t as [h ks]. cbn [edit subst_nodes erase head].
  destruct (position (tid (Node h ks)) (renumbered d)), (id_of (Node h ks)); auto. intro N. simpl. apply attr_set_NoDup. exact N.
Qed.

Lemma numbered_root n t : hname (head (numbered n t)) = hname (head t) /\ h_attr (head (numbered n t)) = h_attr (head t).
Proof.
  pose proof (numbered_erase n t) as E. destruct (numbered n t) as [h ks], t as [h' ks']. cbn in E. injection E. intros.
  destruct h, h'. unfold hname. cbn in *. split; congruence.
Qed.

Lemma erase_root t : hname (head (erase t)) = hname (head t) /\ h_attr (head (erase t)) = h_attr (head t).
Proof. destruct t as [h ks]. split; reflexivity. Qed.

Lemma single_root c D (f : tree -> res tree) new_id force g n t oc : single c D f new_id force g (numbered n t) = Ok oc ->
  exists t1, f t1 = Ok (new_document oc) /\ hname (head t1) = hname (head t) /\
    (NoDup (map fst (h_attr (head t))) -> NoDup (map fst (h_attr (head t1)))).
Proof.
  intro H. destruct (single_worked _ _ _ _ _ _ _ _ H) as (t1 & F & _ & W). exists t1. split; auto.
  destruct (numbered_root n t) as [N1 N2]. destruct W as [->|(_ & dt & _ & ->)].
  - destruct (erase_root (numbered n t)) as [E1 E2]. rewrite E1, E2, N1, N2. auto.
  - rewrite cleaned_root, N1. split; auto. intro N. apply cleaned_root_NoDup. rewrite N2. exact N.
Qed.

Lemma name_loc drop m loc : root_keeps hname (always (schemaloc_pass drop m loc)).
Proof. apply root_loc. reflexivity. Qed.

(** ** STIX *)

Lemma root_driver_name q t e : called q t -> q_ns q <> Some "http://cybox.mitre.org/objects#WinDriverObject-2" ->
  namespaces_pass [] driver_ns t = Ok e -> head e = head t.
Proof.
  intros C N E. apply namespaces_ok in E as ->. destruct t as [h ks]. unfold called, hname in C. cbn [head] in *. injection C as _ T.
  cbn [ns_pass head]. replace (moves driver_ns (Node h ks)) with false; auto. symmetry.
  destruct (moves driver_ns (Node h ks)) eqn:M; auto. apply driver_moves in M. cbn [head] in M. congruence.
Qed.

Lemma root_name_2_0 p opts : root_keeps hname (cybox_2_0_step p opts).
Proof. unfold cybox_2_0_step. roots; [apply root_loc|apply root_edit_where]; reflexivity. Qed.

Lemma root_name_2_0_1 p opts q t e : called q t -> q_ns q <> Some "http://cybox.mitre.org/objects#WinDriverObject-2" ->
  cybox_2_0_1_step p opts t = Ok e -> called q e.
Proof.
  intros C N E. unfold cybox_2_0_1_step in E. apply in_order_ok in E as (m & E1 & E).
  unfold called. rewrite <- C, <- (root_driver_name q t m C N E1).
  refine ((_ : root_keeps hname _) _ _ E). roots; [apply root_loc|apply root_edit_where]; reflexivity.
Qed.

Definition stix_next : dict string :=
  [("1.0", "1.0.1"); ("1.0.1", "1.1"); ("1.1", "1.1.1"); ("1.1.1", "1.2"); ("1.2", "1.2.1")].

Lemma stix_root_name o opts v f t e : stix_step o opts v = Some f -> v <> "1.2" -> called (stix "STIX_Package") t -> f t = Ok e ->
  called (stix "STIX_Package") e.
Proof.
  intros H Nv C E. unfold stix_step in H. by_version H; try congruence.
  - unfold called. rewrite <- C. refine ((_ : root_keeps hname _) _ _ E). unfold stix_1_0_step.
    apply root_cons; [apply root_name_2_0|]. roots; [apply root_loc|apply root_edit_where]; reflexivity.
  - unfold stix_1_0_1_step in E. apply in_order_ok in E as (m & E1 & E).
    apply root_name_2_0_1 with (q := stix "STIX_Package") in E1; auto; [|discriminate].
    unfold called. rewrite <- E1. refine ((_ : root_keeps hname _) _ _ E). roots; [apply root_loc|apply root_edit_where]; reflexivity.
  - unfold called. rewrite <- C. refine ((_ : root_keeps hname _) _ _ E). unfold stix_1_1_step.
    roots; [apply root_loc|apply root_loc|apply root_edit_where]; reflexivity.
  - unfold called. rewrite <- C. refine ((_ : root_keeps hname _) _ _ E). unfold stix_1_1_1_step.
    roots; [apply root_loc|apply root_edit_where]; reflexivity.
Qed.

Lemma stamped_package i o t e : called (stix "STIX_Package") t -> always (edit_where carries_version (stamp_stix i o)) t = Ok e ->
  attr_of (lq "version") (head e) = Some o.
Proof.
  intros C E. injection E as <-. unfold edit_where. rewrite head_edit. unfold carries_version. apply named_called in C as C'. rewrite C'. cbn [orb].
  unfold stamp_stix. rewrite attr_of_set_same. unfold called, hname in C. injection C as _ T. rewrite T. reflexivity.
Qed.

Lemma stix_root_version o opts v f w t e : stix_step o opts v = Some f -> dict_get v stix_next = Some w ->
  called (stix "STIX_Package") t -> f t = Ok e -> attr_of (lq "version") (head e) = Some w.
Proof.
  intros H Hw C E. unfold stix_step in H. by_version H; apply some_inj in Hw; subst w.
  - unfold stix_1_0_step in E. apply in_order_ok in E as (m & E1 & E). apply in_order_ok in E as (m2 & E2 & E). apply in_order_ok in E as (m3 & E3 & E).
    assert (C3 : called (stix "STIX_Package") m2).
    { unfold called. rewrite <- C. rewrite <- (root_name_2_0 _ _ t m E1). exact (name_loc _ _ _ _ _ E2). }
    rewrite <- (stamped_package _ _ m2 m3 C3 E3). refine ((_ : root_keeps (attr_of (lq "version")) _) _ _ E). roots.
  - unfold stix_1_0_1_step in E. apply in_order_ok in E as (m & E1 & E). apply in_order_ok in E as (m2 & E2 & E). apply in_order_ok in E as (m3 & E3 & E).
    assert (C3 : called (stix "STIX_Package") m2).
    { unfold called. apply root_name_2_0_1 with (q := stix "STIX_Package") in E1; auto; [|discriminate]. rewrite <- E1.
      exact (name_loc _ _ _ _ _ E2). }
    rewrite <- (stamped_package _ _ m2 m3 C3 E3). refine ((_ : root_keeps (attr_of (lq "version")) _) _ _ E). roots.
  - unfold stix_1_1_step in E. apply in_order_ok in E as (m & E1 & E). apply in_order_ok in E as (m2 & E2 & E). apply in_order_ok in E as (m3 & E3 & E).
    assert (C3 : called (stix "STIX_Package") m2).
    { unfold called. rewrite <- C. rewrite <- (name_loc _ _ _ _ _ E1). exact (name_loc _ _ _ _ _ E2). }
    rewrite <- (stamped_package _ _ m2 m3 C3 E3). refine ((_ : root_keeps (attr_of (lq "version")) _) _ _ E). roots.
  - unfold stix_1_1_1_step in E. apply in_order_ok in E as (m2 & E2 & E). apply in_order_ok in E as (m3 & E3 & E).
    assert (C3 : called (stix "STIX_Package") m2).
    { unfold called. rewrite <- C. exact (name_loc _ _ _ _ _ E2). }
    rewrite <- (stamped_package _ _ m2 m3 C3 E3). refine ((_ : root_keeps (attr_of (lq "version")) _) _ _ E). roots.
  - unfold stix_1_2_step in E. apply in_order_ok in E as (m & E1 & E). apply in_order_ok in E as (m2 & E2 & E). apply in_order_ok in E as (m3 & E3 & E).
    rewrite in_order_nil in E. injection E as <-. injection E3 as <-. apply attr_of_set_same.
Qed.

(** ** A chain of steps *)

Lemma chain_ok one v vs g t e l ds : chain one (v :: vs) g t = Ok (e, l, ds) ->
  exists oc l' ds', one v g (numbered 0 t) = Ok oc /\ chain one vs (g + replacements oc) (new_document oc) = Ok (e, l', ds').
Proof.
  cbn [chain]. destruct (one v g (numbered 0 t)) as [oc|]; [|discriminate]. cbn [rbind].
  destruct (chain one vs (g + replacements oc) (new_document oc)) as [[[e' l'] ds']|] eqn:X; [|discriminate]. cbn [rbind].
  intro H. injection H as <- _ _. exists oc, l', ds'. auto.
Qed.

Lemma stix_chain_version o opts force vs w : forall t g e l ds,
  called (stix "STIX_Package") t -> ~ In "1.2" (removelast vs) -> vs <> [] -> dict_get (last vs "") stix_next = Some w ->
  chain (stix_single o opts force) vs g t = Ok (e, l, ds) -> attr_of (lq "version") (head e) = Some w.
Proof.
  induction vs as [|v vs IH]; intros t g e l ds C N12 Nn Nx E; [congruence|].
  apply chain_ok in E as (oc & l' & ds' & E1 & E2). unfold stix_single in E1.
  destruct (stix_check o opts v); [|discriminate]. destruct (stix_dirt o v); [|discriminate].
  destruct (stix_step o opts v) as [f|] eqn:F; [|discriminate]. apply single_root in E1 as (t1 & F1 & H1 & _).
  assert (C1 : called (stix "STIX_Package") t1) by (unfold called; rewrite H1; exact C).
  destruct vs as [|v' vs].
  - cbn [chain] in E2. injection E2 as <- _ _. eapply stix_root_version; eauto.
  - eapply (IH (new_document oc)); [| | |exact Nx|exact E2].
    + eapply stix_root_name; [exact F| |exact C1|exact F1]. intros ->. apply N12. left. reflexivity.
    + intro I. apply N12. right. exact I.
    + discriminate.
Qed.

Lemma last_split (vs : list string) : vs <> [] -> vs = (removelast vs ++ [last vs ""])%list.
Proof. intro N. apply app_removelast_last. exact N. Qed.

Lemma stix_adjacent p x y q : STIX_VERSIONS = (p ++ x :: y :: q)%list -> dict_get x stix_next = Some y.
Proof.
  intro E. destruct p as [|a0 [|a1 [|a2 [|a3 [|a4 [|a5 p]]]]]]; simpl in E; injection E; intros; subst; try reflexivity; try discriminate.
  destruct p; discriminate.
Qed.

Lemma stix_between a b vs : between STIX_VERSIONS a b vs ->
  vs <> [] /\ ~ In "1.2" (removelast vs) /\ dict_get (last vs "") stix_next = Some b.
Proof.
  intros (l1 & l2 & l3 & E & ->). set (vs := a :: l2) in *. assert (N : vs <> []) by discriminate.
  split; auto. rewrite (last_split vs N) in E. rewrite <- !app_assoc in E. cbn [app] in E. split.
  - intro I. apply in_split in I as (u & w & I). rewrite I in E. rewrite <- !app_assoc in E. cbn [app] in E.
    assert (X : STIX_VERSIONS = ((l1 ++ u) ++ "1.2" :: (w ++ last vs "" :: b :: l3))%list) by (rewrite <- app_assoc; exact E).
    clear -X. destruct (l1 ++ u)%list as [|a0 [|a1 [|a2 [|a3 [|a4 [|a5 p]]]]]]; simpl in X; injection X; intros; try discriminate.
    + destruct w as [|? [|? ?]]; simpl in *; discriminate.
    + destruct p; discriminate.
  - apply (stix_adjacent (l1 ++ removelast vs) _ _ l3). rewrite <- app_assoc. exact E.
Qed.

Lemma stix_declares o d from to opts force s t r s' : wf_state s -> denotes s d t -> named (stix "STIX_Package") t = true ->
  stix_update o d from to opts force s = (Ok r, s') ->
  exists new, document s' (r_document r) new /\
    attr_of (lq "version") (head new) = Some (match given to with Some b => b | None => "1.2.1" end).
Proof.
  intros W D Nm E. pose proof (stix_validation o d from to opts force s t W D) as V. cbv zeta in V.
  destruct (stix_start from t) as [a|] eqn:Ea; [|rewrite V in E; discriminate].
  set (b := match given to with Some b => b | None => "1.2.1" end) in *.
  destruct stix_table_ok as [_ N]. destruct (older_dec STIX_VERSIONS a b N) as [Ho|Ho]; [|rewrite (proj1 V Ho) in E; discriminate].
  pose proof (slice_between _ _ _ N Ho) as B.
  pose proof (stix_update_runs o d from to opts force s t a _ W D Ea B) as R. unfold runs_chain in R.
  destruct (chain _ _ _ _) as [[[e l] ds]|x] eqn:Ch.
  - destruct R as (r' & s'' & ns & E' & W' & Doc & _). rewrite E in E'. injection E' as <- <-. exists e. split; auto.
    destruct (stix_between a b _ B) as (X1 & X2 & X3).
    eapply stix_chain_version; [|exact X2|exact X1|exact X3|exact Ch]. apply named_called in Nm.
    unfold called. rewrite (proj1 (erase_root t)). exact Nm.
  - destruct R as (n & s'' & E'). rewrite E in E'. discriminate.
Qed.

(** ** CybOX *)

Definition cybox_next : dict string := [("2.0", "2.0.1"); ("2.0.1", "2.1")].

Definition declared_by (h : hdr) : option string := cybox_declared (Node h []).

Lemma declared_version h h' : cybox_version_of h = cybox_version_of h' -> declared_by h = declared_by h'.
Proof.
  unfold cybox_version_of, declared_by, cybox_declared, attr_of. cbn [head]. intro H. injection H as -> -> ->. reflexivity.
Qed.

Lemma declared_is h a b c : cybox_version_of h = [a; b; c] -> declared_by h =
  match given a, given b, given c with
  | Some a, Some b, Some c => Some (a ++ "." ++ b ++ "." ++ c)
  | Some a, Some b, None => Some (a ++ "." ++ b)
  | _, _, _ => None
  end.
Proof.
  unfold cybox_version_of, declared_by, cybox_declared, attr_of. cbn [head]. intro H. injection H as -> -> ->. reflexivity.
Qed.

Lemma observables_marked t : called (cybox "Observables") t -> anywhere [cybox "Observables"] [] t = true.
Proof. intro C. apply named_called in C. unfold anywhere. cbn. rewrite C. reflexivity. Qed.

Lemma root_version_loc drop m loc : root_keeps cybox_version_of (always (schemaloc_pass drop m loc)).
Proof. apply root_loc. intros v h. apply version_of_set. simpl. intros [E|[E|[E|[]]]]; discriminate E. Qed.

Lemma cybox_root_name opts v f t e : cybox_step opts v = Some f -> called (cybox "Observables") t -> f t = Ok e -> called (cybox "Observables") e.
Proof.
  intros H C E. unfold cybox_step in H. by_version H.
  - unfold called. rewrite <- C. exact (root_name_2_0 _ _ _ _ E).
  - eapply root_name_2_0_1; eauto. discriminate.
Qed.

Lemma set_root_NoDup k v h : NoDup (map fst (h_attr h)) -> NoDup (map fst (h_attr (hset_attr k v h))).
Proof. intro N. apply attr_set_NoDup. exact N. Qed.

Lemma loc_root_NoDup drop m loc t e : always (schemaloc_pass drop m loc) t = Ok e ->
  NoDup (map fst (h_attr (head t))) -> NoDup (map fst (h_attr (head e))).
Proof.
  intros E N. injection E as <-. unfold schemaloc_pass, on_root. cbn [head]. destruct (attr_get _ _); auto. apply set_root_NoDup. exact N.
Qed.

Lemma cybox_root_NoDup opts f t e : cybox_step opts "2.0" = Some f -> NoDup (map fst (h_attr (head t))) -> f t = Ok e ->
  NoDup (map fst (h_attr (head e))).
Proof.
  intros H N E. apply some_inj in H. subst f. unfold cybox_2_0_step in E. apply in_order_ok in E as (m & E1 & E). apply in_order_ok in E as (m2 & E2 & E).
  apply loc_root_NoDup in E1; auto. replace (h_attr (head e)) with (h_attr (head m2)).
  - injection E2 as <-. unfold edit_where. rewrite head_edit. destruct (anywhere _ [] m); auto. unfold stamp_cybox_2_0_1.
    repeat apply set_root_NoDup. exact E1.
  - symmetry. refine ((_ : root_keeps h_attr _) _ _ E). roots.
Qed.

Lemma cybox_root_version opts v f w t e : cybox_step opts v = Some f -> dict_get v cybox_next = Some w ->
  called (cybox "Observables") t -> NoDup (map fst (h_attr (head t))) -> f t = Ok e -> cybox_declared e = Some w.
Proof.
  intros H Hw C Nd E. unfold cybox_step in H. change (cybox_declared e) with (declared_by (head e)). by_version H; apply some_inj in Hw; subst w.
  - unfold cybox_2_0_step in E. apply in_order_ok in E as (m & E1 & E). apply in_order_ok in E as (m2 & E2 & E).
    rewrite (declared_version (head e) (head m2)).
    2:{ refine ((_ : root_keeps cybox_version_of _) _ _ E). roots. }
    injection E2 as <-. unfold edit_where. rewrite head_edit. rewrite observables_marked.
    2:{ unfold called. rewrite <- C. exact (name_loc _ _ _ _ _ E1). }
    pose proof (stamp_2_0_1_version (head m)) as V. rewrite (declared_is _ _ _ _ V). reflexivity.
  - unfold cybox_2_0_1_step in E. apply in_order_ok in E as (m0 & E0 & E). apply in_order_ok in E as (m & E1 & E). apply in_order_ok in E as (m2 & E2 & E).
    apply root_driver_name with (q := cybox "Observables") in E0; auto; [|discriminate].
    rewrite (declared_version (head e) (head m2)).
    2:{ refine ((_ : root_keeps cybox_version_of _) _ _ E). roots. }
    injection E2 as <-. unfold edit_where. rewrite head_edit. rewrite observables_marked.
    2:{ unfold called. rewrite <- C, <- E0. exact (name_loc _ _ _ _ _ E1). }
    assert (N1 : NoDup (map fst (h_attr (head m)))) by (eapply loc_root_NoDup; [exact E1|rewrite E0; exact Nd]).
    pose proof (stamp_2_1_version (head m) N1) as V. rewrite (declared_is _ _ _ _ V). reflexivity.
Qed.

Lemma cybox_chain_version opts force vs w : forall t g e l ds,
  called (cybox "Observables") t -> NoDup (map fst (h_attr (head t))) -> ~ In "2.0.1" (removelast vs) -> vs <> [] ->
  dict_get (last vs "") cybox_next = Some w ->
  chain (cybox_single opts force) vs g t = Ok (e, l, ds) -> cybox_declared e = Some w.
Proof.
  induction vs as [|v vs IH]; intros t g e l ds C Nd N12 Nn Nx E; [congruence|].
  apply chain_ok in E as (oc & l' & ds' & E1 & E2). unfold cybox_single in E1.
  destruct (cybox_check opts v); [|discriminate]. destruct (cybox_dirt v); [|discriminate].
  destruct (cybox_step opts v) as [f|] eqn:F; [|discriminate]. apply single_root in E1 as (t1 & F1 & H1 & H2).
  assert (C1 : called (cybox "Observables") t1) by (unfold called; rewrite H1; exact C).
  destruct vs as [|v' vs].
  - cbn [chain] in E2. injection E2 as <- _ _. eapply cybox_root_version; eauto.
  - eapply (IH (new_document oc)); [| | | |exact Nx|exact E2].
    + eapply cybox_root_name; [exact F|exact C1|exact F1].
    + assert (v = "2.0") as ->.
      { assert (v <> "2.0.1") by (intros ->; apply N12; left; reflexivity). unfold cybox_step in F. clear -F H. by_version F; [reflexivity|congruence]. }
      exact (cybox_root_NoDup opts f t1 _ F (H2 Nd) F1).
    + intro I. apply N12. right. exact I.
    + discriminate.
Qed.

Lemma cybox_adjacent p x y q : CYBOX_VERSIONS = (p ++ x :: y :: q)%list -> dict_get x cybox_next = Some y.
Proof.
  intro E. destruct p as [|a0 [|a1 [|a2 p]]]; simpl in E; injection E; intros; subst; try reflexivity; try discriminate.
  destruct p; discriminate.
Qed.

Lemma cybox_between a b vs : between CYBOX_VERSIONS a b vs ->
  vs <> [] /\ ~ In "2.0.1" (removelast vs) /\ dict_get (last vs "") cybox_next = Some b.
Proof.
  intros (l1 & l2 & l3 & E & ->). set (vs := a :: l2) in *. assert (N : vs <> []) by discriminate.
  split; auto. rewrite (last_split vs N) in E. rewrite <- !app_assoc in E. cbn [app] in E. split.
  - intro I. apply in_split in I as (u & w & I). rewrite I in E. rewrite <- !app_assoc in E. cbn [app] in E.
    assert (X : CYBOX_VERSIONS = ((l1 ++ u) ++ "2.0.1" :: (w ++ last vs "" :: b :: l3))%list) by (rewrite <- app_assoc; exact E).
    clear -X. destruct (l1 ++ u)%list as [|a0 [|a1 [|a2 p]]]; simpl in X; injection X; intros; try discriminate.
    + destruct w as [|? [|? ?]]; simpl in *; discriminate.
    + destruct p; discriminate.
  - apply (cybox_adjacent (l1 ++ removelast vs) _ _ l3). rewrite <- app_assoc. exact E.
Qed.

Lemma cybox_declares o d from to opts force s t r s' : wf_state s -> denotes s d t -> named (cybox "Observables") t = true ->
  NoDup (map fst (h_attr (head t))) ->
  cybox_update o d from to opts force s = (Ok r, s') ->
  exists new, document s' (r_document r) new /\
    cybox_declared new = Some (match given to with Some b => b | None => "2.1" end).
Proof.
  intros W D Nm Nd E. pose proof (cybox_validation o d from to opts force s t W D) as V. cbv zeta in V.
  destruct (cybox_start from t) as [a|] eqn:Ea; [|rewrite V in E; discriminate].
  set (b := match given to with Some b => b | None => "2.1" end) in *.
  destruct cybox_table_ok as [_ N]. destruct (older_dec CYBOX_VERSIONS a b N) as [Ho|Ho]; [|rewrite (proj1 V Ho) in E; discriminate].
  pose proof (slice_between _ _ _ N Ho) as B.
  pose proof (cybox_update_runs o d from to opts force s t a _ W D Ea B) as R. unfold runs_chain in R.
  destruct (chain _ _ _ _) as [[[e l] ds]|x] eqn:Ch.
  - destruct R as (r' & s'' & ns & E' & W' & Doc & _). rewrite E in E'. injection E' as <- <-. exists e. split; auto.
    destruct (cybox_between a b _ B) as (X1 & X2 & X3).
    eapply cybox_chain_version; [| |exact X2|exact X1|exact X3|exact Ch].
    + apply named_called in Nm. unfold called. rewrite (proj1 (erase_root t)). exact Nm.
    + rewrite (proj2 (erase_root t)). exact Nd.
  - destruct R as (n & s'' & E'). rewrite E in E'. discriminate.
Qed.
