(** * Updating the result of an update, and leaving arguments out. *)

From Coq Require Import String Ascii List Bool Arith Lia.
From Verif Require Import Str Xml XPath Utils Base Tables Spec SpecDoc SpecPass SpecStep
  SpecCheck SpecClean SpecUpdate SpecTrace SpecField SpecIds Lib Refine RefineBase RefineTrans RefineLists RefineSteps Relabel Cybox Stix Ramrod Api RefineUpdate Natural Updates Reports UpdateFacts Trace Fields Carried Follow Vocab Worked Marks Root Declared Versions Kept Ids Refs.
Import ListNotations.
Local Open Scope string_scope.

(** ** The local name of the root *)

Definition local (h : hdr) : string := q_local (h_tag h).

Lemma local_2_0 p opts : root_keeps local (cybox_2_0_step p opts).
Proof. unfold cybox_2_0_step. roots; [apply root_loc|apply root_edit_where]; reflexivity. Qed.

Lemma local_2_0_1 p opts : root_keeps local (cybox_2_0_1_step p opts).
Proof. unfold cybox_2_0_1_step. roots; [apply root_ns|apply root_loc|apply root_edit_where]; reflexivity. Qed.

Lemma stix_local o opts v f : stix_step o opts v = Some f -> root_keeps local f.
Proof.
  intro H. unfold stix_step in H. by_version H.
  - unfold stix_1_0_step. apply root_cons; [apply local_2_0|]. roots; [apply root_loc|apply root_edit_where]; reflexivity.
  - unfold stix_1_0_1_step. apply root_cons; [apply local_2_0_1|]. roots; [apply root_loc|apply root_edit_where]; reflexivity.
  - unfold stix_1_1_step. roots; [apply root_loc|apply root_loc|apply root_edit_where]; reflexivity.
  - unfold stix_1_1_1_step. roots; [apply root_loc|apply root_edit_where]; reflexivity.
  - unfold stix_1_2_step. roots; [apply root_ns|apply root_loc|apply root_on_root]; reflexivity.
Qed.

Lemma cybox_local opts v f : cybox_step opts v = Some f -> root_keeps local f.
Proof. intro H. unfold cybox_step in H. by_version H; [apply local_2_0|apply local_2_0_1]. Qed.

Lemma local_same a b : hname (head a) = hname (head b) -> local (head a) = local (head b).
Proof. unfold hname, local. intro H. injection H as _ ->. reflexivity. Qed.

Lemma single_local c D (f : tree -> res tree) new_id force g n t oc : root_keeps local f ->
  single c D f new_id force g (numbered n t) = Ok oc -> local (head (new_document oc)) = local (head t).
Proof.
  intros K E. apply single_root in E as (t1 & F & H & _). rewrite (K t1 _ F). apply local_same. exact H.
Qed.

Lemma chain_local one vs : (forall v g t oc, one v g (numbered 0 t) = Ok oc -> local (head (new_document oc)) = local (head t)) ->
  forall g t e l ds, chain one vs g t = Ok (e, l, ds) -> local (head e) = local (head t).
Proof.
  intro H. induction vs as [|v vs IH]; intros g t e l ds E.
  - cbn [chain] in E. injection E as <- _ _. reflexivity.
  - apply chain_ok in E as (oc & l' & ds' & E1 & E2). rewrite (IH _ _ _ _ _ E2). eapply H. exact E1.
Qed.

Lemma stix_root_local o d from to opts force s t r s' : wf_state s -> denotes s d t ->
  stix_update o d from to opts force s = (Ok r, s') ->
  exists new, document s' (r_document r) new /\ local (head new) = local (head t).
Proof.
  intros W D E. pose proof (stix_validation o d from to opts force s t W D) as V. cbv zeta in V.
  destruct (stix_start from t) as [a|] eqn:Ea; [|rewrite V in E; discriminate].
  set (b := match given to with Some b => b | None => "1.2.1" end) in *.
  destruct stix_table_ok as [_ N]. destruct (older_dec STIX_VERSIONS a b N) as [Ho|Ho]; [|rewrite (proj1 V Ho) in E; discriminate].
  pose proof (slice_between _ _ _ N Ho) as B.
  pose proof (stix_update_runs o d from to opts force s t a _ W D Ea B) as R. unfold runs_chain in R.
  destruct (chain _ _ _ _) as [[[e l] ds]|x] eqn:Ch.
  - destruct R as (r' & s'' & ns & E' & W' & Doc & _). rewrite E in E'. injection E' as <- <-. exists e. split; auto.
    apply chain_local in Ch.
    + rewrite Ch. apply local_same. apply erase_root.
    + clear. intros v g t oc E. unfold stix_single in E. destruct (stix_check o _ v); [|discriminate]. destruct (stix_dirt o v); [|discriminate].
      destruct (stix_step o _ v) as [f|] eqn:F; [|discriminate]. eapply single_local; [|exact E]. eapply stix_local. exact F.
  - destruct R as (n & s'' & E'). rewrite E in E'. discriminate.
Qed.

Lemma cybox_root_local o d from to opts force s t r s' : wf_state s -> denotes s d t ->
  cybox_update o d from to opts force s = (Ok r, s') ->
  exists new, document s' (r_document r) new /\ local (head new) = local (head t).
Proof.
  intros W D E. pose proof (cybox_validation o d from to opts force s t W D) as V. cbv zeta in V.
  destruct (cybox_start from t) as [a|] eqn:Ea; [|rewrite V in E; discriminate].
  set (b := match given to with Some b => b | None => "2.1" end) in *.
  destruct cybox_table_ok as [_ N]. destruct (older_dec CYBOX_VERSIONS a b N) as [Ho|Ho]; [|rewrite (proj1 V Ho) in E; discriminate].
  pose proof (slice_between _ _ _ N Ho) as B.
  pose proof (cybox_update_runs o d from to opts force s t a _ W D Ea B) as R. unfold runs_chain in R.
  destruct (chain _ _ _ _) as [[[e l] ds]|x] eqn:Ch.
  - destruct R as (r' & s'' & ns & E' & W' & Doc & _). rewrite E in E'. injection E' as <- <-. exists e. split; auto.
    apply chain_local in Ch.
    + rewrite Ch. apply local_same. apply erase_root.
    + clear. intros v g t oc E. unfold cybox_single in E. destruct (cybox_check _ v); [|discriminate]. destruct (cybox_dirt v); [|discriminate].
      destruct (cybox_step _ v) as [f|] eqn:F; [|discriminate]. eapply single_local; [|exact E]. eapply cybox_local. exact F.
  - destruct R as (n & s'' & E'). rewrite E in E'. discriminate.
Qed.

Lemma ramrod_root_local o d from to opts force s t r s' : wf_state s -> denotes s d t ->
  ramrod_update o d from to opts force s = (Ok r, s') ->
  exists new, document s' (r_document r) new /\ local (head new) = local (head t).
Proof.
  intros W D E.
  destruct (string_dec (q_local (h_tag (head t))) "STIX_Package") as [A|A].
  - rewrite (ramrod_is_stix o d from to opts force s t W D A) in E. eapply stix_root_local; eauto.
  - destruct (string_dec (q_local (h_tag (head t))) "Observables") as [B|B].
    + rewrite (ramrod_is_cybox o d from to opts force s t W D B) in E. eapply cybox_root_local; eauto.
    + pose proof (ramrod_other o d from to opts force s t W D A B) as X. rewrite E in X. discriminate.
Qed.

Lemma entry_root_local o u d from to opts force s t r s' new : entry o u -> wf_state s -> denotes s d t ->
  u d from to opts force s = (Ok r, s') -> document s' (r_document r) new ->
  q_local (h_tag (head new)) = q_local (h_tag (head t)).
Proof.
  intros En W D E Doc. pose proof (entry_wf _ _ _ _ _ _ _ _ _ _ _ En W D E) as W'.
  assert (X : exists e, document s' (r_document r) e /\ local (head e) = local (head t))
    by (destruct En as [->|[->| ->]]; [eapply ramrod_root_local|eapply stix_root_local|eapply cybox_root_local]; first [exact W|exact D|exact E]).
  destruct X as (e & De & L). rewrite (document_unique _ _ _ _ W' Doc De). exact L.
Qed.

(** ** The result as an argument *)

Lemma older_irrefl l a : NoDup l -> ~ older l a a.
Proof.
  intros N (l1 & l2 & l3 & ->). apply NoDup_remove_2 in N. apply N. apply in_or_app. right. apply in_or_app. right. left. reflexivity.
Qed.

Lemma document_node s i new : document s i new -> exists T, node_at s i [] T /\ erase T = new.
Proof.
  intros (T & I & <- & E). exists T. split; auto. exists T. split; auto. split; [apply visits_self|reflexivity].
Qed.

Lemma erased_attrs T new : erase T = new -> h_attr (head T) = h_attr (head new) /\ h_tag (head T) = h_tag (head new).
Proof. intros <-. destruct T as [h ks]. split; reflexivity. Qed.

Lemma stix_again o d from to opts force s t r s' h o2 from2 to2 opts2 force2 :
  wf_state s -> denotes s d t -> named (stix "STIX_Package") t = true ->
  stix_update o d from to opts force s = (Ok r, s') ->
  h = DElem (r_document r) \/ h = DTree (r_document r) -> given from2 = None ->
  ~ older STIX_VERSIONS (match given to with Some b => b | None => "1.2.1" end) (match given to2 with Some b => b | None => "1.2.1" end) ->
  stix_update o2 h from2 to2 opts2 force2 s' = (Err (InvalidVersionError None None None), s').
Proof.
  intros W D Nm E Hh G No. destruct (stix_declares _ _ _ _ _ _ _ _ _ _ W D Nm E) as (new & Doc & Ver).
  assert (W' : wf_state s') by (eapply stix_renumbers; eauto).
  destruct (document_node _ _ _ Doc) as (T & Na & ET). destruct (erased_attrs _ _ ET) as [EA _].
  assert (D2 : denotes s' h T) by (destruct Hh as [->| ->]; exists []; exact Na).
  pose proof (stix_validation o2 h from2 to2 opts2 force2 s' T W' D2) as V. cbv zeta in V.
  assert (St : stix_start from2 T = Some (match given to with Some b => b | None => "1.2.1" end)).
  { unfold stix_start. rewrite G, EA. unfold attr_of in Ver. rewrite Ver. destruct to as [[|c to]|]; reflexivity. }
  rewrite St in V. destruct V as [V _]. rewrite (V No). destruct Hh as [->| ->]; reflexivity.
Qed.

Lemma cybox_again o d from to opts force s t r s' h o2 from2 to2 opts2 force2 :
  wf_state s -> denotes s d t -> named (cybox "Observables") t = true -> NoDup (map fst (h_attr (head t))) ->
  cybox_update o d from to opts force s = (Ok r, s') ->
  h = DElem (r_document r) \/ h = DTree (r_document r) -> given from2 = None ->
  ~ older CYBOX_VERSIONS (match given to with Some b => b | None => "2.1" end) (match given to2 with Some b => b | None => "2.1" end) ->
  cybox_update o2 h from2 to2 opts2 force2 s' = (Err (InvalidVersionError None None None), s').
Proof.
  intros W D Nm Nd E Hh G No. destruct (cybox_declares _ _ _ _ _ _ _ _ _ _ W D Nm Nd E) as (new & Doc & Ver).
  assert (W' : wf_state s') by (eapply cybox_renumbers; eauto).
  destruct (document_node _ _ _ Doc) as (T & Na & ET). destruct (erased_attrs _ _ ET) as [EA _].
  assert (D2 : denotes s' h T) by (destruct Hh as [->| ->]; exists []; exact Na).
  pose proof (cybox_validation o2 h from2 to2 opts2 force2 s' T W' D2) as V. cbv zeta in V.
  assert (St : cybox_start from2 T = Some (match given to with Some b => b | None => "2.1" end)).
  { unfold cybox_start. rewrite G. unfold cybox_declared in *. rewrite EA. exact Ver. }
  rewrite St in V. destruct V as [V _]. rewrite (V No). destruct Hh as [->| ->]; reflexivity.
Qed.

(** ** Arguments left out *)

Lemma stix_start_given from t a : stix_start from t = Some a -> a <> "".
Proof.
  unfold stix_start, given. destruct from as [[|c x]|]; intros H ->; try discriminate; destruct (attr_get (lq "version") (h_attr (head t))) as [[|? ?]|]; discriminate.
Qed.

Lemma cybox_start_given from t a : cybox_start from t = Some a -> a <> "".
Proof.
  assert (X : cybox_declared t = Some a -> a <> "").
  { unfold cybox_declared, given. intros H ->.
    destruct (attr_get (lq "cybox_major_version") (h_attr (head t))) as [[|? ?]|]; try discriminate;
    destruct (attr_get (lq "cybox_minor_version") (h_attr (head t))) as [[|? ?]|]; try discriminate;
    destruct (attr_get (lq "cybox_update_version") (h_attr (head t))) as [[|? ?]|]; discriminate. }
  unfold cybox_start, given. destruct from as [[|c x]|]; auto. intros H ->. discriminate.
Qed.

Lemma stix_filled o d from to opts force s t a : wf_state s -> denotes s d t -> stix_start from t = Some a ->
  stix_update o d from to opts force s =
  stix_update o d (Some a) (Some (match given to with Some b => b | None => "1.2.1" end)) (Some (or_default o opts)) force s.
Proof.
  intros W D St. pose proof (stix_start_given _ _ _ St) as Na. unfold stix_update. rewrite versioned_update_opts. fold (stix_update o).
  pose proof (stix_validation o d from to opts force s t W D) as V.
  pose proof (stix_validation o d (Some a) (Some (match given to with Some b => b | None => "1.2.1" end)) opts force s t W D) as V2.
  cbv zeta in V, V2. rewrite St in V. replace (stix_start (Some a) t) with (Some a) in V2 by (destruct a; [congruence|reflexivity]).
  set (b := match given to with Some b => b | None => "1.2.1" end) in *.
  replace (match given (Some b) with Some b => b | None => "1.2.1" end) with b in V2 by (unfold b; destruct to as [[|c to]|]; reflexivity).
  destruct stix_table_ok as [_ N]. destruct (older_dec STIX_VERSIONS a b N) as [Ho|Ho].
  - destruct (proj2 V Ho) as (root & R1 & R2). destruct (proj2 V2 Ho) as (root2 & R3 & R4).
    rewrite R1 in R3. injection R3 as <-. rewrite R2, R4. reflexivity.
  - rewrite (proj1 V Ho), (proj1 V2 Ho). reflexivity.
Qed.

Lemma cybox_filled o d from to opts force s t a : wf_state s -> denotes s d t -> cybox_start from t = Some a ->
  cybox_update o d from to opts force s =
  cybox_update o d (Some a) (Some (match given to with Some b => b | None => "2.1" end)) (Some (or_default o opts)) force s.
Proof.
  intros W D St. pose proof (cybox_start_given _ _ _ St) as Na. unfold cybox_update. rewrite versioned_update_opts. fold (cybox_update o).
  pose proof (cybox_validation o d from to opts force s t W D) as V.
  pose proof (cybox_validation o d (Some a) (Some (match given to with Some b => b | None => "2.1" end)) opts force s t W D) as V2.
  cbv zeta in V, V2. rewrite St in V. replace (cybox_start (Some a) t) with (Some a) in V2 by (destruct a; [congruence|reflexivity]).
  set (b := match given to with Some b => b | None => "2.1" end) in *.
  replace (match given (Some b) with Some b => b | None => "2.1" end) with b in V2 by (unfold b; destruct to as [[|c to]|]; reflexivity).
  destruct cybox_table_ok as [_ N]. destruct (older_dec CYBOX_VERSIONS a b N) as [Ho|Ho].
  - destruct (proj2 V Ho) as (root & R1 & R2). destruct (proj2 V2 Ho) as (root2 & R3 & R4).
    rewrite R1 in R3. injection R3 as <-. rewrite R2, R4. reflexivity.
  - rewrite (proj1 V Ho), (proj1 V2 Ho). reflexivity.
Qed.
