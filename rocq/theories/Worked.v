(** * What a step works on, and facts about whole steps. *)

From Coq Require Import String Ascii List Bool Arith Lia.
From Verif Require Import Str Xml XPath Utils Base Tables Spec SpecDoc SpecPass SpecStep
  SpecCheck SpecClean SpecUpdate SpecTrace Lib Refine RefineBase RefineTrans RefineLists RefineSteps Relabel Cybox Stix RefineUpdate Natural Updates Reports UpdateFacts Trace SpecField Fields Carried Follow Vocab.
Import ListNotations.
Local Open Scope string_scope.

(** Properties of headers that do not look at the identity and survive a new
    value of the id attribute. *)
Definition robust (Q : hdr -> Prop) : Prop :=
  (forall h, Q (set_id 0 h) <-> Q h) /\ forall v h, Q h -> Q (hset_attr (lq "id") v h).

Lemma robust_cleaned Q f g d t : robust Q -> all Q t -> all Q (erase (cleaned f g d t)).
Proof.
  intros [B I] H. apply all_erase; auto. unfold cleaned, without. apply invariant_prune. unfold fresh_ids.
  refine (invariant_edit Q _ _ t _ eq_refl H). intros b y Hy. destruct (position _ _), (id_of y); auto.
Qed.

Lemma all_numbered (Q : hdr -> Prop) n t : (forall h, Q (set_id 0 h) <-> Q h) -> all Q t -> all Q (numbered n t).
Proof. intros B H. apply (all_erase Q _ B). rewrite numbered_erase. apply all_erase; auto. Qed.

Lemma cleaned_elem f g d t : is_elem (erase (cleaned f g d t)) = is_elem t.
Proof.
  unfold cleaned, without, prune, fresh_ids. destruct t as [h ks]. unfold is_elem. cbn [edit subst_nodes erase head set_id h_kind].
  destruct (position (tid (Node h ks)) (renumbered d)), (id_of (Node h ks)); reflexivity.
Qed.

Lemma elem_erase t : is_elem (erase t) = is_elem t.
Proof. destruct t. reflexivity. Qed.

Lemma elem_numbered n t : is_elem (numbered n t) = is_elem t.
Proof. rewrite <- (elem_erase (numbered n t)), numbered_erase, elem_erase. reflexivity. Qed.

Definition fit (t t1 : tree) : Prop := (forall Q, robust Q -> all Q t -> all Q t1) /\ is_elem t1 = is_elem t.

Lemma single_worked c D (f : tree -> res tree) new_id force g t oc : single c D f new_id force g t = Ok oc ->
  exists t1, f t1 = Ok (new_document oc) /\ fit t t1 /\
    (t1 = erase t \/ force = true /\ exists dt, D t = Ok dt /\ t1 = erase (cleaned new_id g dt t)).
Proof.
  unfold single. destruct (c t) as [u|x].
  - destruct (f (erase t)) as [e|] eqn:E; [|discriminate]. simpl. intro H. injection H as <-. exists (erase t).
    split; auto. split; auto. split; [|apply elem_erase]. intros Q [B _] H. apply all_erase; auto.
  - destruct (force && forceable x) eqn:Fo; [|discriminate]. apply andb_true_iff in Fo as [-> _].
    destruct (D t) as [dt|] eqn:Ed; [|discriminate]. cbn [rbind].
    destruct (f (erase (cleaned new_id g dt t))) as [e|] eqn:E; [|discriminate]. simpl. intro H. injection H as <-.
    exists (erase (cleaned new_id g dt t)). split; auto. split; [split|right; eauto].
    + intros Q R H. apply robust_cleaned; auto.
    + apply cleaned_elem.
Qed.

Lemma fit_numbered n t t1 : fit (numbered n t) t1 -> fit t t1.
Proof.
  intros [A B]. split; [|rewrite B; apply elem_numbered]. intros Q R H. apply A; auto. apply all_numbered; auto. apply R.
Qed.

Lemma stix_step_worked o opts v up f d force s t r s' :
  dict_get v (STIX_UPDATERS o) = Some up -> stix_step o (or_default o opts) v = Some f ->
  wf_state s -> denotes s d t -> updater_update o up d opts force s = (Ok r, s') ->
  exists t1 e, worked_on o up d opts force s t t1 /\ fit t t1 /\ f (labelled t1) = Ok e /\ document s' (r_document r) (erase e).
Proof.
  intros U F W Dn E. pose proof (stix_step_performed o opts v up d force s t U W Dn) as P.
  destruct (stix_described o (or_default o opts) v up U) as (c & D & f' & Ec & Ed & Ef & _).
  unfold stix_single in P. rewrite Ec, Ed, Ef in P. rewrite F in Ef. apply some_inj in Ef. subst f'.
  destruct (single _ _ _ _ _ _ _) as [oc|x] eqn:S in P; [|destruct P as (s2 & P); rewrite E in P; discriminate].
  destruct P as (r2 & s2 & P & _ & Doc & _). rewrite E in P. injection P as <- <-.
  destruct (single_worked _ _ _ _ _ _ _ _ S) as (t1 & F1 & Fit & Wk). apply fit_numbered in Fit.
  destruct (blind_labelled f t1 (new_document oc) (stix_step_blind _ _ _ _ F)) as (e & Fe & Ee).
  { destruct Wk as [->|(_ & dt & _ & ->)]; rewrite erase_idem; auto. }
  exists t1, e. split; [|split; [exact Fit|split; [exact Fe|rewrite Ee; exact Doc]]].
  destruct Wk as [->|(-> & dt & Dt & ->)]; [left; apply numbered_erase|right; split; auto].
  pose proof (stix_clean_does o v up opts D d s t U Ed W Dn) as P. cbv beta zeta in P. rewrite Dt in P.
  destruct P as (k & s1 & Ck & _ & Dk & _). exists k, s1. auto.
Qed.

Lemma cybox_step_worked o opts v up f d force s t r s' :
  dict_get v (CYBOX_UPDATERS o) = Some up -> cybox_step (or_default o opts) v = Some f ->
  wf_state s -> denotes s d t -> updater_update o up d opts force s = (Ok r, s') ->
  exists t1 e, worked_on o up d opts force s t t1 /\ fit t t1 /\ f (labelled t1) = Ok e /\ document s' (r_document r) (erase e).
Proof.
  intros U F W Dn E. pose proof (cybox_step_performed o opts v up d force s t U W Dn) as P.
  destruct (cybox_described o (or_default o opts) v up U) as (c & D & f' & Ec & Ed & Ef & _).
  unfold cybox_single in P. rewrite Ec, Ed, Ef in P. rewrite F in Ef. apply some_inj in Ef. subst f'.
  destruct (single _ _ _ _ _ _ _) as [oc|x] eqn:S in P; [|destruct P as (s2 & P); rewrite E in P; discriminate].
  destruct P as (r2 & s2 & P & _ & Doc & _). rewrite E in P. injection P as <- <-.
  destruct (single_worked _ _ _ _ _ _ _ _ S) as (t1 & F1 & Fit & Wk). apply fit_numbered in Fit.
  destruct (blind_labelled f t1 (new_document oc) (cybox_step_blind _ _ _ F)) as (e & Fe & Ee).
  { destruct Wk as [->|(_ & dt & _ & ->)]; rewrite erase_idem; auto. }
  exists t1, e. split; [|split; [exact Fit|split; [exact Fe|rewrite Ee; exact Doc]]].
  destruct Wk as [->|(-> & dt & Dt & ->)]; [left; apply numbered_erase|right; split; auto].
  pose proof (cybox_clean_does o v up opts D d s t U Ed W Dn) as P. cbv beta zeta in P. rewrite Dt in P.
  destruct P as (k & s1 & Ck & _ & Dk & _). exists k, s1. auto.
Qed.

Lemma attr_set_NoDup k v l : NoDup (map fst l) -> NoDup (map fst (attr_set k v l)).
Proof.
  induction l as [|[k' v'] l IH]; simpl; intro H.
  - constructor; auto.
  - inversion H as [|? ? N D]; subst. destruct (qn_eqb k k') eqn:E; simpl; constructor; auto.
    intro I. apply N. clear -I E. induction l as [|[k2 v2] l IH]; simpl in *.
    + destruct I as [->|[]]. rewrite qn_eqb_refl in E. discriminate.
    + destruct (qn_eqb k k2); simpl in I; destruct I; auto.
Qed.

Lemma same_node T x y : NoDup (ids T) -> In x (nodes T) -> In y (nodes T) -> tid x = tid y -> x = y.
Proof.
  intros N Hx Hy E. apply nodes_in in Hx as (a & Hx), Hy as (b & Hy). apply (visits_unique T [] a x b y N Hx Hy E).
Qed.

Lemma stems_every {K} (P : K -> Prop) (R : K -> hdr -> hdr -> Prop) T e : NoDup (ids T) -> sublist (labels e) (labels T) ->
  (forall k, P k -> stems (R k) T e) -> stems (fun h h' => forall k, P k -> R k h h') T e.
Proof.
  intros N Sl H x Hx Nz.
  assert (I : In (tid x) (labels e)) by (apply filter_In; split; [apply nodes_ids; eauto|apply negb_true_iff, Nat.eqb_neq; exact Nz]).
  apply (sublist_in _ _ _ Sl) in I. apply filter_In in I as [I _]. apply nodes_ids in I as (y & Hy & Ey).
  exists y. split; auto. split; auto. intros k Pk. destruct (H k Pk x Hx Nz) as (z & Hz & Ez & Rz).
  rewrite (same_node T y z N Hy Hz) by congruence. exact Rz.
Qed.

Lemma robust_distinct : robust (fun h => NoDup (map fst (h_attr h))).
Proof.
  split; [reflexivity|]. intros v h H. unfold hset_attr, set_attrs. cbn [h_attr]. apply attr_set_NoDup. exact H.
Qed.

Lemma robust_plain qs : robust (plain qs).
Proof. split; [reflexivity|]. intros v h H. exact H. Qed.

Lemma fit_distinct t t1 : fit t t1 -> distinct_attributes t -> distinct_attributes (labelled t1).
Proof. intros [F _] H. apply distinct_labelled. apply (F _ robust_distinct). exact H. Qed.

Lemma fit_declares qs t t1 : fit t t1 -> declares_nothing qs t -> declares_nothing qs (labelled t1).
Proof. intros [F _] H. apply declares_labelled. apply all_plain. apply (F _ (robust_plain qs)). apply all_plain. exact H. Qed.

Lemma fit_elem t t1 : fit t t1 -> is_elem t = true -> is_elem (labelled t1) = true.
Proof. intros [_ F] H. apply elem_labelled. congruence. Qed.

Ltac on_step U W Dn E f Ef t1 e Wk Fit Fe Doc :=
  match type of U with
  | dict_get ?v (STIX_UPDATERS ?o) = Some ?up =>
      match type of E with updater_update _ _ ?d ?opts ?force ?s = (Ok ?r, ?s') =>
        destruct (stix_described o (or_default o opts) v up U) as (?c & ?D & f & _ & _ & Ef & _);
        destruct (stix_step_worked o opts v up f d force s _ r s' U Ef W Dn E) as (t1 & e & Wk & Fit & Fe & Doc) end
  | dict_get ?v (CYBOX_UPDATERS ?o) = Some ?up =>
      match type of E with updater_update _ _ ?d ?opts ?force ?s = (Ok ?r, ?s') =>
        destruct (cybox_described o (or_default o opts) v up U) as (?c & ?D & f & _ & _ & Ef & _);
        destruct (cybox_step_worked o opts v up f d force s _ r s' U Ef W Dn E) as (t1 & e & Wk & Fit & Fe & Doc) end
  end.

Lemma stix_carried o opts v up d force s t r s' : dict_get v (STIX_UPDATERS o) = Some up -> wf_state s -> denotes s d t ->
  updater_update o up d opts force s = (Ok r, s') ->
  exists t1 e, worked_on o up d opts force s t t1 /\ document s' (r_document r) (erase e) /\
    carried (stix_gone (or_default o opts) v) (labelled t1) e.
Proof.
  intros U W Dn E. on_step U W Dn E f Ef t1 e Wk Fit Fe Doc. exists t1, e. split; auto. split; auto.
  eapply stix_step_carries; eauto.
Qed.

Lemma cybox_carried o opts v up d force s t r s' : dict_get v (CYBOX_UPDATERS o) = Some up -> wf_state s -> denotes s d t ->
  updater_update o up d opts force s = (Ok r, s') ->
  exists t1 e, worked_on o up d opts force s t t1 /\ document s' (r_document r) (erase e) /\
    carried (cybox_gone (or_default o opts) v) (labelled t1) e.
Proof.
  intros U W Dn E. on_step U W Dn E f Ef t1 e Wk Fit Fe Doc. exists t1, e. split; auto. split; auto.
  eapply cybox_step_carries; eauto.
Qed.

Lemma stix_versions_updated o opts v up i w d force s t r s' :
  dict_get v (STIX_UPDATERS o) = Some up -> next_versions v = Some (i, w) -> wf_state s -> denotes s d t -> distinct_attributes t ->
  updater_update o up d opts force s = (Ok r, s') ->
  exists t1 e, worked_on o up d opts force s t t1 /\ document s' (r_document r) (erase e) /\
    carried (stix_gone (or_default o opts) v) (labelled t1) e /\ stems (brought_to i w) (labelled t1) e.
Proof.
  intros U N W Dn DA E. on_step U W Dn E f Ef t1 e Wk Fit Fe Doc. exists t1, e. split; auto. split; auto.
  split; [eapply stix_step_carries; eauto|eapply stix_versions_brought; eauto]. eapply fit_distinct; eauto.
Qed.

Lemma stix_vocabularies_updated o opts v up d force s t r s' :
  dict_get v (STIX_UPDATERS o) = Some up -> v <> "1.2" -> wf_state s -> denotes s d t ->
  is_elem t = true -> distinct_attributes t ->
  (v = "1.0.1" -> declares_nothing [common "Contributors"; object_name "WinMailslot" "Handle"] t) ->
  updater_update o up d opts force s = (Ok r, s') ->
  exists t1 e, worked_on o up d opts force s t t1 /\ document s' (r_document r) (erase e) /\
    carried (stix_gone (or_default o opts) v) (labelled t1) e /\
    stems_at (vocabulary_value v (if update_vocabularies (or_default o opts) then stix_vocabularies v else [])) (labelled t1) e.
Proof.
  intros U V12 W Dn El DA DN E. on_step U W Dn E f Ef t1 e Wk Fit Fe Doc. exists t1, e. split; auto. split; auto.
  split; [eapply stix_step_carries; eauto|]. eapply stix_step_vocab; eauto.
  - eapply fit_elem; eauto.
  - eapply fit_distinct; eauto.
  - apply labelled_NoDup.
  - intro V. eapply fit_declares; eauto.
Qed.

Lemma cybox_vocabularies_updated o opts v up d force s t r s' :
  dict_get v (CYBOX_UPDATERS o) = Some up -> wf_state s -> denotes s d t ->
  is_elem t = true -> distinct_attributes t ->
  (v = "2.0.1" -> declares_nothing [object_name "WinMailslot" "Handle"] t) ->
  updater_update o up d opts force s = (Ok r, s') ->
  exists t1 e, worked_on o up d opts force s t t1 /\ document s' (r_document r) (erase e) /\
    carried (cybox_gone (or_default o opts) v) (labelled t1) e /\
    stems_at (vocabulary_value v (if update_vocabularies (or_default o opts) then cybox_vocabularies v else [])) (labelled t1) e.
Proof.
  intros U W Dn El DA DN E. on_step U W Dn E f Ef t1 e Wk Fit Fe Doc. exists t1, e. split; auto. split; auto.
  split; [eapply cybox_step_carries; eauto|]. eapply cybox_step_vocab; eauto.
  - eapply fit_elem; eauto.
  - eapply fit_distinct; eauto.
  - apply labelled_NoDup.
  - intro V. eapply fit_declares; eauto.
Qed.

(** ** Attributes nobody works on *)

Lemma cybox_step_attr opts v f k : cybox_step opts v = Some f -> ~ In k cybox_attributes ->
  (update_vocabularies opts = true -> ~ In k vocabulary_attributes) -> keepsd (attr_of k) f.
Proof.
  intros H N V. unfold cybox_step in H.
  assert (L : k <> TAG_SCHEMALOCATION) by (intros ->; apply N; left; auto).
  assert (C : ~ In k cybox_version_attributes) by (intro X; apply N; right; auto).
  by_version H; [apply keeps_keepsd, cybox_2_0_attr|apply cybox_2_0_1_attr]; auto.
Qed.

Lemma stix_attributes_kept o opts v up d force s t r s' : dict_get v (STIX_UPDATERS o) = Some up -> wf_state s -> denotes s d t ->
  distinct_attributes t -> updater_update o up d opts force s = (Ok r, s') ->
  exists t1 e, worked_on o up d opts force s t t1 /\ document s' (r_document r) (erase e) /\
    carried (stix_gone (or_default o opts) v) (labelled t1) e /\
    stems (fun h h' => forall k, ~ In k (stix_attributes v) ->
             (update_vocabularies (or_default o opts) = true -> ~ In k vocabulary_attributes) -> attr_of k h' = attr_of k h) (labelled t1) e.
Proof.
  intros U W Dn DA E. on_step U W Dn E f Ef t1 e Wk Fit Fe Doc. exists t1, e. split; auto. split; auto.
  assert (C := stix_step_carries _ _ _ _ _ _ Ef Fe). split; auto.
  eapply stems_impl; [|apply (stems_every (fun k => ~ In k (stix_attributes v) /\ (update_vocabularies (or_default o opts) = true -> ~ In k vocabulary_attributes))
    (fun k h h' => attr_of k h' = attr_of k h) _ _ (labelled_NoDup t1) (proj1 C))].
  { simpl. intros h h' X k Nk V. apply X. auto. }
  intros k [Nk V].
  exact (stix_step_attr o (or_default o opts) v f k Ef Nk V (labelled t1) e (fit_distinct _ _ Fit DA) Fe).
Qed.

Lemma cybox_attributes_kept o opts v up d force s t r s' : dict_get v (CYBOX_UPDATERS o) = Some up -> wf_state s -> denotes s d t ->
  distinct_attributes t -> updater_update o up d opts force s = (Ok r, s') ->
  exists t1 e, worked_on o up d opts force s t t1 /\ document s' (r_document r) (erase e) /\
    carried (cybox_gone (or_default o opts) v) (labelled t1) e /\
    stems (fun h h' => forall k, ~ In k cybox_attributes ->
             (update_vocabularies (or_default o opts) = true -> ~ In k vocabulary_attributes) -> attr_of k h' = attr_of k h) (labelled t1) e.
Proof.
  intros U W Dn DA E. on_step U W Dn E f Ef t1 e Wk Fit Fe Doc. exists t1, e. split; auto. split; auto.
  assert (C := cybox_step_carries _ _ _ _ _ Ef Fe). split; auto.
  eapply stems_impl; [|apply (stems_every (fun k => ~ In k cybox_attributes /\ (update_vocabularies (or_default o opts) = true -> ~ In k vocabulary_attributes))
    (fun k h h' => attr_of k h' = attr_of k h) _ _ (labelled_NoDup t1) (proj1 C))].
  { simpl. intros h h' X k Nk V. apply X. auto. }
  intros k [Nk V].
  exact (cybox_step_attr (or_default o opts) v f k Ef Nk V (labelled t1) e (fit_distinct _ _ Fit DA) Fe).
Qed.

(** ** Deciding the hypotheses on concrete documents *)

Fixpoint nodupb (l : list qname) : bool :=
  match l with [] => true | q :: l' => negb (existsb (qn_eqb q) l') && nodupb l' end.

Lemma nodupb_NoDup l : nodupb l = true -> NoDup l.
Proof.
  induction l as [|q l IH]; intro H; constructor; simpl in H; apply andb_true_iff in H as [A B]; auto.
  intro I. apply negb_true_iff in A. assert (existsb (qn_eqb q) l = true); [|congruence].
  apply existsb_exists. exists q. split; auto. apply qn_eqb_refl.
Qed.

Lemma distinct_decided t : forallb (fun x => nodupb (map fst (h_attr (head x)))) (nodes t) = true -> distinct_attributes t.
Proof. intros H x Hx. rewrite forallb_forall in H. apply nodupb_NoDup. auto. Qed.

Lemma declares_decided qs t : forallb (fun x => negb (named_in qs x) || match h_decl (head x) with [] => true | _ => false end) (nodes t) = true ->
  declares_nothing qs t.
Proof.
  intros H x Hx N. rewrite forallb_forall in H. specialize (H x Hx). rewrite N in H. destruct (h_decl (head x)); [auto|discriminate].
Qed.

(** A successful run whose document has a property. *)
Lemma run_document (m : res results * st) (P : tree -> bool) :
  (let '(x, s') := m in match x with Ok r => existsb (fun T => Nat.eqb (tid T) (r_document r) && P (erase T)) (heap s') | Err _ => false end) = true ->
  exists r s' new, m = (Ok r, s') /\ document s' (r_document r) new /\ P new = true.
Proof.
  destruct m as [[r|x] s']; [|discriminate]. intro H. apply existsb_exists in H as (T & I & H). apply andb_true_iff in H as [A B].
  exists r, s', (erase T). split; auto. split; auto. exists T. split; auto. split; [apply Nat.eqb_eq; exact A|reflexivity].
Qed.

Lemma stix_vocabulary_off o opts v up d force s t r s' : dict_get v (STIX_UPDATERS o) = Some up -> wf_state s -> denotes s d t ->
  distinct_attributes t -> update_vocabularies (or_default o opts) = false ->
  updater_update o up d opts force s = (Ok r, s') ->
  exists t1 e, worked_on o up d opts force s t t1 /\ document s' (r_document r) (erase e) /\
    carried (stix_gone (or_default o opts) v) (labelled t1) e /\
    stems (fun h h' => forall k, In k vocabulary_attributes -> attr_of k h' = attr_of k h) (labelled t1) e.
Proof.
  intros U W Dn DA Of E. destruct (stix_attributes_kept o opts v up d force s t r s' U W Dn DA E) as (t1 & e & A & B & C & D).
  exists t1, e. repeat split; auto; try apply C. eapply stems_impl; [|exact D]. simpl. intros h h' X k Hk. apply X.
  - intro I. destruct ((v =? "1.0") || ((v =? "1.0.1") || false)); simpl in I, Hk; decompose [or] Hk; subst; decompose [or] I; try discriminate; contradiction.
  - intro O. congruence.
Qed.

Lemma cybox_vocabulary_off o opts v up d force s t r s' : dict_get v (CYBOX_UPDATERS o) = Some up -> wf_state s -> denotes s d t ->
  distinct_attributes t -> update_vocabularies (or_default o opts) = false ->
  updater_update o up d opts force s = (Ok r, s') ->
  exists t1 e, worked_on o up d opts force s t t1 /\ document s' (r_document r) (erase e) /\
    carried (cybox_gone (or_default o opts) v) (labelled t1) e /\
    stems (fun h h' => forall k, In k vocabulary_attributes -> attr_of k h' = attr_of k h) (labelled t1) e.
Proof.
  intros U W Dn DA Of E. destruct (cybox_attributes_kept o opts v up d force s t r s' U W Dn DA E) as (t1 & e & A & B & C & D).
  exists t1, e. repeat split; auto; try apply C. eapply stems_impl; [|exact D]. simpl. intros h h' X k Hk. apply X.
  - intro I. simpl in I, Hk; decompose [or] Hk; subst; decompose [or] I; try discriminate; contradiction.
  - intro O. congruence.
Qed.
