(** * What the namespace script does with attributes that get the same name. *)

From Coq Require Import String Ascii List Bool Arith Lia Permutation.
From Verif Require Import Str Xml XPath Utils Base Tables UpdateNs SpecNs Lib Versions Api RefineBase Worked Scripts.
Import ListNotations.
Local Open Scope string_scope.

Definition ren_attr (f : string -> string) (p : qname * string) : qname * string := (rename f (fst p), snd p).

(** The value under a new name: that of the last attribute. *)
Definition taken (f : string -> string) (l : list (qname * string)) (q : qname) : option string :=
  attr_get q (rev (map (ren_attr f) l)).

Lemma attr_get_app q a b : attr_get q (a ++ b)%list = match attr_get q a with Some v => Some v | None => attr_get q b end.
Proof. induction a as [|[k v] a IH]; simpl; auto. destruct (qn_eqb q k); auto. Qed.

Lemma taken_cons f k v l q : taken f ((k, v) :: l) q =
  match taken f l q with Some w => Some w | None => if qn_eqb q (rename f k) then Some v else None end.
Proof. unfold taken. simpl. rewrite attr_get_app. simpl. destruct (attr_get q _); auto. Qed.

Lemma taken_none f l q : taken f l q = None <-> (forall p, In p l -> rename f (fst p) <> q).
Proof.
  induction l as [|[k v] l IH]; [split; [intros _ p []|reflexivity]|]. rewrite taken_cons. split.
  - destruct (taken f l q) eqn:T; [discriminate|]. destruct (qn_eqb q (rename f k)) eqn:E; [discriminate|].
    intros _ p [<-|I]; [|apply IH; auto]. apply qn_eqb_neq in E. simpl. congruence.
  - intro H. assert (T : taken f l q = None) by (apply IH; intros p I; apply H; right; exact I). rewrite T.
    specialize (H (k, v) (or_introl eq_refl)). simpl in H. destruct (qn_eqb q (rename f k)) eqn:E; auto.
    apply qn_eqb_eq in E. congruence.
Qed.

Lemma taken_last f l q v : last_named f l q v <-> taken f l q = Some v.
Proof.
  split.
  - intros (l1 & k & l2 & -> & R & N). unfold taken. rewrite map_app, rev_app_distr. simpl.
    rewrite <- app_assoc, attr_get_app.
    destruct (attr_get q (rev (map (ren_attr f) l2))) eqn:T.
    + exfalso. assert (X : taken f l2 q = None) by (apply taken_none; exact N). unfold taken in X. congruence.
    + simpl. rewrite R. replace (qn_eqb q q) with true by (symmetry; apply qn_eqb_eq; reflexivity). reflexivity.
  - induction l as [|[k w] l IH]; [discriminate|]. rewrite taken_cons. destruct (taken f l q) as [x|] eqn:T.
    + intro E. inversion E; subst. destruct (IH eq_refl) as (l1 & k' & l2 & -> & R & N).
      exists ((k, w) :: l1), k', l2. auto.
    + destruct (qn_eqb q (rename f k)) eqn:E; [|discriminate]. intro X. inversion X; subst. apply qn_eqb_eq in E.
      exists [], k, l. split; auto. split; auto. apply taken_none. exact T.
Qed.

Lemma new_attrib_taken m l : forall acc,
  Forall proper_name (map fst l) ->
  (forall q ns, In q (map fst l) -> q_ns q = Some ns -> mget m ns <> "" /\ ~ occurs "}" (mget m ns)) ->
  NoDup (map fst acc) ->
  exists a, new_attrib m l acc = Ok a /\ NoDup (map fst a) /\
    forall q, attr_get q a = match taken (mget m) l q with Some v => Some v | None => attr_get q acc end.
Proof.
  induction l as [|[k v] l IH]; intros acc Hp Hm Hd; simpl; [eauto|].
  inversion Hp; subst. rewrite remap_name_ok; auto; [|intros ns E; eapply Hm; [left|]; eauto]. cbn [rbind].
  destruct (IH (attr_set (rename (mget m) k) v acc)) as (a & E & Nd & G); auto.
  { intros q ns Hq; apply Hm; right; auto. }
  { apply attr_set_NoDup. exact Hd. }
  exists a. split; [exact E|]. split; auto. intro q. rewrite G, taken_cons.
  destruct (taken (mget m) l q); auto. rewrite attr_get_set. destruct (qn_eqb q (rename (mget m) k)); reflexivity.
Qed.

Lemma attr_get_iff q v (l : list (qname * string)) : NoDup (map fst l) -> (attr_get q l = Some v <-> In (q, v) l).
Proof.
  intro Nd. induction l as [|[k w] l IH]; simpl; [split; [discriminate|intros []]|].
  inversion Nd as [|? ? N Nd']; subst. specialize (IH Nd'). destruct (qn_eqb q k) eqn:E.
  - apply qn_eqb_eq in E. subst k. split; [intro X; inversion X; subst; auto|].
    intros [X|I]; [inversion X; reflexivity|]. exfalso. apply N. apply in_map_iff. exists (q, v). auto.
  - apply qn_eqb_neq in E. rewrite IH. split; auto. intros [X|I]; auto. inversion X. congruence.
Qed.

Lemma attr_get_perm q (l l' : list (qname * string)) : NoDup (map fst l) -> Permutation l l' -> attr_get q l' = attr_get q l.
Proof.
  intros Nd P. assert (Nd' : NoDup (map fst l')) by (eapply Permutation_NoDup; [apply Permutation_map, P|exact Nd]).
  destruct (attr_get q l) as [v|] eqn:E.
  - apply attr_get_iff; auto. eapply Permutation_in; [exact P|]. apply attr_get_iff; auto.
  - destruct (attr_get q l') as [v|] eqn:E'; auto. exfalso. apply attr_get_iff in E'; auto.
    apply Permutation_sym in P. apply (Permutation_in _ P) in E'. apply attr_get_iff in E'; auto. congruence.
Qed.

(** Before the schema locations are rewritten. *)
Inductive mren (f : string -> string) : tree -> tree -> Prop :=
| mren_elem h ks h' ks' :
    h_kind h = KElem -> h_kind h' = KElem ->
    h_tag h' = rename f (h_tag h) ->
    h_text h' = h_text h -> h_tail h' = h_tail h ->
    NoDup (map fst (h_attr h')) ->
    (forall q, attr_get q (h_attr h') = taken f (h_attr h) q) ->
    Forall2 (mren f) ks ks' ->
    mren f (Node h ks) (Node h' ks')
| mren_other h ks : h_kind h <> KElem -> mren f (Node h ks) (Node h ks).

Lemma update_ns_mren m t : target_ok m -> parsed t ->
  forall env, exists t', update_ns m env t = Ok t' /\ mren (mget m) t t'.
Proof.
  intro T. tree_induction t. intros P env.
  inversion P as [? ? K Pt Pa Nd Pk|? K]; subst.
  2:{ exists (Node h []). split; [destruct K as [K|K]; simpl; rewrite K; reflexivity|].
      apply mren_other. destruct K as [K|K]; rewrite K; discriminate. }
  assert (G : forall env', exists ks', upd_list m env' ks = Ok ks' /\ Forall2 (mren (mget m)) ks ks').
  { clear -IH Pk. intro env'. induction ks as [|k ks IHk]; simpl; [eauto|].
    inversion Pk; subst.
    destruct (IH k (or_introl eq_refl)) with (env := env') as (k' & -> & Rk); auto.
    destruct IHk as (ks' & -> & R); auto; [intros; apply IH; auto; right; auto|].
    simpl. eauto. }
  assert (Tt : forall ns, q_ns (h_tag h) = Some ns -> mget m ns <> "" /\ ~ occurs "}" (mget m ns)).
  { intros ns E. apply T. destruct Pt as (_ & _ & _ & X). auto. }
  assert (Ta : forall q ns, In q (map fst (h_attr h)) -> q_ns q = Some ns -> mget m ns <> "" /\ ~ occurs "}" (mget m ns)).
  { intros q ns Hq E. apply T. rewrite Forall_forall in Pa. destruct (Pa q Hq) as (_ & _ & _ & X). auto. }
  rewrite update_ns_elem by exact K. destruct (need_replace m env (Node h ks)) eqn:NR.
  - rewrite remap_name_ok by auto. cbn [rbind].
    destruct (new_attrib_taken m (h_attr h) []) as (a & -> & Na & Ga); auto; [constructor|]. cbn [rbind].
    match goal with |- context [upd_list m ?e ks] => destruct (G e) as (ks' & -> & R) end.
    cbn [rbind]. eexists; split; [reflexivity|]. apply mren_elem; simpl; auto.
    intro q. rewrite Ga. destruct (taken (mget m) (h_attr h) q); reflexivity.
  - assert (I : forall ns, In ns (name_ns h) -> mget m ns = ns).
    { intros ns Hn. eapply (need_replace_false m env (Node h ks)); eauto.
      unfold is_elem; simpl; rewrite K; auto. }
    rewrite remap_name_ok by auto. cbn [rbind].
    destruct (inplace_attrib_ok m (h_attr h) (h_attr h)) as (a & -> & Pm); auto.
    { intros q ns Hq E. apply I. eapply name_ns_attr; eauto. }
    { apply incl_refl. }
    cbn [rbind].
    match goal with |- context [upd_list m ?e ks] => destruct (G e) as (ks' & -> & R) end.
    cbn [rbind]. eexists; split; [reflexivity|]. apply mren_elem; simpl; auto.
    + eapply Permutation_NoDup; [apply Permutation_map, Pm|exact Nd].
    + intro q. unfold taken. replace (map (ren_attr (mget m)) (h_attr h)) with (h_attr h).
      * rewrite (attr_get_perm q _ _ Nd Pm). apply attr_get_perm.
        -- eapply Permutation_NoDup; [apply Permutation_map, Permutation_rev|exact Nd].
        -- apply Permutation_sym, Permutation_rev.
      * symmetry. apply map_id_in. intros [k v] Hp. unfold ren_attr. simpl. f_equal. apply rename_id.
        intros ns E. apply I. eapply name_ns_attr; eauto. apply in_map_iff. exists (k, v); auto.
Qed.

Lemma taken_in f l q : (exists v, taken f l q = Some v) <-> In q (map (fun p => rename f (fst p)) l).
Proof.
  split.
  - intros (v & T). apply taken_last in T as (l1 & k & l2 & -> & R & _). apply in_map_iff. exists (k, v). split; auto.
    apply in_app_iff. right. left. reflexivity.
  - intro I. destruct (taken f l q) eqn:T; [eauto|]. exfalso. rewrite taken_none in T.
    apply in_map_iff in I as (p & E & I). exact (T p I E).
Qed.

Lemma mren_merged m t t' : solid_targets m -> parsed t ->
  mren (mget m) t t' -> merged (mget m) t (update_schemalocations m t').
Proof.
  intro T. revert t'. tree_induction t. intros t' P R.
  inversion R as [? ? h' ks' K K' Et Ex El Nd' G Rk|? ? K]; subst.
  2:{ inversion P as [? ? K1|? K1]; subst; [congruence|]. simpl.
      destruct (h_kind h) eqn:Kh; try congruence; apply mg_other; congruence. }
  inversion P as [? ? _ Pt Pn Nd Pk|? K1]; subst; [|destruct K1; congruence].
  simpl. rewrite K'.
  assert (Rk' : Forall2 (merged (mget m)) ks (map (update_schemalocations m) ks')).
  { clear -IH Rk Pk. revert ks' Rk. induction ks as [|k ks IHk]; intros ks' Rk;
      inversion Rk; subst; simpl; constructor; inversion Pk; subst.
    - apply IH; simpl; auto.
    - apply IHk; auto. intros; apply IH; auto; right; auto. }
  set (h'' := match attr_get TAG_SCHEMALOCATION (h_attr h') with
              | Some v => hset_attr TAG_SCHEMALOCATION (remap_schemaloc m v) h'
              | None => h' end).
  assert (H' : h_kind h'' = KElem /\ h_tag h'' = h_tag h' /\ h_text h'' = h_text h' /\ h_tail h'' = h_tail h' /\
    NoDup (map fst (h_attr h'')) /\
    forall q, attr_get q (h_attr h'') =
      if qn_eqb q TAG_SCHEMALOCATION then option_map (remap_schemaloc m) (attr_get q (h_attr h')) else attr_get q (h_attr h')).
  { unfold h''. destruct (attr_get TAG_SCHEMALOCATION (h_attr h')) as [v|] eqn:E.
    - unfold hset_attr. simpl. repeat (split; [auto; fail|]). split; [apply attr_set_NoDup; exact Nd'|].
      intro q. rewrite attr_get_set. destruct (qn_eqb q TAG_SCHEMALOCATION) eqn:Q; auto.
      apply qn_eqb_eq in Q. subst q. rewrite E. reflexivity.
    - repeat (split; [auto; fail|]). intro q. destruct (qn_eqb q TAG_SCHEMALOCATION) eqn:Q; auto.
      apply qn_eqb_eq in Q. subst q. rewrite E. reflexivity. }
  clearbody h''. destruct H' as (E1 & E2 & E3 & E4 & E5 & E6).
  assert (Gi : forall q v', In (q, v') (h_attr h'') <-> attr_get q (h_attr h'') = Some v') by (intros; symmetry; apply attr_get_iff; exact E5).
  apply mg_elem; auto; try congruence.
  - intro q. rewrite <- taken_in. split.
    + intro I. apply in_map_iff in I as ([k v'] & Ek & I). simpl in Ek. subst k. apply Gi in I. rewrite E6, G in I.
      destruct (taken (mget m) (h_attr h) q); eauto. destruct (qn_eqb q TAG_SCHEMALOCATION); discriminate.
    + intros (v & Tk). assert (X : exists v', attr_get q (h_attr h'') = Some v').
      { rewrite E6, G, Tk. destruct (qn_eqb q TAG_SCHEMALOCATION); simpl; eauto. }
      destruct X as (v' & X). apply Gi in X. apply in_map_iff. exists (q, v'). auto.
  - intros q v v' I L. apply Gi in I. apply taken_last in L. rewrite E6, G, L in I.
    destruct (qn_eqb q TAG_SCHEMALOCATION) eqn:Q.
    + apply qn_eqb_eq in Q. subst q. simpl in I. inversion I; subst. split; [|congruence].
      intros _. apply remap_schemaloc_entries. exact T.
    + apply qn_eqb_neq in Q. split; congruence.
Qed.

Lemma last_named_ext f g l q v : (forall ns, f ns = g ns) -> last_named f l q v -> last_named g l q v.
Proof.
  intros E (l1 & k & l2 & -> & R & N). exists l1, k, l2. split; auto. split.
  - rewrite <- R. apply rename_ext. auto.
  - intros p I. rewrite <- (rename_ext f g) by auto. apply N. exact I.
Qed.

Lemma entries_ext f g l l' : (forall ns, f ns = g ns) -> entries_renamed f l l' -> entries_renamed g l l'.
Proof. intros E H. induction H; rewrite ?E; constructor; auto. Qed.

Lemma merged_ext f g t t' : (forall ns, f ns = g ns) -> merged f t t' -> merged g t t'.
Proof.
  intro E. revert t'. tree_induction t. intros t' R.
  inversion R as [? ? h' ks' K K' Et Ex El Nd I V Rk|? ? K]; subst; [|apply mg_other; exact K].
  apply mg_elem; auto.
  - rewrite Et. apply rename_ext. auto.
  - intro q. rewrite I. erewrite map_ext; [reflexivity|]. intro p. apply rename_ext. auto.
  - intros q v v' Hq L. destruct (V q v v' Hq) as [A B]; [eapply last_named_ext; [|exact L]; auto|].
    split; auto. intro Q. eapply entries_ext; [exact E|auto].
  - clear -IH Rk. induction Rk; constructor; auto; [apply IH; auto; left; auto|]. apply IHRk. intros; apply IH; auto. right; auto.
Qed.

Lemma update_from_lists_merges A B f t :
  (forall ns, maps_to A B ns (f ns)) -> Forall usable_ns B -> parsed t ->
  exists t', update_from_lists A B t = Ok t' /\ merged f t t'.
Proof.
  intros M U P. set (m := dict_zip A B).
  assert (E : forall ns, mget m ns = f ns) by (intro ns; eapply maps_to_fun; [apply dict_zip_maps|auto]).
  rewrite Forall_forall in U.
  assert (T1 : target_ok m).
  { intros ns Hn. destruct (mget_cases A B ns) as [H|H]; fold m in H; [rewrite H; auto|].
    destruct (U _ H) as (? & ? & ?). auto. }
  assert (T2 : solid_targets m).
  { intros ns Hn. destruct (mget_cases A B ns) as [H|H]; fold m in H; [rewrite H; auto|].
    apply usable_solid. auto. }
  unfold update_from_lists. fold m. destruct (update_ns_mren m t T1 P []) as (t' & -> & R).
  simpl. eexists; split; [reflexivity|].
  eapply merged_ext; [exact E|]. apply mren_merged; auto.
Qed.

Lemma script_merges files from_id to_id A B f t :
  stands_for files from_id A -> stands_for files to_id B -> (forall ns, maps_to A B ns (f ns)) ->
  Forall usable_ns B -> parsed t ->
  exists t1 t', update_ns_main files from_id to_id t = Ok t' /\ merged f t t1 /\ restamped to_id t1 t'.
Proof.
  intros HA HB M U P. apply stands_for_is in HA, HB. subst A B.
  destruct (update_from_lists_merges _ _ f t M U P) as (t1 & E & R).
  exists t1, (special_case_version_update to_id t1). unfold update_ns_main. rewrite E. split; [reflexivity|]. split; auto. apply version_restamped.
Qed.

(** Nothing is lost exactly if no two attributes get the same name. *)
Lemma merged_renamed_clash f t t' : merged f t t' -> renamed f t t' -> no_clash f t.
Proof.
  revert t'. tree_induction t. intros t' Mg Rn.
  inversion Rn as [? ? h' ks' a K K' Et Ex El Fa Pa Rk|? ? K]; subst; [|apply nc_other; exact K].
  inversion Mg as [? ? ? ? _ _ _ _ _ Nd _ _ Mk|? ? K1]; subst; [|congruence].
  apply nc_elem; auto.
  - assert (Ea : map fst a = map (fun p => rename f (fst p)) (h_attr h)).
    { clear -Fa. induction Fa as [|p p' l l' (A1 & _)]; simpl; auto. rewrite A1, IHFa. reflexivity. }
    rewrite <- Ea. eapply Permutation_NoDup; [apply Permutation_map, Permutation_sym, Pa|exact Nd].
  - clear -IH Rk Mk. revert ks' Rk Mk. induction ks as [|k ks IHk]; intros ks' Rk Mk; constructor;
      inversion Rk; subst; inversion Mk; subst.
    + eapply IH; eauto. left; auto.
    + eapply IHk; eauto. intros; eapply IH; eauto. right; auto.
Qed.

Lemma renamed_exactly A B f t t' :
  (forall ns, maps_to A B ns (f ns)) -> Forall usable_ns B -> parsed t ->
  update_from_lists A B t = Ok t' -> (renamed f t t' <-> no_clash f t).
Proof.
  intros M U P E. split.
  - intro R. destruct (update_from_lists_merges A B f t M U P) as (t1 & E1 & Mg).
    assert (t1 = t') as -> by congruence. eapply merged_renamed_clash; eauto.
  - intro C. destruct (update_from_lists_renames A B f t M U P C) as (t1 & E1 & R).
    assert (t1 = t') as -> by congruence. exact R.
Qed.
