(** * Following nodes through the passes. *)

From Coq Require Import String Ascii List Bool Arith Lia.
From Verif Require Import Str Xml XPath Utils Base Tables Spec SpecDoc SpecPass SpecStep
  SpecCheck SpecClean SpecUpdate SpecTrace Lib Refine RefineBase RefineTrans RefineLists RefineSteps Relabel Cybox Stix RefineUpdate Natural Reports UpdateFacts.
Import ListNotations.
Local Open Scope string_scope.

(** ** Nodes *)

Lemma nodes_visits t : forall anc, map snd (visits anc t) = nodes t.
Proof.
  tree_induction t. intro anc. cbn [visits map snd nodes]. f_equal. rewrite map_flat_map.
  apply flat_map_ext_in. intros k Hk. apply IH; auto.
Qed.

Lemma nodes_in t x : In x (nodes t) <-> exists a, In (a, x) (visits [] t).
Proof.
  rewrite <- (nodes_visits t []), in_map_iff. split.
  - intros ([a y] & <- & H). exists a. exact H.
  - intros (a & H). exists (a, x). auto.
Qed.

Lemma nodes_self t : In t (nodes t).
Proof. destruct t; simpl; auto. Qed.

Lemma nodes_kid t k x : In k (kids t) -> In x (nodes k) -> In x (nodes t).
Proof. destruct t as [h ks]. simpl. intros Hk Hx. right. apply in_flat_map. exists k. auto. Qed.

Lemma nodes_ids t i : In i (ids t) <-> exists x, In x (nodes t) /\ tid x = i.
Proof.
  rewrite <- (visits_ids t []), <- (nodes_visits t []). rewrite in_map_iff. split.
  - intros (c & <- & H). exists (snd c). split; auto. apply in_map; auto.
  - intros (x & H & <-). apply in_map_iff in H as (c & <- & H). exists c. auto.
Qed.

(** ** Sublists *)

Lemma sublist_refl {A} (l : list A) : sublist l l.
Proof. induction l; constructor; auto. Qed.

Lemma sublist_trans {A} (a b c : list A) : sublist a b -> sublist b c -> sublist a c.
Proof.
  intros H H'. revert a H. induction H' as [l|x l l' H' IH|x l l' H' IH]; intros a H.
  - inversion H; subst. constructor.
  - inversion H; subst; constructor; auto.
  - constructor. auto.
Qed.

Lemma sublist_app {A} (a b c d : list A) : sublist a b -> sublist c d -> sublist (a ++ c) (b ++ d).
Proof.
  intros H H'. induction H; simpl; try (constructor; auto).
  induction l as [|x l IH]; simpl; auto. constructor; auto.
Qed.

Lemma sublist_flat {A B} (f g : A -> list B) l : (forall x, In x l -> sublist (f x) (g x)) ->
  sublist (flat_map f l) (flat_map g l).
Proof.
  induction l as [|x l IH]; intro H; simpl; [constructor|]. apply sublist_app; [apply H; left; auto|].
  apply IH. intros y Hy. apply H. right; auto.
Qed.

Lemma sublist_in {A} (a b : list A) x : sublist a b -> In x a -> In x b.
Proof. induction 1; simpl; tauto. Qed.

Lemma sublist_NoDup {A} (a b : list A) : sublist a b -> NoDup b -> NoDup a.
Proof.
  induction 1 as [l|x l l' H IH|x l l' H IH]; intro N; [constructor| |]; inversion N; subst; auto.
  constructor; auto. intro I. apply H2. eapply sublist_in; eauto.
Qed.

Lemma sublist_filter {A} (p : A -> bool) a b : sublist a b -> sublist (filter p a) (filter p b).
Proof.
  induction 1 as [l|x l l' H IH|x l l' H IH]; simpl; [constructor| |]; destruct (p x); auto; constructor; auto.
Qed.

Lemma labels_node h ks : labels (Node h ks)
  = ((if Nat.eqb (h_id h) 0 then [] else [h_id h]) ++ flat_map labels ks)%list.
Proof.
  unfold labels. cbn [ids filter]. rewrite filter_flat_map. destruct (Nat.eqb (h_id h) 0); reflexivity.
Qed.

Lemma labels_element q ks : labels (element q ks) = flat_map labels ks.
Proof. unfold element. rewrite labels_node. reflexivity. Qed.

Lemma in_labels t i : In i (labels t) <-> In i (ids t) /\ i <> 0.
Proof. unfold labels. rewrite filter_In, negb_true_iff, Nat.eqb_neq. reflexivity. Qed.

(** ** What a pass does to labelled nodes *)

(** The result has the labels of the document, in order, some may be missing. *)
Definition orderly (f : tree -> res tree) : Prop := forall t e, f t = Ok e -> sublist (labels e) (labels t).

(** Nodes keep [pi]. *)
Definition keeps {X} (pi : hdr -> X) (f : tree -> res tree) : Prop :=
  forall t e, f t = Ok e -> stems (fun h h' => pi h' = pi h) t e.

Definition stems_trans : forall (R S : hdr -> hdr -> Prop) T m e, stems R T m -> stems S m e ->
  stems (fun h h' => exists h0, R h h0 /\ S h0 h') T e.
Proof.
  intros R S T m e H H' x Hx N. destruct (H' x Hx N) as (y & Hy & E & Sy).
  destruct (H y Hy) as (z & Hz & E' & Rz); [congruence|]. exists z. split; auto. split; [congruence|].
  exists (head y). auto.
Qed.

Lemma stems_impl (R S : hdr -> hdr -> Prop) T e : (forall h h', R h h' -> S h h') -> stems R T e -> stems S T e.
Proof. intros H H' x Hx N. destruct (H' x Hx N) as (y & Hy & E & Ry). exists y. auto. Qed.

Lemma stems_refl (R : hdr -> hdr -> Prop) T : (forall h, R h h) -> stems R T T.
Proof. intros H x Hx _. exists x. auto. Qed.

Lemma keeps_eq {X} (pi : hdr -> X) T m e : stems (fun h h' => pi h' = pi h) T m ->
  stems (fun h h' => pi h' = pi h) m e -> stems (fun h h' => pi h' = pi h) T e.
Proof.
  intros H H'. eapply stems_impl; [|exact (stems_trans _ _ _ _ _ H H')].
  simpl. intros h h' (h0 & A & B). congruence.
Qed.

Lemma keeps_nil {X} (pi : hdr -> X) : keeps pi (in_order []).
Proof. intros t e H. rewrite in_order_nil in H. injection H as <-. apply stems_refl. auto. Qed.

Lemma in_order_ok f l t e : in_order (f :: l) t = Ok e -> exists m, f t = Ok m /\ in_order l m = Ok e.
Proof. rewrite in_order_cons. destruct (f t) as [m|]; simpl; intro H; [exists m; auto|discriminate]. Qed.

Lemma keeps_cons {X} (pi : hdr -> X) f l : keeps pi f -> keeps pi (in_order l) -> keeps pi (in_order (f :: l)).
Proof.
  intros H H' t e E. apply in_order_ok in E as (m & A & B). exact (keeps_eq pi t m e (H t m A) (H' m e B)).
Qed.

Lemma keeps_when {X} (pi : hdr -> X) b f : keeps pi f -> keeps pi (when b f).
Proof.
  intros H t e E. unfold when in E. destruct b; [exact (H t e E)|]. injection E as <-. apply stems_refl. auto.
Qed.

Lemma keeps_passes {X A} (pi : hdr -> X) (f : A -> tree -> res tree) l : Forall (fun x => keeps pi (f x)) l ->
  keeps pi (passes f l).
Proof.
  induction 1 as [|x l H F IH]; intros t e E.
  - injection E as <-. apply stems_refl. auto.
  - rewrite passes_cons in E. destruct (f x t) as [m|] eqn:E1; [|discriminate].
    exact (keeps_eq pi t m e (H t m E1) (IH m e E)).
Qed.

(** *** Changes of headers *)

Lemma nodes_edit f t : forall anc x, In x (nodes (edit f anc t)) ->
  exists b y, In (b, y) (visits anc t) /\ head x = f b y.
Proof.
  tree_induction t. intros anc x H. cbn [edit nodes] in H. destruct H as [<-|H].
  - exists anc, (Node h ks). split; [apply visits_self|reflexivity].
  - apply in_flat_map in H as (k' & Hk' & Hx). apply in_map_iff in Hk' as (k & <- & Hk).
    destruct (IH k Hk _ _ Hx) as (b & y & I & E). exists b, y. split; auto. right. apply in_flat_map. exists k. auto.
Qed.

Lemma stems_edit (R : hdr -> hdr -> Prop) f t : (forall b y, In (b, y) (visits [] t) -> h_id (f b y) = tid y) ->
  (forall b y, In (b, y) (visits [] t) -> R (head y) (f b y)) -> stems R t (edit f [] t).
Proof.
  intros K H x Hx N. destruct (nodes_edit f t [] x Hx) as (b & y & I & E). exists y. split.
  - apply nodes_in. exists b. auto.
  - unfold tid at 2. rewrite E. split; [symmetry; apply (K b); auto|auto].
Qed.

Lemma edit_ids f t : (forall b y, h_id (f b y) = tid y) -> forall anc, ids (edit f anc t) = ids t.
Proof.
  intro K. tree_induction t. intro anc. cbn [edit ids]. rewrite K. f_equal. rewrite flat_map_map.
  apply flat_map_ext_in. intros k Hk. apply IH; auto.
Qed.

Lemma keeps_edit_where {X} (pi : hdr -> X) p g : keeps_id g -> (forall anc t, p anc t = true -> pi (g (head t)) = pi (head t)) ->
  keeps pi (always (edit_where p g)).
Proof.
  intros K H t e E. injection E as <-. apply stems_edit; intros b y I; destruct (p b y) eqn:P; auto.
  - apply K.
  - apply (H b y P).
Qed.

Lemma keeps_on_root {X} (pi : hdr -> X) f : keeps_id f -> (forall h, pi (f h) = pi h) -> keeps pi (always (on_root f)).
Proof.
  intros K H t e E. injection E as <-. intros x Hx N. destruct t as [h ks]. destruct Hx as [<-|Hx].
  - exists (Node h ks). split; [apply nodes_self|]. split; [symmetry; apply K|apply H].
  - exists x. split; auto. right. exact Hx.
Qed.

Lemma loc_keeps_id drop m loc : keeps_id (fun h =>
    match attr_get TAG_SCHEMALOCATION (h_attr h) with
    | Some v => hset_attr TAG_SCHEMALOCATION (relocated drop m loc v) h
    | None => h
    end).
Proof. intro h. destruct (attr_get _ _); reflexivity. Qed.

Lemma keeps_loc {X} (pi : hdr -> X) drop m loc : (forall v h, pi (hset_attr TAG_SCHEMALOCATION v h) = pi h) ->
  keeps pi (always (schemaloc_pass drop m loc)).
Proof.
  intro H. apply keeps_on_root; [apply loc_keeps_id|]. intro h. destruct (attr_get _ _); auto.
Qed.

Lemma repeat_keeps n : keeps_id (repeat_edit n).
Proof. induction n as [|n IH]; intro h; auto. cbn [repeat_edit]. rewrite convert_keeps. apply IH. Qed.

Lemma keeps_lists {X} (pi : hdr -> X) obj prop : (forall h, pi (convert_text h) = pi h) ->
  keeps pi (always (lists_pass obj prop)).
Proof.
  intros H t e E. injection E as <-. apply stems_edit; intros b y I; destruct (is_elem y); auto.
  - apply repeat_keeps.
  - induction (properties_above obj prop b) as [|n IH]; auto. cbn [repeat_edit]. rewrite H. exact IH.
Qed.

Lemma upgraded_keeps v c h : outdated v c = true -> upgraded v c = Ok h -> h_id h = tid (snd c).
Proof. intros O E. rewrite <- vg_upgraded in E by auto. exact (vg_same_id v _ _ E). Qed.

Lemma keeps_vocab {X} (pi : hdr -> X) v : (forall alias h h', upgraded_with v alias h = Ok h' -> pi h' = pi h) ->
  keeps pi (vocab_pass v).
Proof.
  intros H t e E. unfold vocab_pass in E. destruct (first_err type_of _); [discriminate|].
  destruct (first_err (upgraded v) _); [discriminate|]. injection E as <-.
  apply stems_edit; intros b y I; destruct (outdated v (b, y)) eqn:O; auto;
    destruct (upgraded v (b, y)) as [h|] eqn:U; auto.
  - exact (upgraded_keeps v (b, y) h O U).
  - unfold upgraded in U. destruct (type_of (b, y)) as [i|]; [|discriminate]. exact (H _ _ _ U).
Qed.

(** *** Changes of structure *)

Lemma nodes_subst F t : forall anc x, In x (nodes (subst_nodes F anc t)) ->
  (exists y, In y (nodes t) /\ head x = head y) \/
  (exists b k l z, In (b, k) (visits anc t) /\ F b k = Some l /\ In z l /\ In x (nodes z)).
Proof.
  tree_induction t. intros anc x H. cbn [subst_nodes nodes] in H. destruct H as [<-|H].
  - left. exists (Node h ks). split; [apply nodes_self|reflexivity].
  - apply in_flat_map in H as (z & Hz & Hx). apply in_flat_map in Hz as (k & Hk & Hz).
    destruct (F (Node h ks :: anc) k) as [l|] eqn:E.
    + right. exists (Node h ks :: anc), k, l, z. repeat split; auto. right. apply in_flat_map. exists k.
      split; auto. apply visits_self.
    + destruct Hz as [<-|[]]. destruct (IH k Hk _ _ Hx) as [(y & Hy & Ey)|(b & k' & l & z & I & R)].
      * left. exists y. split; auto. apply (nodes_kid (Node h ks) k); auto.
      * right. exists b, k', l, z. split; auto. right. apply in_flat_map. exists k. auto.
Qed.

Lemma nodes_sub t x y : In x (nodes t) -> In y (nodes x) -> In y (nodes t).
Proof.
  revert x y. tree_induction t. intros x y Hx Hy. destruct Hx as [<-|Hx]; auto.
  apply in_flat_map in Hx as (k & Hk & Hx). apply (nodes_kid (Node h ks) k); auto. eapply IH; eauto.
Qed.

Lemma stems_subst (R : hdr -> hdr -> Prop) F t : (forall h, R h h) ->
  (forall b k l z, In (b, k) (visits [] t) -> F b k = Some l -> In z l -> stems R k z) ->
  stems R t (subst_nodes F [] t).
Proof.
  intros R0 H x Hx N. destruct (nodes_subst F t [] x Hx) as [(y & Hy & E)|(b & k & l & z & I & E & Hz & Hxz)].
  - exists y. split; auto. unfold tid. rewrite E. auto.
  - destruct (H b k l z I E Hz x Hxz N) as (y & Hy & Ey). exists y. split; auto.
    apply (nodes_sub t k); auto. apply nodes_in. eauto.
Qed.

Lemma subst_labels F t : (forall b k l, F b k = Some l -> sublist (flat_map labels l) (labels k)) ->
  forall anc, sublist (labels (subst_nodes F anc t)) (labels t).
Proof.
  intro H. tree_induction t. intro anc. cbn [subst_nodes]. rewrite !labels_node. apply sublist_app; [apply sublist_refl|].
  rewrite flat_map_flat_map. apply sublist_flat. intros k Hk.
  destruct (F (Node h ks :: anc) k) as [l|] eqn:E; [exact (H _ _ _ E)|].
  simpl. rewrite app_nil_r. apply IH; auto.
Qed.

Lemma keeps_prune {X} (pi : hdr -> X) p t : stems (fun h h' => pi h' = pi h) t (prune p t).
Proof.
  apply stems_subst; auto. intros b k l z I E Hz. destruct (p b k); [|discriminate]. injection E as <-. destruct Hz.
Qed.

Lemma keeps_optional {X} (pi : hdr -> X) p : keeps pi (always (optional_pass p)).
Proof. intros t e E. injection E as <-. apply keeps_prune. Qed.

Lemma keeps_optional_in_type {X} (pi : hdr -> X) name ns : keeps pi (optional_in_type name ns).
Proof.
  intros t e E. unfold optional_in_type in E. destruct (first_err _ _); [discriminate|]. injection E as <-. apply keeps_prune.
Qed.

Lemma keeps_rewrite {X} (pi : hdr -> X) p G : (forall anc k e, p anc k = true -> G k = Ok e -> stems (fun h h' => pi h' = pi h) k e) ->
  keeps pi (rewrite_all p G).
Proof.
  intros H t e E. unfold rewrite_all in E. destruct (first_err _ _); [discriminate|]. injection E as <-.
  apply stems_subst; auto. intros b k l z I E Hz. destruct (p b k) eqn:P; [|discriminate].
  destruct (G k) as [e'|] eqn:G'; [|discriminate]. injection E as <-. destruct Hz as [<-|[]]. eapply H; eauto.
Qed.

(** A single new node. *)
Lemma stems_new R T h : h_id h = 0 -> stems R T (Node h []).
Proof. intros E x [<-|[]] N. destruct (N E). Qed.

Lemma stems_erased R T e : stems R T (erase e).
Proof.
  intros x Hx N. exfalso. apply N. clear N. revert x Hx. tree_induction e. intros x [<-|Hx]; auto.
  apply in_flat_map in Hx as (k' & Hk & Hx). apply in_map_iff in Hk as (k & <- & Hk). eapply IH; eauto.
Qed.

Lemma keeps_child_value {X} (pi : hdr -> X) p q : keeps pi (rewrite_all p (value_of_child q)).
Proof.
  apply keeps_rewrite. intros anc k e _ E. unfold value_of_child in E. destruct (filter _ _); [discriminate|].
  injection E as <-. apply stems_new. reflexivity.
Qed.

Lemma keeps_as_string {X} (pi : hdr -> X) p : keeps pi (rewrite_all p as_string).
Proof. apply keeps_rewrite. intros anc k e _ E. injection E as <-. apply stems_new. reflexivity. Qed.

Lemma keeps_source {X} (pi : hdr -> X) p o b : keeps pi (rewrite_all p (structured_source o b)).
Proof.
  apply keeps_rewrite. intros anc k e _ E. unfold structured_source in E. destruct (parse_source _ _ _); [|discriminate].
  injection E as <-. apply stems_erased.
Qed.

Lemma stems_element R T q ks : (forall k, In k ks -> stems R T k) -> stems R T (element q ks).
Proof.
  intros H x [<-|Hx] N; [destruct N; reflexivity|]. apply in_flat_map in Hx as (k & Hk & Hx). exact (H k Hk x Hx N).
Qed.

Lemma stems_sub (R : hdr -> hdr -> Prop) t k : (forall h, R h h) -> In k (nodes t) -> stems R t k.
Proof. intros H Hk x Hx _. exists x. split; auto. eapply nodes_sub; eauto. Qed.

Lemma stems_renamed (R : hdr -> hdr -> Prop) t q k : (forall h, R h h) -> (R (head k) (set_tag q (head k))) -> In k (nodes t) ->
  stems R t (renamed_to q k).
Proof.
  intros H H' Hk x [<-|Hx] N.
  - exists k. auto.
  - exists x. split; auto. apply (nodes_sub t k); auto. destruct k as [h ks]. right. exact Hx.
Qed.

Lemma keeps_wrap {X} (pi : hdr -> X) p w : keeps pi (rewrite_all p (wrap w)).
Proof.
  apply keeps_rewrite. intros anc k e _ E. injection E as <-. apply stems_element. intros z [<-|[]].
  apply stems_sub; auto. apply nodes_self.
Qed.

Lemma keeps_wrap_renamed {X} (pi : hdr -> X) p w q : (forall anc k, p anc k = true -> pi (set_tag q (head k)) = pi (head k)) ->
  keeps pi (rewrite_all p (wrap_renamed w q)).
Proof.
  intro H. apply keeps_rewrite. intros anc k e P E. injection E as <-. apply stems_element. intros z [<-|[]].
  apply stems_renamed; eauto. apply nodes_self.
Qed.

Lemma kids_nodes t k : In k (kids t) -> In k (nodes t).
Proof. intro H. apply (nodes_kid t k); auto. apply nodes_self. Qed.

Lemma keeps_contributing {X} (pi : hdr -> X) p ns : (forall h, pi (set_tag (qn ns "Identity") h) = pi h) ->
  keeps pi (rewrite_all p (contributing_sources ns)).
Proof.
  intro H. apply keeps_rewrite. intros anc k e P E. unfold contributing_sources in E.
  destruct (forallb is_elem (kids k)); [|discriminate]. injection E as <-. apply stems_element. intros z Hz.
  apply in_map_iff in Hz as (c & <- & Hc). apply stems_element. intros z [<-|[]].
  apply stems_renamed; auto. apply kids_nodes; auto.
Qed.

Lemma keeps_unwrap {X} (pi : hdr -> X) a b c : (forall k, named b k = true -> pi (set_tag c (head k)) = pi (head k)) ->
  keeps pi (always (unwrap_pass a b c)).
Proof.
  intros H t e E. injection E as <-. apply stems_subst; auto. intros bb k l z I E Hz.
  destruct (inside bb && named a k); [|discriminate]. destruct (filter (named b) (kids k)) as [|y ys] eqn:F; [discriminate|].
  injection E as <-. assert (Hy : In y (filter (named b) (kids k))) by (rewrite F; left; auto). apply filter_In in Hy as (Hy & Ny).
  destruct Hz as [<-|[]]. apply stems_renamed; auto. apply kids_nodes; auto.
Qed.

Lemma named_tag q t : named q t = true -> h_tag (head t) = q /\ h_kind (head t) = KElem.
Proof. unfold named. destruct (h_kind (head t)); try discriminate. rewrite qn_eqb_eq. auto. Qed.

Lemma any_inside_one q anc t : any_inside [q] anc t = true -> h_tag (head t) = q /\ h_kind (head t) = KElem.
Proof.
  unfold any_inside, named_in. simpl. rewrite andb_true_iff, orb_false_r. intros [_ H]. apply named_tag; auto.
Qed.

Lemma keeps_rename {X} (pi : hdr -> X) old new : (forall h, h_tag h = old -> h_kind h = KElem -> pi (set_tag new h) = pi h) ->
  keeps pi (rename old new).
Proof.
  intro H. apply keeps_edit_where; [apply keeps_set_tag|]. intros anc t P.
  apply any_inside_one in P as [E K]. apply H; auto.
Qed.

Lemma nodes_ns drop m t : forall anc x, In x (nodes (ns_pass drop m anc t)) ->
  exists b y, In (b, y) (visits anc t) /\ (head x = head y \/ moves m y = true /\ head x = rebuilt drop m b y).
Proof.
  tree_induction t. intros anc x H. cbn [ns_pass nodes] in H. destruct H as [<-|H].
  - exists anc, (Node h ks). split; [apply visits_self|]. destruct (moves m (Node h ks)); auto.
  - apply in_flat_map in H as (k' & Hk' & Hx). apply in_map_iff in Hk' as (k & <- & Hk).
    destruct (is_elem k) eqn:El.
    + destruct (IH k Hk _ _ Hx) as (b & y & I & E). exists b, y. split; auto. right. apply in_flat_map. exists k. auto.
    + rewrite <- (nodes_visits k (Node h ks :: anc)) in Hx. apply in_map_iff in Hx as ([b y] & <- & I).
      exists b, y. split; auto. right. apply in_flat_map. exists k. auto.
Qed.

Lemma keeps_ns {X} (pi : hdr -> X) drop m : (forall b y, moves m y = true -> pi (rebuilt drop m b y) = pi (head y)) ->
  keeps pi (namespaces_pass drop m).
Proof.
  intros H t e E. apply namespaces_ok in E as ->. intros x Hx N. destruct (nodes_ns drop m t [] x Hx) as (b & y & I & E).
  exists y. split; [apply nodes_in; eauto|]. unfold tid. destruct E as [E|[M E]]; rewrite E; auto.
Qed.

(** ** Order of labels *)

Lemma orderly_always f : (forall t, sublist (labels (f t)) (labels t)) -> orderly (always f).
Proof. intros H t e E. injection E as <-. apply H. Qed.

Lemma orderly_nil : orderly (in_order []).
Proof. intros t e H. rewrite in_order_nil in H. injection H as <-. apply sublist_refl. Qed.

Lemma orderly_cons f l : orderly f -> orderly (in_order l) -> orderly (in_order (f :: l)).
Proof.
  intros H H' t e E. apply in_order_ok in E as (m & A & B). eapply sublist_trans; [apply (H' m e B)|apply (H t m A)].
Qed.

Lemma orderly_when b f : orderly f -> orderly (when b f).
Proof. intros H t e E. unfold when in E. destruct b; [exact (H t e E)|]. injection E as <-. apply sublist_refl. Qed.

Lemma orderly_passes {A} (f : A -> tree -> res tree) l : (forall x, orderly (f x)) -> orderly (passes f l).
Proof.
  intro H. induction l as [|x l IH]; intros t e E.
  - injection E as <-. apply sublist_refl.
  - rewrite passes_cons in E. destruct (f x t) as [m|] eqn:E1; [|discriminate].
    eapply sublist_trans; [exact (IH m e E)|exact (H x t m E1)].
Qed.

Lemma same_labels t e : ids e = ids t -> sublist (labels e) (labels t).
Proof. intro H. unfold labels. rewrite H. apply sublist_refl. Qed.

Lemma orderly_edit_where p g : keeps_id g -> orderly (always (edit_where p g)).
Proof.
  intro K. apply orderly_always. intro t. apply same_labels. apply edit_ids. intros b y. destruct (p b y); auto. apply K.
Qed.

Lemma orderly_rename old new : orderly (rename old new).
Proof. apply orderly_edit_where. apply keeps_set_tag. Qed.

Lemma orderly_on_root f : keeps_id f -> orderly (always (on_root f)).
Proof.
  intro K. apply orderly_always. intro t. apply same_labels. destruct t as [h ks]. simpl. rewrite K. reflexivity.
Qed.

Lemma orderly_loc drop m loc : orderly (always (schemaloc_pass drop m loc)).
Proof. apply orderly_on_root. apply loc_keeps_id. Qed.

Lemma orderly_lists obj prop : orderly (always (lists_pass obj prop)).
Proof.
  apply orderly_always. intro t. apply same_labels. apply edit_ids. intros b y. destruct (is_elem y); auto. apply repeat_keeps.
Qed.

Lemma orderly_vocab v : orderly (vocab_pass v).
Proof.
  intros t e E. unfold vocab_pass in E. destruct (first_err type_of _); [discriminate|].
  destruct (first_err (upgraded v) _); [discriminate|]. injection E as <-. apply same_labels.
  apply edit_ids. intros b y. destruct (outdated v (b, y)) eqn:O; auto.
  destruct (upgraded v (b, y)) as [h|] eqn:U; auto. exact (upgraded_keeps v (b, y) h O U).
Qed.

Lemma orderly_prune p t : sublist (labels (prune p t)) (labels t).
Proof. apply subst_labels. intros b k l E. destruct (p b k); [|discriminate]. injection E as <-. constructor. Qed.

Lemma orderly_optional p : orderly (always (optional_pass p)).
Proof. apply orderly_always. intro t. apply orderly_prune. Qed.

Lemma orderly_optional_in_type name ns : orderly (optional_in_type name ns).
Proof.
  intros t e E. unfold optional_in_type in E. destruct (first_err _ _); [discriminate|]. injection E as <-. apply orderly_prune.
Qed.

Lemma orderly_rewrite p G : orderly G -> orderly (rewrite_all p G).
Proof.
  intros H t e E. unfold rewrite_all in E. destruct (first_err _ _); [discriminate|]. injection E as <-.
  apply subst_labels. intros b k l E. destruct (p b k); [|discriminate].
  destruct (G k) as [e'|] eqn:G'; [|discriminate]. injection E as <-. simpl. rewrite app_nil_r. exact (H k e' G').
Qed.

Lemma orderly_child_value q : orderly (value_of_child q).
Proof. intros t e E. unfold value_of_child in E. destruct (filter _ _); [discriminate|]. injection E as <-. constructor. Qed.

Lemma orderly_as_string : orderly as_string.
Proof. intros t e E. injection E as <-. constructor. Qed.

Lemma labels_erased t : labels (erase t) = [].
Proof.
  tree_induction t. cbn [erase]. rewrite labels_node. simpl. rewrite flat_map_map.
  induction ks as [|k ks IHk]; auto. simpl. rewrite IH by (left; auto). apply IHk. intros x Hx. apply IH. right; auto.
Qed.

Lemma orderly_source o b : orderly (structured_source o b).
Proof.
  intros t e E. unfold structured_source in E. destruct (parse_source _ _ _); [|discriminate]. injection E as <-.
  rewrite labels_erased. constructor.
Qed.

Lemma labels_renamed q t : labels (renamed_to q t) = labels t.
Proof. destruct t as [h ks]. unfold renamed_to. rewrite !labels_node. reflexivity. Qed.

Lemma orderly_wrap w : orderly (wrap w).
Proof. intros t e E. injection E as <-. rewrite labels_element. simpl. rewrite app_nil_r. apply sublist_refl. Qed.

Lemma orderly_wrap_renamed w q : orderly (wrap_renamed w q).
Proof.
  intros t e E. injection E as <-. rewrite labels_element. simpl. rewrite app_nil_r, labels_renamed. apply sublist_refl.
Qed.

Lemma labels_kids t : sublist (flat_map labels (kids t)) (labels t).
Proof.
  destruct t as [h ks]. rewrite labels_node. apply (sublist_app []); [constructor|apply sublist_refl].
Qed.

Lemma orderly_contributing ns : orderly (contributing_sources ns).
Proof.
  intros t e E. unfold contributing_sources in E. destruct (forallb is_elem (kids t)); [|discriminate]. injection E as <-.
  rewrite labels_element, flat_map_map. eapply sublist_trans; [|apply labels_kids]. apply sublist_flat.
  intros k _. rewrite labels_element. simpl. rewrite app_nil_r, labels_renamed. apply sublist_refl.
Qed.

Lemma sublist_one {A B} (f : A -> list B) l x : In x l -> sublist (f x) (flat_map f l).
Proof.
  induction l as [|y l IH]; intros []; simpl.
  - subst. rewrite <- (app_nil_r (f x)) at 1. apply sublist_app; [apply sublist_refl|constructor].
  - apply (sublist_app []); [constructor|auto].
Qed.

Lemma orderly_unwrap a b c : orderly (always (unwrap_pass a b c)).
Proof.
  apply orderly_always. intro t. apply subst_labels. intros bb k l E.
  destruct (inside bb && named a k); [|discriminate]. destruct (filter (named b) (kids k)) as [|y ys] eqn:F; [discriminate|].
  injection E as <-. simpl. rewrite app_nil_r, labels_renamed. eapply sublist_trans; [|apply labels_kids].
  apply sublist_one. assert (Hy : In y (filter (named b) (kids k))) by (rewrite F; left; auto). apply filter_In in Hy. tauto.
Qed.

Lemma ns_ids drop m t : forall anc, ids (ns_pass drop m anc t) = ids t.
Proof.
  tree_induction t. intro anc. cbn [ns_pass ids]. f_equal.
  - destruct (moves m (Node h ks)); reflexivity.
  - rewrite flat_map_map. apply flat_map_ext_in. intros k Hk. destruct (is_elem k); auto.
Qed.

Lemma orderly_ns drop m : orderly (namespaces_pass drop m).
Proof. intros t e E. apply namespaces_ok in E as ->. apply same_labels. apply ns_ids. Qed.

Ltac orderlies :=
  repeat first
    [ apply orderly_nil | apply orderly_cons | apply orderly_when | apply orderly_passes; intro | apply orderly_loc
    | apply orderly_rename | apply orderly_lists | apply orderly_vocab | apply orderly_unwrap | apply orderly_ns
    | apply orderly_optional | apply orderly_optional_in_type | apply orderly_rewrite | apply orderly_child_value
    | apply orderly_as_string | apply orderly_wrap | apply orderly_wrap_renamed | apply orderly_contributing
    | apply orderly_source
    | apply orderly_on_root; let h := fresh "h" in intro h; destruct h; reflexivity
    | apply orderly_edit_where; let h := fresh "h" in intro h; destruct h; reflexivity ].

Ltac by_version H :=
  repeat (cbn [dict_get] in H; match type of H with
    | (if String.eqb ?v ?w then _ else _) = _ =>
        destruct (String.eqb_spec v w); [apply some_inj in H; subst|]
    | None = _ => discriminate end).

Lemma stix_step_orderly o opts v f : stix_step o opts v = Some f -> orderly f.
Proof.
  intro H. unfold stix_step in H. by_version H.
  - unfold stix_1_0_step. orderlies.
  - unfold stix_1_0_1_step. orderlies.
  - unfold stix_1_1_step. orderlies.
  - unfold stix_1_1_1_step. orderlies.
  - unfold stix_1_2_step. orderlies.
Qed.

Lemma cybox_step_orderly opts v f : cybox_step opts v = Some f -> orderly f.
Proof.
  intro H. unfold cybox_step in H. by_version H.
  - unfold cybox_2_0_step. orderlies.
  - unfold cybox_2_0_1_step. orderlies.
Qed.

Lemma set_if_present_same k v h0 h h' : set_if_present k v h0 h = Ok h' ->
  h_tag h' = h_tag h /\ h_kind h' = h_kind h /\ h_decl h' = h_decl h /\ h_tail h' = h_tail h /\
  h_text h' = h_text h /\ h_cdata h' = h_cdata h.
Proof.
  unfold set_if_present. destruct (has_attr k h0); [destruct v|]; intro E; try discriminate; injection E as <-; repeat split.
Qed.

Lemma upgraded_with_same v alias h h' : upgraded_with v alias h = Ok h' ->
  h_tag h' = h_tag h /\ h_kind h' = h_kind h /\ h_decl h' = h_decl h /\ h_tail h' = h_tail h.
Proof.
  unfold upgraded_with. intro E. destruct (set_if_present _ _ h _) as [h1|] eqn:E1 in E; [|discriminate]. cbn [rbind] in E.
  destruct (set_if_present _ _ h h1) as [h2|] eqn:E2; [|discriminate]. cbn [rbind] in E.
  apply set_if_present_same in E1 as (A1 & A2 & A3 & A4 & _), E2 as (B1 & B2 & B3 & B4 & _). injection E as <-.
  destruct (h_text h) as [s|]; [destruct (dict_get s (v_terms v))|];
    unfold set_text; cbn [h_tag h_kind h_decl h_tail]; rewrite ?B1, ?B2, ?B3, ?B4, ?A1, ?A2, ?A3, ?A4; auto.
Qed.

(** ** A step run on the labelled document *)

Lemma erase_labelled t : erase (labelled t) = erase t.
Proof. apply numbered_erase. Qed.

Lemma blind_labelled f t e : blind f -> f (erase t) = Ok e -> exists e', f (labelled t) = Ok e' /\ erase e' = e.
Proof.
  intros B H. rewrite <- erase_labelled, B in H. destruct (f (labelled t)) as [e'|]; [|discriminate].
  injection H as <-. exists e'. auto.
Qed.

Lemma stix_step_traced o opts v up f d s t r s' :
  dict_get v (STIX_UPDATERS o) = Some up -> stix_step o (or_default o opts) v = Some f ->
  wf_state s -> denotes s d t -> updater_update o up d opts false s = (Ok r, s') ->
  exists e, f (labelled t) = Ok e /\ document s' (r_document r) (erase e).
Proof.
  intros U F W D E. destruct (stix_step_changes o opts v up f d s t r s' U F W D E) as (e & Fe & Doc & _).
  destruct (blind_labelled f t e (stix_step_blind _ _ _ _ F) Fe) as (e' & Fe' & <-). exists e'. auto.
Qed.

Lemma cybox_step_traced o opts v up f d s t r s' :
  dict_get v (CYBOX_UPDATERS o) = Some up -> cybox_step (or_default o opts) v = Some f ->
  wf_state s -> denotes s d t -> updater_update o up d opts false s = (Ok r, s') ->
  exists e, f (labelled t) = Ok e /\ document s' (r_document r) (erase e).
Proof.
  intros U F W D E. destruct (cybox_step_changes o opts v up f d s t r s' U F W D E) as (e & Fe & Doc & _).
  destruct (blind_labelled f t e (cybox_step_blind _ _ _ F) Fe) as (e' & Fe' & <-). exists e'. auto.
Qed.
