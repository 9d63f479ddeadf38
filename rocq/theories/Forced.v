(** * Cleaning keeps a document acceptable. *)

From Coq Require Import String Ascii List Bool Arith Lia NArith.
From Verif Require Import Str Xml XPath Utils Base Tables Spec SpecDoc SpecPass SpecStep
  SpecCheck SpecClean SpecUpdate SpecTrace SpecField SpecFault Lib Refine RefineBase RefineTrans RefineLists RefineSteps Relabel Cybox Stix RefineUpdate Natural Updates Reports UpdateFacts Trace Fields Carried Follow Vocab Worked Marks Root Versions Faults SpecRead Reading.
Import ListNotations.
Local Open Scope string_scope.

(** ** Conditions on single nodes *)

Lemma robust_attr (Q : hdr -> Prop) k k2 : k <> lq "id" -> k2 <> lq "id" ->
  (forall h h', attr_of k h' = attr_of k h -> attr_of k2 h' = attr_of k2 h -> Q h -> Q h') -> robust Q.
Proof.
  intros A B H. split.
  - intro h. split; apply H; reflexivity.
  - intros v h. apply H; apply attr_of_set; congruence.
Qed.

Lemma cleaned_types f g d t : types_readable t -> types_readable (erase (cleaned f g d t)).
Proof.
  intros H x v [I E]. refine (robust_cleaned q_value f g d t _ _ x I v E).
  - apply (robust_attr _ TAG_XSI_TYPE TAG_XSI_TYPE); [discriminate|discriminate|]. intros h h' A _ Q w Ew. apply Q. congruence.
  - intros y Hy w Ew. exact (H y w (conj Hy Ew)).
Qed.

Lemma cleaned_decl f g d t : h_decl (head (erase (cleaned f g d t))) = h_decl (head t).
Proof.
  rewrite erase_decl. unfold cleaned, without, prune. rewrite head_subst. unfold fresh_ids. rewrite head_edit.
  destruct (position _ _), (id_of t); reflexivity.
Qed.

Lemma cleaned_prefixes f g d t : prefixes_on_root t -> prefixes_on_root (erase (cleaned f g d t)).
Proof.
  intros H x v a n [I E] S. rewrite cleaned_decl. apply root_prefixes_in. refine (robust_cleaned (q_key (root_prefixes t)) f g d t _ _ x I v a n E S).
  - apply (robust_attr _ TAG_XSI_TYPE TAG_XSI_TYPE); [discriminate|discriminate|]. intros h h' A _ Q w b m Ew. apply Q. congruence.
  - intros y Hy w b m Ew Sw. apply root_prefixes_in. exact (H y w b m (conj Hy Ew) Sw).
Qed.

Lemma cleaned_references f g d t : no_broken_reference t -> no_broken_reference (erase (cleaned f g d t)).
Proof.
  intros H x v a n [I E] S B.
  assert (R : attr_of (lq "vocab_reference") (head x) = None).
  { refine (robust_cleaned q_type f g d t _ _ x I v a n E S B).
    - apply (robust_attr _ TAG_XSI_TYPE (lq "vocab_reference")); [discriminate|discriminate|]. intros h h' A A' Q w b m Ew Sw Bw. rewrite A'. apply (Q w b m); auto. congruence.
    - intros y Hy w b m Ew Sw Bw. specialize (H y w b m (conj Hy Ew) Sw Bw). unfold has_attr in H. unfold attr_of. destruct (attr_get (lq "vocab_reference") _); [discriminate|reflexivity]. }
  unfold has_attr. unfold attr_of in R. rewrite R. reflexivity.
Qed.

Lemma cleaned_sources f g d t : sources_plain t -> sources_plain (erase (cleaned f g d t)).
Proof.
  intro H. apply sources_all. apply robust_cleaned; [|apply sources_all; exact H]. split; [intro h; split; exact (fun x => x)|intros v h Q; exact Q].
Qed.

Definition readable_version (h : hdr) : Prop := forall s,
  named (stix "STIX_Package") (Node h []) = true /\ attr_get (lq "version") (h_attr h) = Some s \/ cybox_declared (Node h []) = Some s ->
  s = "" \/ exists v pre, version_number s v pre.

Lemma versions_all t : versions_readable t <-> all readable_version t.
Proof. split; intros H x; [intros Hx s E; exact (H x s Hx E)|intros s Hx E; exact (H x Hx s E)]. Qed.

Lemma cleaned_versions f g d t : versions_readable t -> versions_readable (erase (cleaned f g d t)).
Proof.
  intro H. apply versions_all. apply robust_cleaned; [|apply versions_all; exact H]. split; [intro h; split; exact (fun x => x)|].
  intros v h Q s E. apply Q. destruct E as [[E1 E2]|E]; [left; split; [exact E1|]|right].
  - change (attr_of (lq "version") (hset_attr (lq "id") v h) = Some s) in E2. rewrite attr_of_set in E2 by discriminate. exact E2.
  - revert E. unfold cybox_declared. cbn [head].
    change (attr_get ?k (h_attr (hset_attr (lq "id") v h))) with (attr_of k (hset_attr (lq "id") v h)). rewrite !attr_of_set by discriminate. exact (fun x => x).
Qed.

Lemma cleaned_sections f g d t : sections_whole t -> sections_whole (erase (cleaned f g d t)).
Proof.
  intro H. change (all (fun h => ~ broken_section h) (erase (cleaned f g d t))). apply robust_cleaned; [|exact H].
  split; [intro h; split; exact (fun x => x)|]. intros v h Q. exact Q.
Qed.

(** ** Contributors *)

Lemma fresh_class {A} (c : hdr -> A) f g l t : (forall v h, c (hset_attr (lq "id") v h) = c h) ->
  forall P, shaped c P t -> shaped c P (fresh_ids f g l t).
Proof. intros H P S. apply shaped_edit; auto. intros b y. destruct (position _ _), (id_of y); auto. Qed.

Lemma cleaned_contributors f g d t : contributors_only t -> contributors_only (erase (cleaned f g d t)).
Proof.
  intro H. apply contributors_erase, contributors_shape_of. unfold cleaned, without. apply contributors_prune. apply fresh_class; [reflexivity|].
  apply contributors_shape_of. exact H.
Qed.

(** ** Values *)

(** 0: DNT and Vary; 1: URI values without a type; 2: the rest. *)
Definition field_class (h : hdr) : nat :=
  if named_in [http_name "DNT"; http_name "Vary"] (Node h []) then 0
  else if named (object_name "URI" "Value") (Node h []) && negb (has_attr TAG_XSI_TYPE h) then 1 else 2.

Lemma field_class_one h : field_class h = 1 <-> named (object_name "URI" "Value") (Node h []) = true /\ has_attr TAG_XSI_TYPE h = false.
Proof.
  unfold field_class. destruct (named_in _ _) eqn:N.
  - split; [discriminate|]. intros [V _]. exfalso. unfold named_in, named in *. cbn [head existsb] in *. destruct (h_kind h); try discriminate.
    apply qn_eqb_eq in V. rewrite V in N. discriminate N.
  - destruct (named _ _), (has_attr _ _); cbn [andb negb]; split; try discriminate; intros; try tauto; destruct H; discriminate.
Qed.

Lemma field_class_zero h : field_class h = 0 <-> named_in [http_name "DNT"; http_name "Vary"] (Node h []) = true.
Proof. unfold field_class. destruct (named_in _ _); [tauto|]. destruct (named _ _ && _); split; discriminate. Qed.

Lemma plain_values_shaped t : plain_values_present t <-> shaped field_class value_shape t.
Proof.
  split.
  - intros H x Hx E. apply field_class_zero in E. destruct (H x Hx E) as (k & Hk & V & T). apply in_map_iff. exists k. split; auto. apply field_class_one. auto.
  - intros H x Hx N. assert (I : In 1 (map (fun k => field_class (head k)) (kids x))) by (apply H; auto; apply field_class_zero; exact N).
    apply in_map_iff in I as (k & E & Hk). apply field_class_one in E as [V T]. exists k. auto.
Qed.

Lemma field_class_id v h : field_class (hset_attr (lq "id") v h) = field_class h.
Proof.
  unfold field_class, has_attr. change (attr_get TAG_XSI_TYPE (h_attr (hset_attr (lq "id") v h))) with (attr_of TAG_XSI_TYPE (hset_attr (lq "id") v h)).
  rewrite attr_of_set by discriminate. reflexivity.
Qed.

(** Removing nodes of other classes. *)
Lemma shaped_spared (p : list tree -> tree -> bool) t : forall b,
  (forall b' k, In (b', k) (visits b t) -> p b' k = true -> field_class (head k) <> 1) -> shaped field_class value_shape t ->
  shaped field_class value_shape (subst_nodes (fun anc t => if p anc t then Some [] else None) b t).
Proof.
  induction t as [h ks IH] using tree_induct. intros b H S. apply shaped_node in S as [S K]. cbn [subst_nodes]. apply shaped_node. split.
  - intro E. specialize (S E). apply in_map_iff in S as (k & Ek & Hk). apply in_map_iff. exists (subst_nodes (fun anc t => if p anc t then Some [] else None) (Node h ks :: b) k).
    rewrite subst_head. split; auto. apply in_flat_map. exists k. split; auto. destruct (p (Node h ks :: b) k) eqn:P; [|left; reflexivity].
    exfalso. refine (H (Node h ks :: b) k _ P Ek). right. apply in_flat_map. exists k. split; auto. destruct k. left. reflexivity.
  - intros z Hz. apply in_flat_map in Hz as (k & Hk & Hz). destruct (p _ k); [destruct Hz|]. destruct Hz as [<-|[]]. apply IH; auto.
    intros b' k' I. apply H. right. apply in_flat_map. eauto.
Qed.

(** The rules never name such a value. *)
Definition spares (r : rule) : Prop :=
  match r with
  | Elements p => forall b x, p b x = true -> field_class (head x) <> 1
  | Instances _ _ => True
  | Parents p => forall q b x, p (q :: b) x = true -> field_class (head q) <> 1
  end.

Lemma offenders_spared r t l i : spares r -> offenders r t = Ok l -> In i l -> exists x, In x (nodes t) /\ tid x = i /\ field_class (head x) <> 1.
Proof.
  intros Sp E I. destruct r as [p|n ns|p]; cbn [offenders spares] in *.
  - injection E as <-. apply in_map_iff in I as (c & <- & I). apply selected_in in I as [I P]. exists (snd c). eauto.
  - destruct (first_err _ _); [discriminate|]. injection E as <-. apply in_map_iff in I as ([b x] & <- & I). apply filter_In in I as [I T]. cbn [snd].
    exists x. split; [apply nodes_in; eauto|]. split; auto. intro C. apply field_class_one in C as [_ C]. unfold of_type, typed in T. cbn [snd fst] in T.
    rewrite C, !andb_false_r in T. discriminate T.
  - injection E as <-. apply in_flat_map in I as ([b x] & I & H). cbn [fst] in H. destruct b as [|q b]; [destruct H|]. destruct H as [<-|[]].
    unfold selected in I. apply filter_In in I as [I P]. cbn [fst snd] in P. exists q. split; [|eauto].
    apply nodes_in. exists b. apply (visits_parent t [] q b x I). discriminate.
Qed.

Lemma untranslatable_spared rules t l i : Forall spares rules -> untranslatable rules t = Ok l -> In i l ->
  exists x, In x (nodes t) /\ tid x = i /\ field_class (head x) <> 1.
Proof.
  intro F. revert l. induction F as [|r rules Fr F IH]; intros l E I; cbn [untranslatable] in E; [injection E as <-; destruct I|].
  destruct (offenders r t) as [a|] eqn:O; [|discriminate]. cbn [rbind] in E. destruct (untranslatable rules t) as [b|]; [|discriminate]. cbn [rbind] in E.
  injection E as <-. apply in_app_or in I as [I|I]; [exact (offenders_spared r t a i Fr O I)|exact (IH b eq_refl I)].
Qed.

Lemma other_name q h : q <> object_name "URI" "Value" -> named q (Node h []) = true -> field_class h <> 1.
Proof.
  intros N A C. apply field_class_one in C as [C _]. unfold named in *. cbn [head] in *. destruct (h_kind h); try discriminate.
  apply qn_eqb_eq in A, C. congruence.
Qed.

Lemma inside_spared q b x : q <> object_name "URI" "Value" -> any_inside [q] b x = true -> field_class (head x) <> 1.
Proof. intros N H. apply any_inside_named in H. exact (other_name q (head x) N H). Qed.

Lemma child_spared qs q b x : q <> object_name "URI" "Value" -> child_in qs q b x = true -> field_class (head x) <> 1.
Proof. intros N H. apply child_in_named in H. exact (other_name q (head x) N H). Qed.

Lemma holds_spared q ns b x : q <> object_name "URI" "Value" -> only_holds q ns b x = true -> field_class (head x) <> 1.
Proof. intros N H. unfold only_holds in H. apply andb_true_iff in H as [H _]. exact (inside_spared q b x N H). Qed.

Lemma cybox_spared : Forall spares cybox_2_0_1_rules.
Proof.
  unfold cybox_2_0_1_rules. apply Forall_cons; [intros b x; apply inside_spared; discriminate|].
  apply Forall_cons; [intros b x; apply inside_spared; discriminate|].
  apply Forall_cons; [intros b x; apply child_spared; discriminate|].
  apply Forall_cons; [|apply Forall_nil]. intros b x H. apply andb_true_iff in H as [H _]. apply andb_true_iff in H as [H _].
  revert H. apply inside_spared. discriminate.
Qed.

Lemma stix_1_0_spared : Forall spares stix_1_0_rules.
Proof.
  unfold stix_1_0_rules. do 2 (apply Forall_cons; [exact Logic.I|]).
  do 2 (apply Forall_cons; [intros b x; apply holds_spared; discriminate|]). apply Forall_nil.
Qed.

Lemma stix_1_0_1_spared o : Forall spares (stix_1_0_1_rules o).
Proof.
  unfold stix_1_0_1_rules. apply Forall_app. split; [|exact cybox_spared]. do 2 (apply Forall_cons; [exact Logic.I|]).
  apply Forall_cons.
  { intros q b x H. apply andb_true_iff in H as [H _]. unfold child_in, child_of in H. apply andb_true_iff in H as [H _].
    apply andb_true_iff in H as [H _]. unfold named_in in H. cbn [existsb] in H. rewrite orb_false_r in H. revert H.
    apply (other_name (campaign "Activity") (head q)). discriminate. }
  do 2 (apply Forall_cons; [intros b x; apply holds_spared; discriminate|]). apply Forall_nil.
Qed.

Lemma cleaned_values f g d t : NoDup (ids t) -> (forall i, In i (fst d) -> exists x, In x (nodes t) /\ tid x = i /\ field_class (head x) <> 1) ->
  plain_values_present t -> plain_values_present (erase (cleaned f g d t)).
Proof.
  intros N H S. apply plain_values_shaped in S.
  assert (E : forall t, shaped field_class value_shape t -> plain_values_present (erase t)).
  { clear. intros t S. apply plain_values_shaped in S. intros x I Nm. apply in_nodes_erase in I as (y & I & ->). rewrite named_in_erase in Nm.
    destruct (S y I Nm) as (k & Hk & V & T). exists (erase k). rewrite erase_kids, named_erase. split; [apply in_map; exact Hk|]. split; auto.
    unfold has_attr in *. rewrite erase_attr. exact T. }
  apply E. clear E. unfold cleaned, without, prune. apply shaped_spared; [|apply fresh_class; [apply field_class_id|exact S]].
  intros b k I P. apply existsb_exists in P as (i & Hi & P). apply Nat.eqb_eq in P. destruct (H i Hi) as (x & Hx & Tx & Cx). intro Ck. apply Cx. rewrite <- Ck.
  assert (Ik : In k (nodes (fresh_ids f g (renumbered d) t))) by (apply nodes_in; eauto). unfold fresh_ids in Ik.
  destruct (nodes_edit _ _ _ _ Ik) as (b' & y & Iy & Ey). rewrite Ey.
  assert (Y : y = x).
  { apply (same_node t); auto; [apply nodes_in; eauto|]. rewrite Tx, <- P. unfold tid at 2. rewrite Ey. destruct (position _ _), (id_of y); reflexivity. }
  subst y. destruct (position _ _), (id_of x); try rewrite field_class_id; reflexivity.
Qed.

(** ** Acceptable documents *)

Lemma acceptable_tolerable e t : acceptable t -> tolerable e t.
Proof. intros [A B C D E F G S]. destruct e; cbn [tolerable]; auto. Qed.

Lemma plain_values t : plain_values_present t -> values_present t.
Proof. intros H x I N. destruct (H x I N) as (k & Hk & V & _). eauto. Qed.

Lemma acceptable_numbered n t : acceptable t -> acceptable (numbered n t).
Proof.
  intros [A B C D E F G S]. constructor.
  - rewrite <- types_readable_erase, numbered_erase, types_readable_erase. exact A.
  - rewrite <- prefixes_erase, numbered_erase, prefixes_erase. exact B.
  - rewrite <- broken_erase, numbered_erase, broken_erase. exact C.
  - rewrite <- values_erase, numbered_erase, values_erase. exact D.
  - rewrite <- contributors_erase, numbered_erase, contributors_erase. exact E.
  - rewrite <- sources_erase, numbered_erase, sources_erase. exact F.
  - rewrite <- versions_erase, numbered_erase, versions_erase. exact G.
  - rewrite <- sections_erase, numbered_erase, sections_erase. exact S.
Qed.

Lemma plain_values_erase t : plain_values_present (erase t) <-> plain_values_present t.
Proof.
  split; intros H x I N.
  - destruct (H (erase x)) as (k & Hk & Nk & T); [apply in_nodes_erase; eauto|rewrite named_in_erase; exact N|].
    rewrite erase_kids in Hk. apply in_map_iff in Hk as (k' & <- & Hk). rewrite named_erase in Nk. unfold has_attr in *. rewrite erase_attr in T. eauto.
  - apply in_nodes_erase in I as (y & I & ->). rewrite named_in_erase in N. destruct (H y I N) as (k & Hk & Nk & T).
    exists (erase k). unfold has_attr in *. rewrite erase_kids, named_erase, erase_attr. split; auto. apply in_map. exact Hk.
Qed.

Lemma acceptable_cleaned f g d t : NoDup (ids t) -> (forall i, In i (fst d) -> exists x, In x (nodes t) /\ tid x = i /\ field_class (head x) <> 1) ->
  acceptable t -> plain_values_present t -> acceptable (erase (cleaned f g d t)).
Proof.
  intros N H [A B C _ E F G S] V. constructor.
  - apply cleaned_types, A.
  - apply cleaned_prefixes, B.
  - apply cleaned_references, C.
  - apply plain_values, cleaned_values; auto.
  - apply cleaned_contributors, E.
  - apply cleaned_sources, F.
  - apply cleaned_versions, G.
  - apply cleaned_sections, S.
Qed.

Lemma stix_dirt_spared o v D t d : stix_dirt o v = Some D -> D t = Ok d -> forall i, In i (fst d) -> exists x, In x (nodes t) /\ tid x = i /\ field_class (head x) <> 1.
Proof.
  unfold stix_dirt, dict_get. intros H E i I.
  assert (K : forall rules (k : list nat -> dict (list nat)), Forall spares rules -> rbind (untranslatable rules t) (fun l => Ok (l, k l)) = Ok d ->
    exists x, In x (nodes t) /\ tid x = i /\ field_class (head x) <> 1).
  { intros rules k F R. destruct (untranslatable rules t) as [l|] eqn:U; [|discriminate]. cbn [rbind] in R. injection R as <-. cbn [fst] in I.
    exact (untranslatable_spared rules t l i F U I). }
  destruct (String.eqb v "1.0"); [apply some_inj in H; subst D; exact (K stix_1_0_rules (fun _ => []) stix_1_0_spared E)|].
  destruct (String.eqb v "1.0.1"); [apply some_inj in H; subst D; exact (K (stix_1_0_1_rules o) (fun _ => stix_duplicates t) (stix_1_0_1_spared o) E)|].
  destruct (String.eqb v "1.1"); [apply some_inj in H; subst D; injection E as <-; destruct I|].
  destruct (String.eqb v "1.1.1"); [apply some_inj in H; subst D; injection E as <-; destruct I|].
  destruct (String.eqb v "1.2"); [apply some_inj in H; subst D; discriminate E|discriminate].
Qed.

Lemma cybox_dirt_spared v D t d : cybox_dirt v = Some D -> D t = Ok d -> forall i, In i (fst d) -> exists x, In x (nodes t) /\ tid x = i /\ field_class (head x) <> 1.
Proof.
  unfold cybox_dirt, dict_get. intros H E i I.
  destruct (String.eqb v "2.0"); [apply some_inj in H; subst D; injection E as <-; destruct I|].
  destruct (String.eqb v "2.0.1"); [apply some_inj in H; subst D|discriminate].
  destruct (untranslatable cybox_2_0_1_rules t) as [l|] eqn:U; [|discriminate]. cbn [rbind] in E. injection E as <-. cbn [fst] in I.
  exact (untranslatable_spared _ t l i cybox_spared U I).
Qed.

(** ** One step on a document without one kind of defect *)

Lemma single_sound c D (f : tree -> res tree) new_id force g t x :
  safe_check c -> distinct_attributes t -> tolerable x t ->
  (force = true -> forall dt, D t = Ok dt -> tolerable x (erase (cleaned new_id g dt t))) ->
  (forall t1, fit t t1 -> tolerable x t1 -> f t1 <> Err x) ->
  single c D f new_id force g t = Err x -> documented x \/ force = true /\ D t = Err x.
Proof.
  intros C Dt A K F E. apply single_fault in E; auto. destruct E as [E|[E|(t1 & N & [->|(Fo & dt & Hd & ->)])]]; auto.
  - exfalso. apply N. rewrite tolerable_erase. exact A.
  - exfalso. apply N. exact (K Fo dt Hd).
Qed.

(** The defect does not appear by cleaning. *)
Definition lasting (x : exn) (t : tree) : Prop := forall f g d n,
  (forall i, In i (fst d) -> exists y, In y (nodes (numbered n t)) /\ tid y = i /\ field_class (head y) <> 1) ->
  tolerable x (erase (cleaned f g d (numbered n t))).

Lemma stix_sound_for o opts v up d force s t x s' :
  dict_get v (STIX_UPDATERS o) = Some up -> wf_state s -> denotes s d t -> is_elem t = true -> distinct_attributes t ->
  tolerable x t -> (force = true -> lasting x t) ->
  updater_update o up d opts force s = (Err x, s') ->
  documented x \/ x = NotImplementedError /\ v = "1.2" /\ force = true.
Proof.
  intros U W Dn El Dt A V E. pose proof (stix_step_performed o opts v up d force s t U W Dn) as P.
  destruct (stix_described o (or_default o opts) v up U) as (c & D & f & Ec & Ed & Ef & _). unfold stix_single in P. rewrite Ec, Ed, Ef in P.
  destruct (single _ _ _ _ _ _ _) as [oc|y] eqn:S in P; [destruct P as (r2 & s2 & P & _); rewrite E in P; discriminate|].
  destruct P as (s2 & P). rewrite E in P. injection P as <- <-.
  assert (Dn' : distinct_attributes (numbered (next s) t)) by (apply distinct_numbered; exact Dt).
  assert (A' : tolerable x (numbered (next s) t)) by (apply tolerable_numbered; exact A).
  apply single_sound in S; [|exact (stix_check_safe _ _ _ _ Ec)|exact Dn'|exact A'| |].
  - destruct S as [S|[-> S]]; auto. destruct (stix_dirt_safe o v D _ x Ed Dn' S) as [[K K']|K]; auto. contradiction.
  - intros Fo dt Hd. apply (V Fo). exact (stix_dirt_spared o v D _ dt Ed Hd).
  - intros t1 Fit T. apply fit_numbered in Fit. apply (stix_tolerated _ _ _ _ _ _ Ef); [rewrite (proj2 Fit); exact El|exact (fit_distinct_plain _ _ Fit Dt)|exact T].
Qed.

Lemma cybox_sound_for o opts v up d force s t x s' :
  dict_get v (CYBOX_UPDATERS o) = Some up -> wf_state s -> denotes s d t -> is_elem t = true -> distinct_attributes t ->
  tolerable x t -> (force = true -> lasting x t) ->
  updater_update o up d opts force s = (Err x, s') -> documented x.
Proof.
  intros U W Dn El Dt A V E. pose proof (cybox_step_performed o opts v up d force s t U W Dn) as P.
  destruct (cybox_described o (or_default o opts) v up U) as (c & D & f & Ec & Ed & Ef & _). unfold cybox_single in P. rewrite Ec, Ed, Ef in P.
  destruct (single _ _ _ _ _ _ _) as [oc|y] eqn:S in P; [destruct P as (r2 & s2 & P & _); rewrite E in P; discriminate|].
  destruct P as (s2 & P). rewrite E in P. injection P as <- <-.
  assert (Dn' : distinct_attributes (numbered (next s) t)) by (apply distinct_numbered; exact Dt).
  assert (A' : tolerable x (numbered (next s) t)) by (apply tolerable_numbered; exact A).
  apply single_sound in S; [|exact (cybox_check_safe _ _ _ Ec)|exact Dn'|exact A'| |].
  - destruct S as [S|[-> S]]; auto. exfalso. exact (cybox_dirt_safe v D _ x Ed Dn' S A').
  - intros Fo dt Hd. apply (V Fo). exact (cybox_dirt_spared v D _ dt Ed Hd).
  - intros t1 Fit T. apply fit_numbered in Fit. apply (cybox_tolerated _ _ _ _ _ Ef); [rewrite (proj2 Fit); exact El|exact (fit_distinct_plain _ _ Fit Dt)|exact T].
Qed.

Lemma acceptable_lasting x t : acceptable t -> plain_values_present t -> lasting x t.
Proof.
  intros A V f g d n H. apply acceptable_tolerable. apply acceptable_cleaned; [apply numbered_NoDup|exact H|apply acceptable_numbered, A|].
  rewrite <- plain_values_erase, numbered_erase, plain_values_erase. exact V.
Qed.

Lemma stix_sound o opts v up d force s t x s' :
  dict_get v (STIX_UPDATERS o) = Some up -> wf_state s -> denotes s d t -> is_elem t = true -> distinct_attributes t ->
  acceptable t -> (force = true -> plain_values_present t) ->
  updater_update o up d opts force s = (Err x, s') ->
  documented x \/ x = NotImplementedError /\ v = "1.2" /\ force = true.
Proof.
  intros U W Dn El Dt A V E. eapply stix_sound_for; eauto; [apply acceptable_tolerable, A|]. intro Fo. apply acceptable_lasting; auto.
Qed.

Lemma cybox_sound o opts v up d force s t x s' :
  dict_get v (CYBOX_UPDATERS o) = Some up -> wf_state s -> denotes s d t -> is_elem t = true -> distinct_attributes t ->
  acceptable t -> (force = true -> plain_values_present t) ->
  updater_update o up d opts force s = (Err x, s') -> documented x.
Proof.
  intros U W Dn El Dt A V E. eapply cybox_sound_for; eauto; [apply acceptable_tolerable, A|]. intro Fo. apply acceptable_lasting; auto.
Qed.

Lemma references_lasting t : no_broken_reference t -> lasting TypeError t.
Proof.
  intros H f g d n _. cbn [tolerable]. apply cleaned_references. rewrite <- broken_erase, numbered_erase, broken_erase. exact H.
Qed.

Lemma stix_reference o opts v up d force s t : dict_get v (STIX_UPDATERS o) = Some up -> wf_state s -> denotes s d t -> is_elem t = true ->
  distinct_attributes t -> no_broken_reference t -> fst (updater_update o up d opts force s) <> Err TypeError.
Proof.
  intros U W Dn El Dt H E. destruct (updater_update o up d opts force s) as [y s'] eqn:R. cbn [fst] in E. subst y.
  destruct (stix_sound_for o opts v up d force s t TypeError s' U W Dn El Dt H (fun _ => references_lasting t H) R) as [K|[K _]]; [inversion K|discriminate K].
Qed.

Lemma cybox_reference o opts v up d force s t : dict_get v (CYBOX_UPDATERS o) = Some up -> wf_state s -> denotes s d t -> is_elem t = true ->
  distinct_attributes t -> no_broken_reference t -> fst (updater_update o up d opts force s) <> Err TypeError.
Proof.
  intros U W Dn El Dt H E. destruct (updater_update o up d opts force s) as [y s'] eqn:R. cbn [fst] in E. subst y.
  pose proof (cybox_sound_for o opts v up d force s t TypeError s' U W Dn El Dt H (fun _ => references_lasting t H) R) as K. inversion K.
Qed.

(** ** Deciding the conditions (for examples) *)

Definition b_types (t : tree) : bool :=
  forallb (fun x => match attr_get TAG_XSI_TYPE (h_attr (head x)) with
                    | Some v => match split_char ":" v with [_; _] => true | _ => false end
                    | None => true
                    end) (nodes t).
Definition b_prefixes (t : tree) : bool :=
  forallb (fun x => match attr_get TAG_XSI_TYPE (h_attr (head x)) with
                    | Some v => match split_char ":" v with [a; _] => mem_str a (root_prefixes t) | _ => true end
                    | None => true
                    end) (nodes t).
Definition b_references (t : tree) : bool :=
  forallb (fun x => match attr_get TAG_XSI_TYPE (h_attr (head x)) with
                    | Some v => match split_char ":" v with [_; n] => negb (mem_str n broken && has_attr (lq "vocab_reference") (head x)) | _ => true end
                    | None => true
                    end) (nodes t).
Definition b_plain_values (t : tree) : bool :=
  forallb (fun x => negb (named_in [http_name "DNT"; http_name "Vary"] x)
                    || existsb (fun k => named (object_name "URI" "Value") k && negb (has_attr TAG_XSI_TYPE (head k))) (kids x)) (nodes t).
Definition b_values (t : tree) : bool :=
  forallb (fun x => negb (named_in [http_name "DNT"; http_name "Vary"] x) || existsb (named (object_name "URI" "Value")) (kids x)) (nodes t).
Definition b_contributors (t : tree) : bool :=
  forallb (fun x => negb (named (common "Contributors") x) || forallb is_elem (kids x)) (nodes t).
Definition b_sources (t : tree) : bool :=
  forallb (fun x => negb (named_in [common "Source"; indicator "Source"] x)
                    || match h_text (head x) with
                       | Some s => no_markup s && match chardata s with Some _ => true | None => false end
                       | None => true
                       end) (nodes t).
Definition b_version (s : string) : bool := match strict_version s with Some _ => true | None => String.eqb s "" end.
Definition b_versions (t : tree) : bool :=
  forallb (fun x => (negb (named (stix "STIX_Package") x)
                     || match attr_get (lq "version") (h_attr (head x)) with Some s => b_version s | None => true end)
                    && match cybox_declared x with Some s => b_version s | None => true end) (nodes t).

Definition b_sections (t : tree) : bool :=
  forallb (fun x => negb (h_cdata (head x) && contains "]]>" (match h_text (head x) with Some s => s | None => "" end))) (nodes t).

Lemma types_decided t : b_types t = true -> types_readable t.
Proof.
  intros H x v [I E]. unfold b_types in H. rewrite forallb_forall in H. specialize (H x I). rewrite E in H.
  destruct (split_char ":" v) as [|a [|n [|]]]; try discriminate. eauto.
Qed.

Lemma prefixes_decided t : b_prefixes t = true -> prefixes_on_root t.
Proof.
  intros H x v a n [I E] S. unfold b_prefixes in H. rewrite forallb_forall in H. specialize (H x I). rewrite E, S in H.
  apply mem_str_In in H. apply root_prefixes_in. exact H.
Qed.

Lemma references_decided t : b_references t = true -> no_broken_reference t.
Proof.
  intros H x v a n [I E] S B. unfold b_references in H. rewrite forallb_forall in H. specialize (H x I). rewrite E, S in H.
  apply (mem_str_In n broken) in B. rewrite B in H. destruct (has_attr _ _); [discriminate|reflexivity].
Qed.

Lemma values_decided t : b_values t = true -> values_present t.
Proof.
  intros H x I N. unfold b_values in H. rewrite forallb_forall in H. specialize (H x I). rewrite N in H. cbn [negb orb] in H.
  apply existsb_exists in H. exact H.
Qed.

Lemma plain_values_decided t : b_plain_values t = true -> plain_values_present t.
Proof.
  intros H x I N. unfold b_plain_values in H. rewrite forallb_forall in H. specialize (H x I). rewrite N in H. cbn [negb orb] in H.
  apply existsb_exists in H as (k & Hk & H). apply andb_true_iff in H as [A B]. apply negb_true_iff in B. eauto.
Qed.

Lemma contributors_decided t : b_contributors t = true -> contributors_only t.
Proof.
  intros H x k I N Hk. unfold b_contributors in H. rewrite forallb_forall in H. specialize (H x I). rewrite N in H. cbn [negb orb] in H.
  rewrite forallb_forall in H. auto.
Qed.

Lemma sources_decided t : b_sources t = true -> sources_plain t.
Proof.
  intros H x I N s E. unfold b_sources in H. rewrite forallb_forall in H. specialize (H x I). rewrite N, E in H. cbn [negb orb] in H.
  apply andb_true_iff in H as [A B]. apply readable_iff. split; auto. intro X. rewrite X in B. discriminate.
Qed.

Lemma version_decided s : b_version s = true -> s = "" \/ exists v pre, version_number s v pre.
Proof.
  unfold b_version. destruct (strict_version s) as [[v pre]|] eqn:E.
  - intros _. right. exists v, pre. apply strict_version_iff. exact E.
  - intro H. left. apply String.eqb_eq. exact H.
Qed.

Lemma versions_decided t : b_versions t = true -> versions_readable t.
Proof.
  intros H x s I E. unfold b_versions in H. rewrite forallb_forall in H. specialize (H x I). apply andb_true_iff in H as [A B].
  destruct E as [[N E]|E].
  - rewrite N, E in A. cbn [negb orb] in A. apply version_decided. exact A.
  - rewrite E in B. apply version_decided. exact B.
Qed.

Lemma sections_decided t : b_sections t = true -> sections_whole t.
Proof.
  intros H x I E. unfold b_sections in H. rewrite forallb_forall in H. specialize (H x I). apply section_found in E. rewrite E in H. discriminate.
Qed.

Lemma acceptable_decided t : b_types t && b_prefixes t && b_references t && b_values t && b_contributors t && b_sources t && b_versions t && b_sections t = true -> acceptable t.
Proof.
  intro H. repeat (apply andb_true_iff in H as [H ?]). constructor;
    auto using types_decided, prefixes_decided, references_decided, values_decided, contributors_decided, sources_decided, versions_decided, sections_decided.
Qed.
