(** * Single fields through the steps. *)

From Coq Require Import String Ascii List Bool Arith Lia.
From Verif Require Import Str Xml XPath Utils Base Tables Spec SpecDoc SpecPass SpecStep
  SpecCheck SpecClean SpecUpdate SpecTrace SpecField Lib Refine RefineBase RefineTrans RefineLists RefineSteps Relabel
  Cybox Stix RefineUpdate Natural Reports UpdateFacts Trace.
Import ListNotations.
Local Open Scope string_scope.

(** ** Attributes *)

Lemma attr_get_update l : NoDup (map fst l) -> forall k acc,
  attr_get k (attr_update acc l) = match attr_get k l with Some v => Some v | None => attr_get k acc end.
Proof.
  unfold attr_update. induction l as [|[k' v'] l IH]; intros N k acc; auto.
  cbn [map fst] in N. inversion N as [|? ? N1 N2]; subst. cbn [fold_left fst snd attr_get]. rewrite IH by auto.
  rewrite attr_get_set. destruct (qn_eqb k k') eqn:E; [|reflexivity].
  apply qn_eqb_eq in E. subst k'. destruct (attr_get k l) eqn:G; auto. exfalso. apply N1.
  clear - G. induction l as [|[k1 v1] l IH]; [discriminate|]. simpl in *. destruct (qn_eqb k k1) eqn:E; auto.
  apply qn_eqb_eq in E. auto.
Qed.

Lemma attr_of_set k k' v h : k <> k' -> attr_of k (hset_attr k' v h) = attr_of k h.
Proof. intro H. unfold attr_of, hset_attr. simpl. rewrite attr_get_set. apply qn_eqb_neq in H. rewrite H. reflexivity. Qed.

Lemma attr_of_set_same k v h : attr_of k (hset_attr k v h) = Some v.
Proof. unfold attr_of, hset_attr. simpl. rewrite attr_get_set, qn_eqb_refl. reflexivity. Qed.

Lemma attr_get_del k k' l : k <> k' -> attr_get k (attr_del k' l) = attr_get k l.
Proof.
  intro H. apply qn_eqb_neq in H. induction l as [|[k1 v1] l IH]; auto. simpl. destruct (qn_eqb k' k1) eqn:E.
  - apply qn_eqb_eq in E. subst k1. rewrite H. reflexivity.
  - simpl. rewrite IH. reflexivity.
Qed.

Lemma attr_of_del k k' h : k <> k' -> attr_of k (hdel_attr k' h) = attr_of k h.
Proof. intro H. unfold attr_of, hdel_attr. simpl. apply attr_get_del; auto. Qed.

Lemma attr_of_convert k h : attr_of k (convert_text h) = attr_of k h.
Proof. unfold convert_text. destruct (h_text h) as [s|]; auto. destruct (String.eqb s ""); auto. Qed.

Lemma attr_of_set_if k k' v h0 h h' : set_if_present k' v h0 h = Ok h' -> k <> k' -> attr_of k h' = attr_of k h.
Proof.
  unfold set_if_present. destruct (has_attr k' h0); [destruct v|]; intros E N; try discriminate; injection E as <-; auto.
  apply attr_of_set; auto.
Qed.

Lemma attr_of_upgraded k v alias h h' : upgraded_with v alias h = Ok h' -> ~ In k vocabulary_attributes ->
  attr_of k h' = attr_of k h.
Proof.
  unfold upgraded_with. intros E N. destruct (set_if_present _ _ h _) as [h1|] eqn:E1 in E; [|discriminate]. cbn [rbind] in E.
  destruct (set_if_present _ _ h h1) as [h2|] eqn:E2; [|discriminate]. cbn [rbind] in E. injection E as <-.
  assert (A : attr_of k h2 = attr_of k h).
  { rewrite (attr_of_set_if _ _ _ _ _ _ E2) by (intros ->; apply N; simpl; auto).
    rewrite (attr_of_set_if _ _ _ _ _ _ E1) by (intros ->; apply N; simpl; auto).
    apply attr_of_set. intros ->; apply N; simpl; auto. }
  destruct (h_text h) as [s|]; [destruct (dict_get s (v_terms v))|]; exact A.
Qed.

(** *** Steps that start from a document with distinct attributes *)

Definition keepsd {X} (pi : hdr -> X) (f : tree -> res tree) : Prop :=
  forall t e, distinct_attributes t -> f t = Ok e -> stems (fun h h' => pi h' = pi h) t e.

Lemma keeps_keepsd {X} (pi : hdr -> X) f : keeps pi f -> keepsd pi f.
Proof. intros H t e _. apply H. Qed.

Lemma keepsd_cons {X} (pi : hdr -> X) f l : keepsd pi f -> keeps pi (in_order l) -> keepsd pi (in_order (f :: l)).
Proof.
  intros H H' t e D E. apply in_order_ok in E as (m & A & B). exact (keeps_eq pi t m e (H t m D A) (H' m e B)).
Qed.

Lemma keepsd_ns {X} (pi : hdr -> X) drop m :
  (forall b y, moves m y = true -> NoDup (map fst (h_attr (head y))) -> pi (rebuilt drop m b y) = pi (head y)) ->
  keepsd pi (namespaces_pass drop m).
Proof.
  intros H t e D E. apply namespaces_ok in E as ->. intros x Hx N. destruct (nodes_ns drop m t [] x Hx) as (b & y & I & E).
  assert (Hy : In y (nodes t)) by (apply nodes_in; eauto).
  exists y. split; auto. unfold tid. destruct E as [E|[M E]]; rewrite E; auto.
Qed.

Lemma attr_of_rebuilt k drop m b y : NoDup (map fst (h_attr (head y))) -> attr_of k (rebuilt drop m b y) = attr_of k (head y).
Proof.
  intro N. unfold attr_of, rebuilt. cbn [h_attr]. rewrite attr_get_update by auto. destruct (attr_get k _); auto.
Qed.

Lemma keepsd_ns_attr k drop m : keepsd (attr_of k) (namespaces_pass drop m).
Proof. apply keepsd_ns. intros b y _ N. apply attr_of_rebuilt; auto. Qed.

Lemma keeps_loc_attr k drop m loc : k <> TAG_SCHEMALOCATION -> keeps (attr_of k) (always (schemaloc_pass drop m loc)).
Proof. intro H. apply keeps_loc. intros v h. apply attr_of_set; auto. Qed.

Lemma keeps_vocab_attr k v : ~ In k vocabulary_attributes -> keeps (attr_of k) (vocab_pass v).
Proof. intro H. apply keeps_vocab. intros alias h h' U. eapply attr_of_upgraded; eauto. Qed.

Lemma keeps_lists_attr k obj prop : keeps (attr_of k) (always (lists_pass obj prop)).
Proof. apply keeps_lists. intro h. apply attr_of_convert. Qed.

Lemma stamp_2_0_1_attr k h : ~ In k cybox_version_attributes -> attr_of k (stamp_cybox_2_0_1 h) = attr_of k h.
Proof.
  intro N. unfold stamp_cybox_2_0_1. rewrite !attr_of_set; auto; intros ->; apply N; simpl; auto.
Qed.

Lemma stamp_2_1_attr k h : ~ In k cybox_version_attributes -> attr_of k (stamp_cybox_2_1 h) = attr_of k h.
Proof.
  intro N. unfold stamp_cybox_2_1. rewrite attr_of_del, !attr_of_set; auto; intros ->; apply N; simpl; auto.
Qed.

Lemma keeps_vocabs_when k b vs : (b = true -> ~ In k vocabulary_attributes) ->
  keeps (attr_of k) (when b (passes vocab_pass vs)).
Proof.
  destruct b; intro H.
  - apply keeps_when. apply keeps_passes. apply Forall_forall. intros v _. apply keeps_vocab_attr; auto.
  - intros t e E. injection E as <-. apply stems_refl. auto.
Qed.

Lemma keeps_vocab_when k b v : (b = true -> ~ In k vocabulary_attributes) ->
  keeps (attr_of k) (when b (vocab_pass v)).
Proof.
  destruct b; intro H.
  - apply keeps_when. apply keeps_vocab_attr; auto.
  - intros t e E. injection E as <-. apply stems_refl. auto.
Qed.

Lemma stamp_stix_attr k i o h : k <> lq "version" -> attr_of k (stamp_stix i o h) = attr_of k h.
Proof. intro H. unfold stamp_stix. apply attr_of_set; auto. Qed.

Ltac keeps_attrs :=
  repeat first
    [ apply keeps_nil | apply keeps_cons | apply keeps_loc_attr; assumption
    | apply keeps_vocabs_when; assumption | apply keeps_vocab_when; assumption
    | apply keeps_lists_attr | apply keeps_child_value | apply keeps_as_string | apply keeps_wrap | apply keeps_source
    | apply keeps_rename; reflexivity | apply keeps_unwrap; reflexivity | apply keeps_optional | apply keeps_optional_in_type
    | apply keeps_when | apply keeps_wrap_renamed; reflexivity | apply keeps_contributing; reflexivity ].

(** The other attributes stay as they are. *)
Lemma cybox_2_0_attr k p opts : k <> TAG_SCHEMALOCATION -> ~ In k cybox_version_attributes ->
  (update_vocabularies opts = true -> ~ In k vocabulary_attributes) -> keeps (attr_of k) (cybox_2_0_step p opts).
Proof.
  intros L C V. unfold cybox_2_0_step. keeps_attrs.
  apply keeps_edit_where; [intro h; destruct h; reflexivity|]. intros; apply stamp_2_0_1_attr; auto.
Qed.

Lemma cybox_2_0_1_attr k p opts : k <> TAG_SCHEMALOCATION -> ~ In k cybox_version_attributes ->
  (update_vocabularies opts = true -> ~ In k vocabulary_attributes) -> keepsd (attr_of k) (cybox_2_0_1_step p opts).
Proof.
  intros L C V. unfold cybox_2_0_1_step. apply keepsd_cons; [apply keepsd_ns_attr|]. keeps_attrs.
  apply keeps_edit_where; [intro h; destruct h; reflexivity|]. intros; apply stamp_2_1_attr; auto.
Qed.

Lemma stix_step_attr o opts v f k : stix_step o opts v = Some f -> ~ In k (stix_attributes v) ->
  (update_vocabularies opts = true -> ~ In k vocabulary_attributes) -> keepsd (attr_of k) f.
Proof.
  intros H N V. unfold stix_step in H. 
  assert (L : k <> TAG_SCHEMALOCATION) by (intros ->; apply N; left; auto).
  assert (W : k <> lq "version") by (intros ->; apply N; right; left; auto).
  assert (S : forall i o', keeps (attr_of k) (always (edit_where carries_version (stamp_stix i o')))).
  { intros i o'. apply keeps_edit_where; [intro h; reflexivity|]. intros; apply stamp_stix_attr; auto. }
  by_version H.
  - unfold stix_1_0_step. apply keeps_keepsd. apply keeps_cons.
    + apply cybox_2_0_attr; auto. intro I. apply N. simpl in I |- *. tauto.
    + keeps_attrs; auto.
  - unfold stix_1_0_1_step. apply keepsd_cons.
    + apply cybox_2_0_1_attr; auto. intro I. apply N. simpl in I |- *. tauto.
    + keeps_attrs; auto.
  - unfold stix_1_1_step. apply keeps_keepsd. keeps_attrs; auto.
  - unfold stix_1_1_1_step. apply keeps_keepsd. keeps_attrs; auto.
  - unfold stix_1_2_step. apply keepsd_cons; [apply keepsd_ns_attr|]. keeps_attrs.
    apply keeps_on_root; [intro h; reflexivity|]. intro h. apply attr_of_set; auto.
Qed.

(** ** Versions of packages and components *)

Definition vinfo (h : hdr) : bool * option string * bool :=
  (versioned h, attr_of (lq "version") h, versioned h && String.eqb (q_local (h_tag h)) "Indicator").

Lemma vinfo_same h h' : h_tag h' = h_tag h -> h_kind h' = h_kind h ->
  attr_of (lq "version") h' = attr_of (lq "version") h -> vinfo h' = vinfo h.
Proof.
  intros T K A. unfold vinfo. replace (versioned h') with (versioned h); [rewrite A, T; reflexivity|].
  unfold versioned, carries_version, named_in, named. cbn [head]. rewrite T, K.
  unfold has_attr. unfold attr_of in A. rewrite A. reflexivity.
Qed.

Definition not_component (q : qname) : bool :=
  negb (qn_eqb q (stix "STIX_Package")) && negb (existsb (qn_eqb q) component_names).

Lemma not_component_versioned h : not_component (h_tag h) = true -> versioned h = false.
Proof.
  intro H. apply andb_true_iff in H as [A B]. apply negb_true_iff in A, B.
  unfold versioned, carries_version. replace (named (stix "STIX_Package") (Node h [])) with false.
  - replace (named_in component_names (Node h [])) with false; auto.
    unfold named_in, named. cbn [head]. destruct (h_kind h); auto.
  - unfold named. cbn [head]. destruct (h_kind h); auto.
Qed.

Lemma vinfo_other h h' : not_component (h_tag h) = true -> not_component (h_tag h') = true ->
  attr_of (lq "version") h' = attr_of (lq "version") h -> vinfo h' = vinfo h.
Proof.
  intros A B E. unfold vinfo. rewrite (not_component_versioned h A), (not_component_versioned h' B), E. reflexivity.
Qed.

Lemma keeps_edit_same p g : keeps_id g -> (forall h, h_tag (g h) = h_tag h) -> (forall h, h_kind (g h) = h_kind h) ->
  (forall h, attr_of (lq "version") (g h) = attr_of (lq "version") h) -> keeps vinfo (always (edit_where p g)).
Proof. intros K T D A. apply keeps_edit_where; auto. intros anc t _. apply vinfo_same; auto. Qed.

Lemma keeps_loc_vinfo drop m loc : keeps vinfo (always (schemaloc_pass drop m loc)).
Proof.
  apply keeps_loc. intros v h. apply vinfo_same; auto. apply attr_of_set. discriminate.
Qed.

Lemma keeps_lists_vinfo obj prop : keeps vinfo (always (lists_pass obj prop)).
Proof.
  apply keeps_lists. intro h. apply vinfo_same; try apply attr_of_convert; unfold convert_text;
    destruct (h_text h) as [s|]; auto; destruct (String.eqb s ""); auto.
Qed.

Lemma keeps_vocab_vinfo v : keeps vinfo (vocab_pass v).
Proof.
  apply keeps_vocab. intros alias h h' U. destruct (upgraded_with_same _ _ _ _ U) as (A & B & _).
  apply vinfo_same; auto. eapply attr_of_upgraded; eauto. simpl. intros [E|[E|[E|[]]]]; discriminate E.
Qed.

Lemma keeps_rename_vinfo old new : not_component old = true -> not_component new = true -> keeps vinfo (rename old new).
Proof. intros A B. apply keeps_rename. intros h T _. apply vinfo_other; auto. rewrite T. auto. Qed.

Lemma keeps_unwrap_vinfo a b c : not_component b = true -> not_component c = true -> keeps vinfo (always (unwrap_pass a b c)).
Proof.
  intros A B. apply keeps_unwrap. intros k N. apply named_tag in N as [T _]. apply vinfo_other; auto. rewrite T. auto.
Qed.

Lemma driver_moves y : moves driver_ns y = true ->
  q_ns (h_tag (head y)) = Some "http://cybox.mitre.org/objects#WinDriverObject-2".
Proof.
  unfold moves. destruct (q_ns (h_tag (head y))) as [ns|]; [|discriminate]. simpl. rewrite orb_false_r. intro H.
  apply String.eqb_eq in H. subst. reflexivity.
Qed.

Lemma not_component_ns q ns : q_ns q = Some ns ->
  forallb (fun c => negb (ostr_eqb (q_ns c) (Some ns))) (stix "STIX_Package" :: component_names) = true ->
  not_component q = true.
Proof.
  intros E F. unfold not_component. cbn [forallb] in F. apply andb_true_iff in F as [F1 F2].
  assert (X : forall c, negb (ostr_eqb (q_ns c) (Some ns)) = true -> qn_eqb q c = false).
  { intros c Hc. unfold qn_eqb. rewrite E. apply negb_true_iff in Hc. destruct (ostr_eqb (Some ns) (q_ns c)) eqn:D; auto.
    apply ostr_eqb_eq in D. rewrite <- D in Hc. simpl in Hc. rewrite String.eqb_refl in Hc. discriminate. }
  rewrite (X _ F1). simpl. apply negb_true_iff. rewrite forallb_forall in F2.
  destruct (existsb (qn_eqb q) component_names) eqn:D; auto. apply existsb_exists in D as (c & I & Ec).
  rewrite (X c (F2 c I)) in Ec. discriminate.
Qed.

Lemma keepsd_driver_vinfo : keepsd vinfo (namespaces_pass [] driver_ns).
Proof.
  apply keepsd_ns. intros b y M N. apply driver_moves in M. apply vinfo_other.
  - eapply not_component_ns; [exact M|reflexivity].
  - eapply (not_component_ns _ "http://cybox.mitre.org/objects#WinDriverObject-3"); [|reflexivity].
    unfold rebuilt. cbn [h_tag q_ns]. rewrite M. reflexivity.
  - apply attr_of_rebuilt; auto.
Qed.

Ltac keeps_vinfos :=
  repeat first
    [ apply keeps_nil | apply keeps_cons | apply keeps_loc_vinfo | apply keeps_lists_vinfo
    | apply keeps_child_value | apply keeps_as_string
    | apply keeps_rename_vinfo; reflexivity | apply keeps_unwrap_vinfo; reflexivity | apply keeps_optional
    | apply keeps_when | apply keeps_vocab_vinfo
    | apply keeps_passes; apply Forall_forall; let v := fresh "v" in intros v _; apply keeps_vocab_vinfo ].

Lemma cybox_2_0_vinfo p opts : keeps vinfo (cybox_2_0_step p opts).
Proof.
  unfold cybox_2_0_step. keeps_vinfos. apply keeps_edit_same; try (intro h; destruct h; reflexivity).
  intro h. apply stamp_2_0_1_attr. simpl. intros [E|[E|[E|[]]]]; discriminate E.
Qed.

Lemma cybox_2_0_1_vinfo p opts : keepsd vinfo (cybox_2_0_1_step p opts).
Proof.
  unfold cybox_2_0_1_step. apply keepsd_cons; [apply keepsd_driver_vinfo|]. keeps_vinfos.
  apply keeps_edit_same; try (intro h; destruct h; reflexivity).
  intro h. apply stamp_2_1_attr. simpl. intros [E|[E|[E|[]]]]; discriminate E.
Qed.

Lemma brought_stamp i o t : stems (brought_to i o) t (edit_where carries_version (stamp_stix i o) t).
Proof.
  apply stems_edit; intros b y I; destruct (carries_version b y) eqn:C; auto.
  - unfold brought_to. change (versioned (head y)) with (carries_version b y). rewrite C.
    unfold stamp_stix. apply attr_of_set_same.
  - unfold brought_to. change (versioned (head y)) with (carries_version b y). rewrite C. reflexivity.
Qed.

(** Before the stamp the version information is kept, after it the version. *)
Lemma brought_around i o t m e e' : stems (fun h h' => vinfo h' = vinfo h) t m ->
  e = edit_where carries_version (stamp_stix i o) m ->
  stems (fun h h' => attr_of (lq "version") h' = attr_of (lq "version") h) e e' -> stems (brought_to i o) t e'.
Proof.
  intros A -> C. eapply stems_impl; [|exact (stems_trans _ _ _ _ _ A (stems_trans _ _ _ _ _ (brought_stamp i o m) C))].
  simpl. intros h h' (h0 & E & h1 & B & D). unfold brought_to in *. rewrite D, B.
  unfold vinfo in E. injection E as E1 E2 E3. rewrite E1, E2. destruct (versioned h) eqn:V; auto.
  rewrite E1 in E3. cbn [andb] in E3. rewrite E3. reflexivity.
Qed.

Lemma in_order_split f l t e : in_order (f :: l) t = Ok e -> exists m, f t = Ok m /\ in_order l m = Ok e.
Proof. apply in_order_ok. Qed.

Lemma stix_versions_brought o opts v f i w t e : stix_step o opts v = Some f -> next_versions v = Some (i, w) ->
  distinct_attributes t -> f t = Ok e -> stems (brought_to i w) t e.
Proof.
  intros H N D E. 
  assert (VV : update_vocabularies opts = true -> ~ In (lq "version") vocabulary_attributes) by (intros _; simpl; intros [X|[X|[X|[]]]]; discriminate X).
  assert (LL : lq "version" <> TAG_SCHEMALOCATION) by discriminate.
  unfold stix_step in H. by_version H.
  - apply some_inj in N. injection N as <- <-. unfold stix_1_0_step in E.
    apply in_order_ok in E as (m & E1 & E). apply in_order_ok in E as (m1 & E2 & E). apply in_order_ok in E as (m2 & E3 & E).
    injection E3 as E3. eapply brought_around; [|symmetry; exact E3|].
    + eapply keeps_eq; [exact (cybox_2_0_vinfo _ _ _ _ E1)|exact (keeps_loc_vinfo _ _ _ _ _ E2)].
    + assert (K : keeps (attr_of (lq "version")) (in_order [when (update_vocabularies opts) (passes vocab_pass [motivation_1_0_1; operational_support])])).
      { keeps_attrs; auto. } exact (K _ _ E).
  - apply some_inj in N. injection N as <- <-. unfold stix_1_0_1_step in E.
    apply in_order_ok in E as (m & E1 & E). apply in_order_ok in E as (m1 & E2 & E). apply in_order_ok in E as (m2 & E3 & E).
    injection E3 as E3. eapply brought_around; [|symmetry; exact E3|].
    + eapply keeps_eq; [exact (cybox_2_0_1_vinfo _ _ _ _ D E1)|exact (keeps_loc_vinfo _ _ _ _ _ E2)].
    + match type of E with in_order ?l _ = _ =>
        assert (K : keeps (attr_of (lq "version")) (in_order l)) by (keeps_attrs; auto) end. exact (K _ _ E).
  - apply some_inj in N. injection N as <- <-. unfold stix_1_1_step in E.
    apply in_order_ok in E as (m & E1 & E). apply in_order_ok in E as (m1 & E2 & E). apply in_order_ok in E as (m2 & E3 & E).
    injection E3 as E3. eapply brought_around; [|symmetry; exact E3|].
    + eapply keeps_eq; [exact (keeps_loc_vinfo _ _ _ _ _ E1)|exact (keeps_loc_vinfo _ _ _ _ _ E2)].
    + match type of E with in_order ?l _ = _ =>
        assert (K : keeps (attr_of (lq "version")) (in_order l)) by (keeps_attrs; auto) end. exact (K _ _ E).
  - apply some_inj in N. injection N as <- <-. unfold stix_1_1_1_step in E.
    apply in_order_ok in E as (m1 & E2 & E). apply in_order_ok in E as (m2 & E3 & E).
    injection E3 as E3. eapply brought_around; [|symmetry; exact E3|].
    + exact (keeps_loc_vinfo _ _ _ _ _ E2).
    + match type of E with in_order ?l _ = _ =>
        assert (K : keeps (attr_of (lq "version")) (in_order l)) by (keeps_attrs; auto) end. exact (K _ _ E).
  - discriminate.
Qed.
