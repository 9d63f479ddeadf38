(** * Following nodes through a whole update. *)

From Coq Require Import String Ascii List Bool Arith Lia Relation_Operators.
From Verif Require Import Str Xml XPath Utils Base Tables Spec SpecDoc SpecPass SpecStep
  SpecCheck SpecClean SpecUpdate SpecTrace Lib Refine RefineBase RefineTrans RefineLists RefineSteps Relabel Cybox Stix Ramrod RefineUpdate Natural Updates Reports UpdateFacts
  Trace SpecField Fields Carried Worked Declared Faults Ids Cleaned Marks Api Rounds SpecWhole Called Told.
Import ListNotations.
Local Open Scope string_scope.

(** ** Which nodes stay *)

(** The names in [qs], and the generic test mechanisms if [g]. *)
Definition leaving (qs : list qname) (g : bool) (h : hdr) : bool := one_of qs h || g && generic_mechanism h.

Lemma nominal_leaving qs g : nominal (leaving qs g).
Proof. unfold leaving. nominals. Qed.

Lemma leaving_tag qs g q h : has qs q = false -> leaving qs g h = false -> leaving qs g (set_tag q h) = false.
Proof.
  unfold leaving. rewrite !orb_false_iff. intros N [_ G]. split; [apply one_of_set; exact N|exact G].
Qed.

Lemma leaving_element qs g q ks : has qs q = false -> leaving qs g (head (element q ks)) = false.
Proof. intro N. unfold leaving. rewrite (one_of_element qs q ks N). apply andb_false_r. Qed.

Definition proper_type (v : vocab) : bool :=
  match split_char ":" (v_new_type v) with
  | [x] => String.eqb x (v_new_type v)
  | _ => false
  end && negb (String.eqb (v_new_type v) "GenericTestMechanismType").

Lemma leaving_vocab qs g v : proper_type v = true -> holding (leaving qs g) (vocab_pass v).
Proof.
  intro T. apply andb_true_iff in T as [T1 T2]. apply holding_vocab. intros b y h F U. unfold leaving in *.
  apply orb_false_iff in F as [F _]. rewrite (upgraded_one _ _ _ _ _ F U). erewrite upgraded_generic; [apply andb_false_r| | |exact U].
  - destruct (split_char ":" (v_new_type v)) as [|x [|]]; try discriminate. apply String.eqb_eq in T1. congruence.
  - apply negb_true_iff in T2. apply String.eqb_neq. exact T2.
Qed.

Lemma leaving_vocabs qs g vs : forallb proper_type vs = true -> holding (leaving qs g) (passes vocab_pass vs).
Proof. intro H. apply holding_passes. intros v I. apply leaving_vocab. rewrite forallb_forall in H. auto. Qed.

(** Distinct attributes matter where nodes are built anew. *)
Lemma holds_ns P drop m t : forall anc0, 
  (forall y anc, In y (nodes t) -> moves m y = true -> P (head y) = false -> P (rebuilt drop m anc y) = false) ->
  holds P t (ns_pass drop m anc0 t).
Proof.
  tree_induction t. intros anc0 H anc b y A I Fr FA S.
  assert (F0 : P h = false) by (apply (Fr (Node h ks)); apply (visits_top _ anc b y I)).
  assert (F1 : P (head (ns_pass drop m anc0 (Node h ks))) = false).
  { cbn [ns_pass head]. destruct (moves m (Node h ks)) eqn:M; [|exact F0]. exact (H _ anc0 (nodes_self _) M F0). }
  assert (F2 : freel P (ns_pass drop m anc0 (Node h ks) :: A)) by (intros z [<-|Hz]; auto).
  assert (T : tid (Node h ks) = tid (ns_pass drop m anc0 (Node h ks))).
  { cbn [ns_pass]. destruct (moves m (Node h ks)); reflexivity. }
  assert (S2 : sublist (plabels (Node h ks :: anc)) (plabels (ns_pass drop m anc0 (Node h ks) :: A))) by (apply plabels_sub; auto).
  destruct I as [E|I].
  - injection E as <- <-. exists A, (ns_pass drop m anc0 (Node h ks)). split; [apply visits_self|]. auto.
  - apply in_flat_map in I as (k & Hk & I). cbn [ns_pass visits].
    destruct (is_elem k) eqn:El.
    + destruct (IH k Hk (Node h ks :: anc0) (fun y anc Hy => H y anc (nodes_kid (Node h ks) k y Hk Hy)) (Node h ks :: anc) b y (ns_pass drop m anc0 (Node h ks) :: A) I Fr F2 S2) as (b' & y' & I' & R).
      exists b', y'. split; auto. right. rewrite flat_map_map. apply in_flat_map. exists k. split; auto. rewrite El. exact I'.
    + destruct (holds_refl P k _ b y (ns_pass drop m anc0 (Node h ks) :: A) I Fr F2 S2) as (b' & y' & I' & R).
      exists b', y'. split; auto. right. rewrite flat_map_map. apply in_flat_map. exists k. split; auto. rewrite El. exact I'.
Qed.

Lemma generic_rebuilt drop m b y : NoDup (map fst (h_attr (head y))) -> generic_mechanism (rebuilt drop m b y) = generic_mechanism (head y).
Proof. intro N. unfold generic_mechanism. pose proof (attr_of_rebuilt TAG_XSI_TYPE drop m b y N) as E. unfold attr_of in E. rewrite E. reflexivity. Qed.

Lemma cybox_2_0_leaving qs g p opts : holding (leaving qs g) (cybox_2_0_step p opts).
Proof.
  unfold cybox_2_0_step. apply holding_cons; [apply holding_loc, nominal_leaving|].
  apply holding_cons; [apply holding_edit_where; [intro h; destruct h; reflexivity|intros h F; rewrite nominal_stamp_2_0_1 by apply nominal_leaving; exact F]|].
  apply holding_cons; [apply holding_lists, nominal_leaving|].
  apply holding_cons; [|apply holding_nil]. apply holding_when. intros _. apply leaving_vocab. reflexivity.
Qed.

Lemma cybox_2_0_1_leaving qs g p opts t e :
  forallb (has qs) cybox_2_0_1_replaced = true ->
  (remove_optionals opts = true -> incl cybox_2_1_optional qs) ->
  forallb (fun q => negb (ostr_eqb (q_ns q) (Some "http://cybox.mitre.org/objects#WinDriverObject-3"))) qs = true ->
  existsb (has qs) [http_name "X_Forwarded_For"; packet_name "Authentication_Data";
                    packet_name "Encapsulating_Security_Payload"; packet_name "Proto_Addr_Size"] = false ->
  (g = true -> distinct_attributes t) ->
  cybox_2_0_1_step p opts t = Ok e -> holds (leaving qs g) t e.
Proof.
  intros Q R D A Dt E. cbn [forallb cybox_2_0_1_replaced] in Q. rewrite !andb_true_iff in Q. destruct Q as (Q1 & Q2 & Q3 & Q4 & _).
  cbn [existsb] in A. rewrite !orb_false_iff in A. destruct A as (A1 & A2 & A3 & A4 & _).
  unfold cybox_2_0_1_step in E. apply in_order_ok in E as (m & E1 & E2).
  assert (GN : forall q k, has qs q = true -> named q k = true -> leaving qs g (head k) = true).
  { intros q k Hq N. unfold leaving. rewrite (one_of_named qs q k Hq N). reflexivity. }
  apply namespaces_ok in E1 as ->. eapply holds_trans.
  - apply holds_ns. intros y anc Hy M F. unfold leaving in *. apply orb_false_iff in F as [_ F].
    rewrite driver_free by auto. cbn [orb]. destruct g; [|reflexivity]. cbn [andb] in *. rewrite generic_rebuilt; auto. apply (Dt eq_refl). exact Hy.
  - match type of E2 with ?f _ = _ => assert (X : holding (leaving qs g) f); [|exact (X _ _ E2)] end.
    repeat first
      [ apply holding_nil | apply holding_cons | apply holding_when; intro
      | apply holding_loc; apply nominal_leaving
      | apply leaving_vocabs; reflexivity
      | apply holding_edit_where; [intro h; destruct h; reflexivity|intros h F; rewrite nominal_stamp_2_1 by apply nominal_leaving; exact F] ].
    + apply holding_dropped. intros anc k Pk. eapply GN; [exact Q1|]. eapply any_inside_named; eauto.
    + apply holding_dropped. intros anc k Pk. eapply GN; [exact Q2|]. eapply any_inside_named; eauto.
    + apply holding_dropped. intros anc k Pk. eapply GN; [exact Q3|]. eapply any_inside_named; eauto.
    + apply holding_rename. intros h _ _. apply leaving_tag; auto.
    + apply holding_rename. intros h _ _. apply leaving_tag; auto.
    + apply holding_rename. intros h _ _. apply leaving_tag; auto.
    + apply holding_rename. intros h _ _. apply leaving_tag; auto.
    + apply holding_unwrap. intros k. apply GN. exact Q4.
    + apply holding_optional. intros q b k Pk. apply andb_true_iff in Pk as [_ Pk].
      unfold leaving. apply orb_true_iff. left. eapply one_of_incl; [apply R; auto|]. exact Pk.
Qed.

(** What leaves in the steps from 1.0.1 (if [a]) and from 1.1 (if [b]). *)
Definition names_1_0_1 (opts : options) : list qname :=
  ((common "Contributors" :: cybox_2_0_1_replaced) ++
   (if remove_optionals opts then marking "Controlled_Structure" :: marking "Marking_Structure" :: cybox_2_1_optional else []))%list.
Definition stix_names (opts : options) (a b : bool) : list qname :=
  ((if a then names_1_0_1 opts else []) ++ (if b then [common "Source"; indicator "Source"] else []))%list.
Definition stix_leaving (opts : options) (a b : bool) : hdr -> bool := leaving (stix_names opts a b) (b && remove_optionals opts).

Lemma stix_leaving_is opts vs h : stix_gone_by opts vs h = stix_leaving opts (mem_str "1.0.1" vs) (mem_str "1.1" vs) h.
Proof.
  assert (X : forall a b, stix_leaving opts a b h = a && stix_gone opts "1.0.1" h || b && stix_gone opts "1.1" h).
  { intros a b. unfold stix_leaving, leaving, stix_names, names_1_0_1, stix_gone. simpl (String.eqb _ _). rewrite !one_of_app, !one_of_when, !andb_false_l, !andb_true_l, orb_false_r, orb_false_l.
    destruct a, b, (remove_optionals opts); cbn [andb orb]; rewrite ?one_of_app, ?one_of_when, ?orb_false_r, ?orb_assoc; reflexivity. }
  rewrite X. unfold stix_gone_by. induction vs as [|v vs IH]; [reflexivity|]. cbn [existsb]. rewrite IH. unfold mem_str. cbn [existsb].
  destruct (String.eqb_spec "1.0.1" v) as [<-|N1]; [destruct (existsb (String.eqb "1.0.1") vs), (String.eqb "1.1" "1.0.1") eqn:Z, (existsb (String.eqb "1.1") vs), (stix_gone opts "1.0.1" h), (stix_gone opts "1.1" h); try discriminate Z; reflexivity|].
  destruct (String.eqb_spec "1.1" v) as [<-|N2]; [destruct (existsb (String.eqb "1.0.1") vs), (existsb (String.eqb "1.1") vs), (stix_gone opts "1.0.1" h), (stix_gone opts "1.1" h); reflexivity|].
  assert (Z : stix_gone opts v h = false).
  { unfold stix_gone. rewrite (proj2 (String.eqb_neq v "1.0.1")), (proj2 (String.eqb_neq v "1.1")) by congruence. reflexivity. }
  rewrite Z. reflexivity.
Qed.

Lemma holds_sub (P Q : hdr -> bool) t e : (forall h, P h = Q h) -> holds P t e -> holds Q t e.
Proof.
  intros E H anc b y A I Fr FA S.
  assert (X : forall l, freel P l <-> freel Q l).
  { intro l. unfold freel. split; intros HH z Z; specialize (HH z Z); rewrite <- HH; [symmetry|]; apply E. }
  destruct (H anc b y A I) as (b' & y' & I' & T & Fr' & S'); try apply X; auto.
  exists b', y'. split; auto. split; auto. split; auto. apply X. exact Fr'.
Qed.

Lemma stix_step_leaving o opts v f a b t e : stix_step o opts v = Some f -> (v = "1.0.1" -> a = true) -> (v = "1.1" -> b = true) ->
  (v = "1.2" -> a = false /\ b = false) -> (v = "1.0.1" -> distinct_attributes t) -> f t = Ok e -> holds (stix_leaving opts a b) t e.
Proof.
  intros H Ha Hb H2 Hd. assert (N : nominal (stix_leaving opts a b)) by apply nominal_leaving. revert t e Hd.
  assert (G : v <> "1.0.1" -> holding (stix_leaving opts a b) f -> forall t e, (v = "1.0.1" -> distinct_attributes t) -> f t = Ok e -> holds (stix_leaving opts a b) t e) by auto.
  assert (K : forall i w, holding (stix_leaving opts a b) (always (edit_where carries_version (stamp_stix i w)))).
  { intros i w. apply holding_edit_where; [intro h; reflexivity|intros h F; rewrite nominal_stamp_stix; assumption]. }
  unfold stix_step in H. by_version H.
  - apply G; [discriminate|]. unfold stix_1_0_step. apply holding_cons; [apply cybox_2_0_leaving|].
    apply holding_cons; [apply holding_loc; exact N|]. apply holding_cons; [apply K|]. apply holding_cons; [|apply holding_nil].
    apply holding_when. intros _. apply leaving_vocabs. reflexivity.
  - intros t e Hd E. specialize (Hd eq_refl). rewrite (Ha eq_refl) in *. unfold stix_1_0_1_step in E. apply in_order_ok in E as (m & E1 & E2).
    assert (GN : forall q k, has (stix_names opts true b) q = true -> named q k = true -> stix_leaving opts true b (head k) = true).
    { intros q k Hq Nq. unfold stix_leaving, leaving. rewrite (one_of_named _ q k Hq Nq). reflexivity. }
    eapply holds_trans.
    + eapply cybox_2_0_1_leaving; [..|exact E1].
      * rewrite forallb_forall. intros q Hq. unfold has, stix_names, names_1_0_1. rewrite !existsb_app. apply orb_true_iff. left. apply orb_true_iff. left.
        destruct Hq as [<-|[<-|[<-|[<-|[]]]]]; reflexivity.
      * intros R q Hq. unfold stix_names, names_1_0_1. rewrite R. apply in_or_app. left. apply in_or_app. right. right. right. exact Hq.
      * unfold stix_names, names_1_0_1. destruct (remove_optionals opts), b; reflexivity.
      * unfold stix_names, names_1_0_1. destruct (remove_optionals opts), b; reflexivity.
      * auto.
    + clear E1. revert m e E2. match goal with |- forall m e, ?f m = _ -> _ => change (holding (stix_leaving opts true b) f) end.
      repeat first [ apply holding_nil | apply holding_cons | apply K | apply holding_when; intro | apply holding_loc; exact N | apply leaving_vocabs; reflexivity ].
      * apply holding_dropped. intros anc k Pk. apply any_inside_named in Pk. eapply GN; [|exact Pk]. reflexivity.
      * apply holding_wrap. apply leaving_element. unfold stix_names, names_1_0_1. destruct (remove_optionals opts), b; reflexivity.
      * apply holding_optional. intros q b0 k Pk. apply andb_true_iff in Pk as [_ Pk]. unfold stix_leaving, leaving. apply orb_true_iff. left.
        eapply one_of_incl; [|exact Pk]. intros x Hx. unfold stix_names, names_1_0_1. apply in_or_app. left. apply in_or_app. right.
        match goal with E : remove_optionals opts = true |- _ => rewrite E end. destruct Hx as [<-|[<-|[]]]; simpl; auto.
  - apply G; [discriminate|]. rewrite (Hb eq_refl) in *.
    assert (GN : forall q k, has (stix_names opts a true) q = true -> named q k = true -> stix_leaving opts a true (head k) = true).
    { intros q k Hq Nq. unfold stix_leaving, leaving. rewrite (one_of_named _ q k Hq Nq). reflexivity. }
    unfold stix_1_1_step.
    repeat first [ apply holding_cons | apply holding_nil | apply K | apply holding_when; intro | apply holding_loc; exact N | apply leaving_vocab; reflexivity ].
    + apply holding_dropped. intros anc k Pk. apply child_in_named in Pk. eapply GN; [|exact Pk].
      unfold has, stix_names. rewrite existsb_app. apply orb_true_iff. right. reflexivity.
    + apply holding_dropped. intros anc k Pk. apply child_in_named in Pk. eapply GN; [|exact Pk].
      unfold has, stix_names. rewrite existsb_app. apply orb_true_iff. right. reflexivity.
    + assert (Y : has (stix_names opts a true) (indicator "Related_Campaign") = false /\ has (stix_names opts a true) (common "Campaign") = false).
      { unfold stix_names, names_1_0_1. destruct a, (remove_optionals opts); split; reflexivity. }
      apply holding_wrap_renamed; [|apply leaving_element; apply Y]. intros anc k Pk. apply leaving_tag. apply Y.
    + intros t e E. unfold optional_in_type in E. destruct (first_err _ _); [discriminate|]. injection E as <-.
      apply holding_prune. intros q b0 k Pk. left. apply andb_true_iff in Pk as [Pk _]. apply andb_true_iff in Pk as [Pk _].
      unfold stix_leaving, leaving. apply orb_true_iff. right. apply andb_true_iff. split; auto.
      unfold of_type in Pk. apply andb_true_iff in Pk as [_ Pk]. unfold type_of in Pk. cbn [snd fst] in Pk.
      unfold generic_mechanism. destruct (attr_get TAG_XSI_TYPE (h_attr (head q))) as [s|]; [|discriminate].
      destruct (split_char ":" s) as [|a' [|n' [|]]]; try discriminate. destruct (env_get _ _); [|discriminate].
      apply andb_true_iff in Pk as [Pk _]. exact Pk.
  - apply G; [discriminate|]. unfold stix_1_1_1_step.
    repeat first [ apply holding_cons | apply holding_nil | apply K | apply holding_when; intro | apply holding_loc; exact N | apply leaving_vocab; reflexivity ].
  - apply G; [discriminate|]. destruct (H2 eq_refl) as [-> ->].
    assert (Z : forall h, stix_leaving opts false false h = false) by reflexivity. unfold stix_1_2_step.
    apply holding_cons; [apply holding_ns; auto|]. apply holding_cons; [apply holding_loc; exact N|].
    apply holding_cons; [|apply holding_nil]. apply holding_on_root; [intro h; reflexivity|]. auto.
Qed.

(** ** Which attributes stay *)

Definition unique (h : hdr) : Prop := NoDup (map fst (h_attr h)).

(** Attributes stay distinct, and those outside [S] as they are. *)
Definition same_but (S : list qname) (h h' : hdr) : Prop :=
  unique h -> unique h' /\ forall k, ~ In k S -> attr_of k h' = attr_of k h.

Section Attributes.
  Variable S : list qname.
  Local Notation R := (same_but S).
  Definition trails (f : tree -> res tree) : Prop := forall t e, f t = Ok e -> stems R t e.

  Lemma but_refl h : R h h.
  Proof. intro U. auto. Qed.

  Lemma but_trans h h0 h' : R h h0 -> R h0 h' -> R h h'.
  Proof. intros A B U. destruct (A U) as [U0 A']. destruct (B U0) as [U' B']. split; auto. intros k N. rewrite B', A'; auto. Qed.

  Lemma but_same h h' : h_attr h' = h_attr h -> R h h'.
  Proof. intros E U. unfold unique, attr_of in *. rewrite E. auto. Qed.

  Lemma but_set k v h : In k S -> R h (hset_attr k v h).
  Proof.
    intros I U. split; [apply attr_set_NoDup; exact U|]. intros k' N. apply attr_of_set. intros ->. auto.
  Qed.

  Lemma but_del k h : In k S -> R h (hdel_attr k h).
  Proof.
    intros I U. split; [apply NoDup_del; exact U|]. intros k' N. apply attr_of_del. intros ->. auto.
  Qed.

  Lemma trails_eq T m e : stems R T m -> stems R m e -> stems R T e.
  Proof.
    intros H H'. eapply stems_impl; [|exact (stems_trans _ _ _ _ _ H H')].
    simpl. intros h h' (h0 & A & B). eapply but_trans; eauto.
  Qed.

  Lemma trails_id : trails (fun t => Ok t).
  Proof. intros t e H. injection H as <-. apply stems_refl. apply but_refl. Qed.

  Lemma trails_nil : trails (in_order []).
  Proof. intros t e H. rewrite in_order_nil in H. injection H as <-. apply stems_refl. apply but_refl. Qed.

  Lemma trails_cons f l : trails f -> trails (in_order l) -> trails (in_order (f :: l)).
  Proof. intros H H' t e E. apply in_order_ok in E as (m & A & B). exact (trails_eq t m e (H t m A) (H' m e B)). Qed.

  Lemma trails_when b f : (b = true -> trails f) -> trails (when b f).
  Proof. intros H. unfold when. destruct b; [auto|]. apply trails_id. Qed.

  Lemma trails_passes {A} (f : A -> tree -> res tree) l : (forall x, trails (f x)) -> trails (passes f l).
  Proof.
    intro H. induction l as [|x l IH]; intros t e E.
    - injection E as <-. apply stems_refl. apply but_refl.
    - rewrite passes_cons in E. destruct (f x t) as [m|] eqn:E1; [|discriminate]. exact (trails_eq t m e (H x t m E1) (IH m e E)).
  Qed.

  Lemma trails_edit_where p g : keeps_id g -> (forall h, R h (g h)) -> trails (always (edit_where p g)).
  Proof.
    intros K H t e E. injection E as <-. apply stems_edit; intros b y I; destruct (p b y); auto; apply but_refl || apply K.
  Qed.

  Lemma trails_on_root f : keeps_id f -> (forall h, R h (f h)) -> trails (always (on_root f)).
  Proof.
    intros K H t e E. injection E as <-. intros x Hx N. destruct t as [h ks]. destruct Hx as [<-|Hx].
    - exists (Node h ks). split; [apply nodes_self|]. split; [symmetry; apply K|apply H].
    - exists x. split; [right; exact Hx|]. split; auto. apply but_refl.
  Qed.

  Lemma trails_loc drop m loc : In TAG_SCHEMALOCATION S -> trails (always (schemaloc_pass drop m loc)).
  Proof.
    intro I. apply trails_on_root; [apply loc_keeps_id|]. intro h. destruct (attr_get _ _); [apply but_set; exact I|apply but_refl].
  Qed.

  Lemma trails_lists obj prop : trails (always (lists_pass obj prop)).
  Proof.
    intros t e E. injection E as <-. apply stems_edit; intros b y I; destruct (is_elem y); auto; [apply repeat_keeps| |apply but_refl].
    apply but_same. induction (properties_above obj prop b) as [|n IH]; auto. cbn [repeat_edit]. rewrite <- IH.
    unfold convert_text. destruct (h_text _) as [x|]; auto. destruct (String.eqb x ""); auto.
  Qed.

  Lemma trails_vocab v : incl vocabulary_attributes S -> trails (vocab_pass v).
  Proof.
    intros I t e E. unfold vocab_pass in E. destruct (first_err type_of _); [discriminate|].
    destruct (first_err (upgraded v) _); [discriminate|]. injection E as <-.
    apply stems_edit; intros b y Hy; destruct (outdated v (b, y)) eqn:O; auto; try apply but_refl;
      destruct (upgraded v (b, y)) as [h|] eqn:U; auto; try apply but_refl.
    - exact (upgraded_keeps v (b, y) h O U).
    - intro N. split; [eapply upgraded_distinct; eauto|]. intros k Nk. unfold upgraded in U. destruct (type_of (b, y)) as [i|]; [|discriminate].
      cbn [rbind] in U. eapply attr_of_upgraded; [exact U|]. auto.
  Qed.

  Lemma trails_prune p t : stems R t (prune p t).
  Proof.
    apply stems_subst; [apply but_refl|]. intros b k l z I E Hz. destruct (p b k); [|discriminate]. injection E as <-. destruct Hz.
  Qed.

  Lemma trails_optional p : trails (always (optional_pass p)).
  Proof. intros t e E. injection E as <-. apply trails_prune. Qed.

  Lemma trails_optional_in_type name ns : trails (optional_in_type name ns).
  Proof. intros t e E. unfold optional_in_type in E. destruct (first_err _ _); [discriminate|]. injection E as <-. apply trails_prune. Qed.

  Lemma trails_rewrite p G : (forall k e, G k = Ok e -> stems R k e) -> trails (rewrite_all p G).
  Proof.
    intros H t e E. unfold rewrite_all in E. destruct (first_err _ _); [discriminate|]. injection E as <-.
    apply stems_subst; [apply but_refl|]. intros b k l z I E Hz. destruct (p b k); [|discriminate].
    destruct (G k) as [e'|] eqn:G'; [|discriminate]. injection E as <-. destruct Hz as [<-|[]]. eapply H; eauto.
  Qed.

  Lemma trails_child_value p q : trails (rewrite_all p (value_of_child q)).
  Proof.
    apply trails_rewrite. intros k e E. unfold value_of_child in E. destruct (filter _ _); [discriminate|].
    injection E as <-. apply stems_new. reflexivity.
  Qed.

  Lemma trails_as_string p : trails (rewrite_all p as_string).
  Proof. apply trails_rewrite. intros k e E. injection E as <-. apply stems_new. reflexivity. Qed.

  Lemma trails_source p o b : trails (rewrite_all p (structured_source o b)).
  Proof.
    apply trails_rewrite. intros k e E. unfold structured_source in E. destruct (parse_source _ _ _); [|discriminate].
    injection E as <-. apply stems_erased.
  Qed.

  Lemma stems_named t q k : In k (nodes t) -> stems R t (renamed_to q k).
  Proof. intro I. apply stems_renamed; auto; [apply but_refl|]. apply but_same. reflexivity. Qed.

  Lemma trails_wrap p w : trails (rewrite_all p (wrap w)).
  Proof.
    apply trails_rewrite. intros k e E. injection E as <-. apply stems_element. intros z [<-|[]].
    apply stems_sub; [apply but_refl|apply nodes_self].
  Qed.

  Lemma trails_wrap_renamed p w q : trails (rewrite_all p (wrap_renamed w q)).
  Proof.
    apply trails_rewrite. intros k e E. injection E as <-. apply stems_element. intros z [<-|[]]. apply stems_named, nodes_self.
  Qed.

  Lemma trails_contributing p ns : trails (rewrite_all p (contributing_sources ns)).
  Proof.
    apply trails_rewrite. intros k e E. unfold contributing_sources in E.
    destruct (forallb is_elem (kids k)); [|discriminate]. injection E as <-. apply stems_element. intros z Hz.
    apply in_map_iff in Hz as (c & <- & Hc). apply stems_element. intros z [<-|[]]. apply stems_named, kids_nodes. auto.
  Qed.

  Lemma trails_unwrap a b c : trails (always (unwrap_pass a b c)).
  Proof.
    intros t e E. injection E as <-. apply stems_subst; [apply but_refl|]. intros bb k l z I E Hz.
    destruct (inside bb && named a k); [|discriminate]. destruct (filter (named b) (kids k)) as [|y ys] eqn:F; [discriminate|].
    injection E as <-. assert (Hy : In y (filter (named b) (kids k))) by (rewrite F; left; auto). apply filter_In in Hy as (Hy & Ny).
    destruct Hz as [<-|[]]. apply stems_named, kids_nodes. auto.
  Qed.

  Lemma trails_rename old new : trails (rename old new).
  Proof. apply trails_edit_where; [apply keeps_set_tag|]. intro h. apply but_same. reflexivity. Qed.

  Lemma trails_ns drop m : trails (namespaces_pass drop m).
  Proof.
    intros t e E. apply namespaces_ok in E as ->. intros x Hx N. destruct (nodes_ns drop m t [] x Hx) as (b & y & I & E).
    exists y. split; [apply nodes_in; eauto|]. unfold tid. destruct E as [E|[M E]]; rewrite E; (split; [reflexivity|]).
    - apply but_refl.
    - intro U. split; [|intros k _; apply attr_of_rebuilt; exact U].
      unfold unique, rebuilt. cbn [h_attr]. apply (attr_update_NoDup (h_attr (head y)) []). constructor.
  Qed.

  Lemma trails_2_0_1 p : incl cybox_version_attributes S -> trails (always (edit_where p stamp_cybox_2_0_1)).
  Proof.
    intro I. apply trails_edit_where; [intro h; destruct h; reflexivity|]. intro h. unfold stamp_cybox_2_0_1.
    repeat (eapply but_trans; [|apply but_set; apply I; simpl; auto]). apply but_refl.
  Qed.

  Lemma trails_2_1 p : incl cybox_version_attributes S -> trails (always (edit_where p stamp_cybox_2_1)).
  Proof.
    intro I. apply trails_edit_where; [intro h; destruct h; reflexivity|]. intro h. unfold stamp_cybox_2_1.
    eapply but_trans; [|apply but_del; apply I; simpl; auto].
    repeat (eapply but_trans; [|apply but_set; apply I; simpl; auto]). apply but_refl.
  Qed.

  Lemma trails_stix p i w : In (lq "version") S -> trails (always (edit_where p (stamp_stix i w))).
  Proof. intro I. apply trails_edit_where; [intro h; reflexivity|]. intro h. unfold stamp_stix. apply but_set. exact I. Qed.

  Ltac trail :=
    repeat first
      [ apply trails_nil | apply trails_cons | apply trails_loc; assumption | apply trails_stix; assumption
      | apply trails_2_0_1; assumption | apply trails_2_1; assumption
      | apply trails_ns | apply trails_vocab; auto
      | apply trails_lists | apply trails_child_value | apply trails_as_string | apply trails_wrap | apply trails_source
      | apply trails_rename | apply trails_unwrap | apply trails_optional | apply trails_optional_in_type
      | apply trails_when; intro | apply trails_passes; intro | apply trails_wrap_renamed | apply trails_contributing ].

  Lemma cybox_step_trails opts v f : cybox_step opts v = Some f -> incl cybox_attributes S ->
    (update_vocabularies opts = true -> incl vocabulary_attributes S) -> trails f.
  Proof.
    intros H I V. assert (L : In TAG_SCHEMALOCATION S) by (apply I; left; reflexivity).
    assert (C : incl cybox_version_attributes S) by (intros k K; apply I; right; exact K).
    unfold cybox_step in H. by_version H; [unfold cybox_2_0_step|unfold cybox_2_0_1_step]; trail.
  Qed.

  Lemma stix_step_trails o opts v f : stix_step o opts v = Some f -> incl (stix_attributes v) S ->
    (update_vocabularies opts = true -> incl vocabulary_attributes S) -> trails f.
  Proof.
    intros H I V. assert (L : In TAG_SCHEMALOCATION S) by (apply I; left; reflexivity).
    assert (W : In (lq "version") S) by (apply I; right; left; reflexivity).
    unfold stix_step in H. by_version H.
    - assert (C : incl cybox_version_attributes S) by (intros k K; apply I; right; right; exact K).
      unfold stix_1_0_step, cybox_2_0_step; trail.
    - assert (C : incl cybox_version_attributes S) by (intros k K; apply I; right; right; exact K).
      unfold stix_1_0_1_step, cybox_2_0_1_step; trail.
    - unfold stix_1_1_step; trail.
    - unfold stix_1_1_1_step; trail.
    - unfold stix_1_2_step; trail. apply trails_on_root; [intro h; reflexivity|]. intro h. apply but_set. exact W.
  Qed.
End Attributes.

(** The step from 1.0 leaves attributes distinct. *)
Lemma distinct_edit f : (forall b y, NoDup (map fst (h_attr (head y))) -> NoDup (map fst (h_attr (f b y)))) ->
  forall t, distinct_attributes t -> distinct_attributes (edit f [] t).
Proof.
  intros H t D x Hx. destruct (nodes_edit f t [] x Hx) as (b & y & I & E). rewrite E. apply H, D, nodes_in. eauto.
Qed.

Lemma distinct_where p g : (forall h, NoDup (map fst (h_attr h)) -> NoDup (map fst (h_attr (g h)))) -> preserved distinct_attributes (always (edit_where p g)).
Proof. intro H. apply preserved_always. intros t D. apply distinct_edit; auto. intros b y N. destruct (p b y); auto. Qed.

Lemma distinct_loc drop m loc : preserved distinct_attributes (always (schemaloc_pass drop m loc)).
Proof.
  apply preserved_always. intros [h ks] D x [<-|Hx]; [|apply D; right; exact Hx]. cbn [head]. specialize (D _ (nodes_self _)). cbn [head] in D.
  destruct (attr_get _ _); auto. apply attr_set_NoDup. exact D.
Qed.

Lemma distinct_vocab v : preserved distinct_attributes (vocab_pass v).
Proof.
  intros t e E D. unfold vocab_pass in E. destruct (first_err type_of _); [discriminate|]. destruct (first_err (upgraded v) _); [discriminate|]. injection E as <-.
  apply distinct_edit; auto. intros b y N. destruct (outdated v (b, y)); auto. destruct (upgraded v (b, y)) as [h|] eqn:U; auto. eapply upgraded_distinct; eauto.
Qed.

Lemma stamp_2_0_1_NoDup h : NoDup (map fst (h_attr h)) -> NoDup (map fst (h_attr (stamp_cybox_2_0_1 h))).
Proof. intro N. unfold stamp_cybox_2_0_1. cbn [hset_attr set_attrs h_attr]. repeat apply attr_set_NoDup. exact N. Qed.

Lemma stamp_2_1_NoDup h : NoDup (map fst (h_attr h)) -> NoDup (map fst (h_attr (stamp_cybox_2_1 h))).
Proof. intro N. unfold stamp_cybox_2_1. cbn [hset_attr hdel_attr set_attrs h_attr]. apply NoDup_del. repeat apply attr_set_NoDup. exact N. Qed.

Lemma stamp_stix_NoDup i w h : NoDup (map fst (h_attr h)) -> NoDup (map fst (h_attr (stamp_stix i w h))).
Proof. intro N. unfold stamp_stix. cbn [hset_attr set_attrs h_attr]. apply attr_set_NoDup. exact N. Qed.

Lemma repeat_attr n h : h_attr (repeat_edit n h) = h_attr h.
Proof. induction n as [|n IH]; auto. cbn [repeat_edit]. rewrite <- IH. unfold convert_text. destruct (h_text _) as [s|]; auto. destruct (String.eqb s ""); auto. Qed.

Lemma stix_1_0_distinct opts : preserved distinct_attributes (stix_1_0_step opts).
Proof.
  unfold stix_1_0_step, cybox_2_0_step.
  repeat first [ apply preserved_cons | apply preserved_nil | apply distinct_loc | apply preserved_when | apply distinct_vocab
               | apply preserved_passes; intros ? _ ].
  - apply distinct_where, stamp_2_0_1_NoDup.
  - apply preserved_always. intros t D. apply distinct_edit; auto. intros b y N. destruct (is_elem y); auto. rewrite repeat_attr. exact N.
  - apply distinct_where. intro h. apply stamp_stix_NoDup.
Qed.

(** ** Chains of steps *)

Definition reaches (P : hdr -> bool) (t e : tree) (L : list tree) : Prop :=
  forall b y, In (b, y) (visits [] t) -> freel P (y :: b) ->
  (exists b' y', In (b', y') (visits [] e) /\ tid y' = tid y /\ sublist (plabels b) (plabels b')) \/
  (exists z x, In z L /\ In x (nodes z) /\ tid x = tid y).

Lemma reaches_refl P t : reaches P t t [].
Proof. intros b y I _. left. exists b, y. split; auto. split; auto. apply sublist_refl. Qed.

Lemma holds_reaches (P Q : hdr -> bool) t m e L : (forall h, P h = false -> Q h = false) -> holds P t m -> reaches Q m e L -> reaches P t e L.
Proof.
  intros PQ H H' b y I F. destruct (H [] b y [] I F) as (b1 & y1 & I1 & E1 & F1 & S1); [intros z []|constructor|].
  destruct (H' b1 y1 I1) as [(b2 & y2 & I2 & E2 & S2)|(z & x & Hz & Hx & E2)].
  - intros z Hz. apply PQ, F1, Hz.
  - left. exists b2, y2. split; auto. split; [congruence|]. eapply sublist_trans; eauto.
  - right. exists z, x. split; auto. split; auto. congruence.
Qed.

Lemma reaches_conserved P t e L : sublist (labels e) (labels (labelled t)) -> reaches P (labelled t) e L -> nests (labelled t) e ->
  apart e L -> conserved P (labelled t) e L.
Proof.
  intros Lb H N Ap. split; auto. split; auto. intros anc x I F.
  assert (Z : forall y, In y (nodes (labelled t)) -> tid y <> 0).
  { intros y Hy. assert (Iy : In (tid y) (ids (labelled t))) by (apply nodes_ids; eauto).
    unfold labelled, numbered in Iy. rewrite renum_ids in Iy. apply in_seq in Iy. lia. }
  assert (Zx : tid x <> 0) by (apply Z, nodes_in; eauto).
  destruct (H anc x I F) as [(b' & y' & I' & E & S)|Q]; [|right; exact Q]. left.
  exists b', y'. split; auto. split; auto.
  destruct (N [] [] (sublist_refl _) b' y' I') as (b & y & I2 & E2 & S2); [congruence|].
  assert (U : NoDup (ids (labelled t))) by (unfold labelled, numbered; rewrite renum_ids; apply seq_NoDup).
  destruct (visits_unique (labelled t) [] b y anc x U I2 I) as [-> ->]; [congruence|].
  change (plabels b' = map tid anc). rewrite (sublist_antisym _ _ S2 S). unfold plabels.
  assert (Za : forall z, In z anc -> tid z <> 0).
  { intros z Hz. apply Z. apply nodes_in. destruct (visits_anc_ctx (labelled t) [] anc x z I Hz) as [[]|(a1 & a2 & _ & Ha & _)]. eauto. }
  clear - Za. induction anc as [|z anc IH]; auto. cbn [map filter]. 
  destruct (Nat.eqb_spec (tid z) 0) as [X|_]; [destruct (Za z (or_introl eq_refl) X)|]. cbn [negb]. f_equal. apply IH. intros w Hw. apply Za. right. exact Hw.
Qed.

Lemma conserved_carried P T e : conserved P T e [] -> carried P T e.
Proof. intros (A & _ & B). split; auto. intros anc x I F. destruct (B anc x I F) as [Q|(z & _ & [] & _)]. exact Q. Qed.

(** The state of a node changes as [X] says. *)
Definition telling (X : told_of -> told_of -> Prop) (h h' : hdr) : Prop := X (told h) (told h').

Lemma telling_then (X0 X1 X : told_of -> told_of -> Prop) t m z : (forall a b c, X0 a b -> X1 b c -> X a c) -> stems (telling X0) t m -> stems (telling X1) m z -> stems (telling X) t z.
Proof.
  intros H A B. eapply stems_impl; [|exact (stems_trans _ _ _ _ _ A B)]. cbv beta. intros h h' (h0 & P & Q). eapply H; eauto.
Qed.

(** The nodes without label are new or come from such a node. *)
Definition grown (X : told_of -> told_of -> Prop) (W : told_of -> Prop) (t e : tree) : Prop := forall x, In x (nodes e) -> tid x = 0 ->
  W (told (head x)) \/ exists y, In y (nodes t) /\ tid y = 0 /\ X (told (head y)) (told (head x)).

Lemma grown_then (X0 X1 X : told_of -> told_of -> Prop) (W0 W1 W : told_of -> Prop) t m z : (forall a b c, X0 a b -> X1 b c -> X a c) ->
  (forall a b, W0 a -> X1 a b -> W b) -> (forall a, W1 a -> W a) -> grown X0 W0 t m -> grown X1 W1 m z -> grown X W t z.
Proof.
  intros HX H0 H1 A B x Hx Z. destruct (B x Hx Z) as [B1|(y & Hy & Zy & B1)]; [left; auto|].
  destruct (A y Hy Zy) as [A1|(w & Hw & Zw & A1)]; [left; eauto|]. right. exists w. split; auto. split; auto. eapply HX; eauto.
Qed.

Lemma grown_from (X : told_of -> told_of -> Prop) W t e : (forall x, In x (nodes e) -> exists y, In y (nodes t) /\ tid y = tid x /\ X (told (head y)) (told (head x))) -> grown X W t e.
Proof. intros H x Hx Z. right. destruct (H x Hx) as (y & Hy & E & A). exists y. split; auto. split; [congruence|exact A]. Qed.

Lemma sprung_grown one new t e : sprung one new t e -> grown (clos_refl_trans told_of one) (fun a => exists b, new b /\ clos_refl_trans told_of one b a) t e.
Proof. intros H x Hx Z. destruct (H x Hx) as [[_ B]|(y & Hy & E & A)]; [left; exact B|]. right. exists y. split; auto. split; [congruence|exact A]. Qed.

(** What can be told of a document [e] made from [t] in several steps that took
    away [L]. *)
Record traced (P : hdr -> bool) (S : list qname) (N : qname -> qname -> Prop) (X : told_of -> told_of -> Prop) (W : told_of -> Prop) (t e : tree) (L : list tree) : Prop := {
  traced_there : reaches P t e L;
  traced_nest : nests t e;
  traced_order : sublist (labels e) (labels t);
  traced_attributes : stems (same_but S) t e;
  traced_taken : forall z, In z L -> stems (same_but S) t z;
  traced_apart : NoDup (labels t) -> apart e L;
  traced_names : forall z, In z (e :: L) -> stems (called N) t z;
  traced_texts : forall z, In z (e :: L) -> stems (telling X) t z;
  traced_new : forall z, In z (e :: L) -> grown X W t z }.

Lemma called_anyway (N : qname -> qname -> Prop) h : (forall q, N q q) -> called N h h.
Proof. intros H K. auto. Qed.

Lemma called_then (N0 N1 N : qname -> qname -> Prop) t m z : (forall a b c, N0 a b -> N1 b c -> N a c) -> stems (called N0) t m -> stems (called N1) m z -> stems (called N) t z.
Proof.
  intros H A B. eapply stems_impl; [|exact (stems_trans _ _ _ _ _ A B)]. cbv beta. intros h h' (h0 & X & Y) K.
  destruct (X K) as [K0 X']. destruct (Y K0) as [K' Y']. split; eauto.
Qed.

Lemma traced_refl P S (N : qname -> qname -> Prop) (X : told_of -> told_of -> Prop) W t : (forall q, N q q) -> (forall a, X a a) -> traced P S N X W t t [].
Proof. intros Rn Rx. split; [apply reaches_refl|apply nests_refl|apply sublist_refl|apply stems_refl, but_refl|intros z []|intros _ z x []|intros z [<-|[]]; apply stems_refl; intro h; apply called_anyway; exact Rn|intros z [<-|[]]; apply stems_refl; intro h; apply Rx|intros z [<-|[]]; apply grown_from; intros x Hx; exists x; auto]. Qed.

Lemma traced_step (P Q : hdr -> bool) S (N0 N1 Nn : qname -> qname -> Prop) (X0 X1 X : told_of -> told_of -> Prop) (W0 W1 W : told_of -> Prop) t m e L : (forall a b c, N0 a b -> N1 b c -> Nn a c) -> stems (called N0) t m ->
  (forall a b c, X0 a b -> X1 b c -> X a c) -> stems (telling X0) t m ->
  (forall a b, W0 a -> X1 a b -> W b) -> (forall a, W1 a -> W a) -> grown X0 W0 t m -> (forall h, P h = false -> Q h = false) -> holds P t m -> nests t m -> sublist (labels m) (labels t) ->
  stems (same_but S) t m -> traced Q S N1 X1 W1 m e L -> traced P S Nn X W t e L.
Proof.
  intros Nc Na Xc Xa W01 W12 Wa PQ H N Lb A [H' N' L' A' T' Ap Nm Xm Wm]. split.
  - eapply holds_reaches; eauto.
  - eapply nests_trans; eauto.
  - eapply sublist_trans; eauto.
  - eapply trails_eq; eauto.
  - intros z Hz. eapply trails_eq; eauto.
  - intro U. apply Ap. eapply sublist_NoDup; eauto.
  - intros z Hz. eapply called_then; [exact Nc|exact Na|apply Nm; exact Hz].
  - intros z Hz. eapply telling_then; [exact Xc|exact Xa|apply Xm; exact Hz].
  - intros z Hz. eapply grown_then; [exact Xc|exact W01|exact W12|exact Wa|apply Wm; exact Hz].
Qed.

(** *** Documents that differ in attributes only *)

Inductive alike (R : hdr -> hdr -> Prop) : tree -> tree -> Prop :=
| alike_node h h' ks ks' : h_id h' = h_id h -> R h h' -> Forall2 (alike R) ks ks' -> alike R (Node h ks) (Node h' ks').

Lemma alike_refl (R : hdr -> hdr -> Prop) t : (forall h, R h h) -> alike R t t.
Proof. intro H. tree_induction t. constructor; auto. induction ks as [|k ks IHk]; constructor; [apply IH; left; auto|]. apply IHk. intros x Hx. apply IH. right. exact Hx. Qed.

Lemma forall2_in {A B} (R : A -> B -> Prop) l l' x : Forall2 R l l' -> In x l -> exists y, In y l' /\ R x y.
Proof. induction 1 as [|a b l l' H F IH]; intro I; [destruct I|]. destruct I as [<-|I]; [exists b; simpl; auto|]. destruct (IH I) as (y & Hy & Ry). exists y. simpl. auto. Qed.

Lemma forall2_in_r {A B} (R : A -> B -> Prop) l l' y : Forall2 R l l' -> In y l' -> exists x, In x l /\ R x y.
Proof. induction 1 as [|a b l l' H F IH]; intro I; [destruct I|]. destruct I as [<-|I]; [exists a; simpl; auto|]. destruct (IH I) as (x & Hx & Rx). exists x. simpl. auto. Qed.

Lemma holds_alike (R : hdr -> hdr -> Prop) P t : (forall h h', R h h' -> P h = false -> P h' = false) -> forall e, alike R t e -> holds P t e.
Proof.
  intro H. tree_induction t. intros e Al anc b y A I Fr FA S. inversion Al as [h0 h' ks0 ks' Eh Rh F]; subst.
  assert (F0 : P h = false) by (apply (Fr (Node h ks)); apply (visits_top _ anc b y I)).
  assert (F2 : freel P (Node h' ks' :: A)) by (intros z [<-|Hz]; [eapply H; eauto|auto]).
  assert (S2 : sublist (plabels (Node h ks :: anc)) (plabels (Node h' ks' :: A))) by (apply plabels_sub; auto).
  destruct I as [E|I].
  - injection E as <- <-. exists A, (Node h' ks'). split; [apply visits_self|]. split; [exact Eh|]. auto.
  - apply in_flat_map in I as (k & Hk & I). destruct (forall2_in _ _ _ _ F Hk) as (k' & Hk' & Ak).
    destruct (IH k Hk k' Ak (Node h ks :: anc) b y (Node h' ks' :: A) I Fr F2 S2) as (b' & y' & I' & Q).
    exists b', y'. split; auto. right. apply in_flat_map. exists k'. auto.
Qed.

Lemma nests_alike (R : hdr -> hdr -> Prop) t : forall e, alike R t e -> nests t e.
Proof.
  tree_induction t. intros e Al. inversion Al as [h0 h' ks0 ks' Eh Rh F]; subst. apply nests_kids; [left; symmetry; exact Eh|].
  intros k' Hk'. destruct (forall2_in_r _ _ _ _ F Hk') as (k & Hk & Ak). exists k. split; auto.
Qed.

Lemma ids_alike (R : hdr -> hdr -> Prop) t : forall e, alike R t e -> ids e = ids t.
Proof.
  tree_induction t. intros e Al. inversion Al as [h0 h' ks0 ks' Eh Rh F]; subst. cbn [ids]. rewrite Eh. f_equal.
  clear Al. revert ks' F. induction ks as [|k ks IHk]; intros ks' F; inversion F as [|? k' ? ks1 Ak F']; subst; auto. cbn [flat_map].
  rewrite (IH k (or_introl eq_refl) k' Ak). f_equal. apply IHk; auto. intros x Hx. apply IH. right. exact Hx.
Qed.

Lemma stems_alike (R : hdr -> hdr -> Prop) t : forall e, alike R t e -> forall x, In x (nodes e) -> exists y, In y (nodes t) /\ tid y = tid x /\ R (head y) (head x).
Proof.
  tree_induction t. intros e Al x Hx. inversion Al as [h0 h' ks0 ks' Eh Rh F]; subst. destruct Hx as [<-|Hx].
  - exists (Node h ks). split; [apply nodes_self|]. split; [symmetry; exact Eh|exact Rh].
  - apply in_flat_map in Hx as (k' & Hk' & Hx). destruct (forall2_in_r _ _ _ _ F Hk') as (k & Hk & Ak).
    destruct (IH k Hk k' Ak x Hx) as (y & Hy & Q). exists y. split; auto. exact (nodes_kid (Node h ks) k y Hk Hy).
Qed.

Lemma alike_edit (R : hdr -> hdr -> Prop) r F t : (forall b y, h_id (F b y) = tid y) -> (forall b y i, R (set_id i (head y)) (set_id i (F b y))) ->
  forall anc, alike R (relabel r t) (relabel r (edit F anc t)).
Proof.
  intros K H. tree_induction t. intro anc. cbn [edit relabel]. rewrite (K anc (Node h ks)). constructor; [reflexivity|apply (H anc (Node h ks))|].
  generalize (Node h ks :: anc). intro anc'. induction ks as [|k ks IHk]; constructor; [apply IH; left; reflexivity|]. apply IHk. intros x Hx. apply IH. right. exact Hx.
Qed.

(** *** Steps *)

(** Only ids may differ. *)
Definition renewed (S : list qname) (h h' : hdr) : Prop :=
  h_tag h' = h_tag h /\ h_kind h' = h_kind h /\ attr_get TAG_XSI_TYPE (h_attr h') = attr_get TAG_XSI_TYPE (h_attr h) /\ same_but S h h' /\ told h' = told h.

Lemma renewed_refl S h : renewed S h h.
Proof. repeat split; auto. Qed.

Lemma nominal_renewed P S h h' : nominal P -> renewed S h h' -> P h = false -> P h' = false.
Proof. intros N (A & B & C & _) F. rewrite (N h h' A B C). exact F. Qed.

Lemma traced_renewed (P : hdr -> bool) S (Nn : qname -> qname -> Prop) (X : told_of -> told_of -> Prop) (W : told_of -> Prop) t m e L : nominal P -> alike (renewed S) t m -> traced P S Nn X W m e L -> traced P S Nn X W t e L.
Proof.
  intros N A T. eapply (traced_step P P S (fun a b => b = a) Nn Nn (fun a b => b = a) X X (fun _ => False) W W); [| | | | | | |auto|eapply holds_alike; [|exact A]|eapply nests_alike; exact A| | |exact T].
  - intros x y z -> H. exact H.
  - intros x Hx _. destruct (stems_alike _ _ _ A x Hx) as (y & Hy & E & R). exists y. split; auto. split; auto. destruct R as (R1 & R2 & _). intro K. split; congruence.
  - intros x y z -> H. exact H.
  - intros x Hx _. destruct (stems_alike _ _ _ A x Hx) as (y & Hy & E & R). exists y. split; auto. split; auto. apply R.
  - intros a b [].
  - auto.
  - apply grown_from. intros x Hx. destruct (stems_alike _ _ _ A x Hx) as (y & Hy & E & R). exists y. split; auto. split; auto. apply R.
  - intros h h' R. eapply nominal_renewed; eauto.
  - apply same_labels. eapply ids_alike; eauto.
  - intros x Hx _. destruct (stems_alike _ _ _ A x Hx) as (y & Hy & E & R). exists y. split; auto. split; auto. apply R.
Qed.

Lemma distinct_renewed S t m : alike (renewed S) t m -> distinct_attributes t -> distinct_attributes m.
Proof. intros A D x Hx. destruct (stems_alike _ _ _ A x Hx) as (y & Hy & _ & (_ & _ & _ & R & _)). apply R. apply D. exact Hy. Qed.

(** *** Taking nodes away *)

Definition cut (q : hdr -> bool) : list tree -> tree -> tree := subst_nodes (fun _ x => if q (head x) then Some [] else None).

Lemma cut_stays q t : forall anc A b y, In (b, y) (visits anc t) -> (forall z, In z (y :: b) -> q (head z) = false) -> map head A = map head anc ->
  exists b' y', In (b', y') (visits A (cut q anc t)) /\ head y' = head y /\ map head b' = map head b.
Proof.
  tree_induction t. intros anc A b y I F EA. destruct I as [E|I].
  - injection E as <- <-. exists A, (cut q anc (Node h ks)). split; [unfold cut; cbn [subst_nodes]; apply visits_self|]. split; [reflexivity|exact EA].
  - apply in_flat_map in I as (k & Hk & I).
    assert (Qk : q (head k) = false) by (apply F; apply (visits_top k (Node h ks :: anc) b y I)).
    destruct (IH k Hk (Node h ks :: anc) (cut q anc (Node h ks) :: A) b y I F) as (b' & y' & I' & Q); [cbn [map]; rewrite EA; reflexivity|].
    exists b', y'. split; auto. unfold cut. cbn [subst_nodes visits]. right. apply in_flat_map. exists (cut q (Node h ks :: anc) k). split; [|exact I'].
    apply in_flat_map. exists k. split; auto. rewrite Qk. left. reflexivity.
Qed.

Lemma cut_from q t : forall anc x, In x (nodes (cut q anc t)) -> exists y, In y (nodes t) /\ head x = head y.
Proof.
  intros anc x Hx. destruct (nodes_subst _ t anc x Hx) as [Q|(b & k & l & z & _ & E & Hz & _)]; [exact Q|].
  destruct (q (head k)); [|discriminate]. injection E as <-. destruct Hz.
Qed.

Lemma cut_nests q r t : forall anc, nests (relabel r t) (relabel r (cut q anc t)).
Proof.
  tree_induction t. intro anc. unfold cut. cbn [subst_nodes relabel]. apply nests_kids; [left; reflexivity|].
  intros k' Hk'. apply in_map_iff in Hk' as (k0 & <- & Hk0). apply in_flat_map in Hk0 as (k & Hk & I). exists (relabel r k). split; [cbn [kids]; apply in_map; exact Hk|].
  destruct (q (head k)); [destruct I|]. destruct I as [<-|[]]. apply IH. exact Hk.
Qed.

Lemma cut_labels q r t : forall anc, sublist (labels (relabel r (cut q anc t))) (labels (relabel r t)).
Proof.
  tree_induction t. intro anc. unfold cut. cbn [subst_nodes relabel]. rewrite !labels_node. apply sublist_app; [apply sublist_refl|].
  rewrite !flat_map_map, flat_map_flat_map. apply sublist_flat. intros k Hk. destruct (q (head k)); [constructor|].
  cbn [flat_map]. rewrite app_nil_r. apply IH. exact Hk.
Qed.

Definition listed (l : list nat) (h : hdr) : bool := existsb (Nat.eqb (h_id h)) l.

Lemma taken_there l T b y : In (b, y) (visits [] T) -> forall before,
  (exists z, In z (y :: b) /\ In (tid z) l) -> (forall z, In z (y :: b) -> listed before (head z) = false) ->
  exists z x, In z (taken before l T) /\ In x (nodes z) /\ head x = head y.
Proof.
  intro I. induction l as [|i l IH]; intros before (z & Hz & Lz) F; [destruct Lz|]. cbn [taken].
  destruct (existsb (fun z => Nat.eqb (tid z) i) (y :: b)) eqn:X.
  - apply existsb_exists in X as (z0 & Hz0 & E0). 
    assert (V : exists bz b2, In (bz, z0) (visits [] T) /\ In (b2, y) (visits [] z0) /\ incl (y :: b2) (y :: b)).
    { destruct Hz0 as [<-|Hz0].
      - exists b, []. split; auto. split; [apply visits_self|]. intros w [<-|[]]. left. reflexivity.
      - destruct (visits_anc_ctx T [] b y z0 I Hz0) as [[]|(a1 & a2 & -> & Ia & Ib)]. exists a2, (a1 ++ [z0])%list. split; auto. split; auto.
        intros w [<-|Hw]; [left; reflexivity|]. right. apply in_app_or in Hw as [Hw|[<-|[]]]; apply in_or_app; [left; exact Hw|right; left; reflexivity]. }
    destruct V as (bz & b2 & Iz & Iy & Inc).
    destruct (cut_stays (listed before) z0 [] [] b2 y Iy) as (b' & y' & I' & Hy & _); [intros w Hw; apply F, Inc, Hw|reflexivity|].
    exists (without before z0), y'. split; [|split; [apply nodes_in; exists b'; exact I'|exact Hy]].
    apply in_or_app. left. apply in_map. apply filter_In. split; [apply in_map_iff; exists (bz, z0); auto|exact E0].
  - destruct (IH (before ++ [i])%list) as (z1 & x & Hz1 & Q).
    + exists z. split; auto. destruct Lz as [Lz|Lz]; auto. exfalso.
      assert (Y : existsb (fun w => Nat.eqb (tid w) i) (y :: b) = true) by (apply existsb_exists; exists z; split; auto; apply Nat.eqb_eq; auto). congruence.
    + intros w Hw. unfold listed. rewrite existsb_app. change (existsb (Nat.eqb (h_id (head w))) before) with (listed before (head w)). rewrite (F w Hw).
      cbn [existsb orb]. rewrite orb_false_r. destruct (Nat.eqb (h_id (head w)) i) eqn:Z; auto. exfalso.
      assert (Y : existsb (fun w => Nat.eqb (tid w) i) (y :: b) = true) by (apply existsb_exists; exists w; split; auto). congruence.
    + exists z1, x. split; [apply in_or_app; right; exact Hz1|exact Q].
Qed.

Lemma taken_from l T : forall before z x, In z (taken before l T) -> In x (nodes z) -> exists y, In y (nodes T) /\ head x = head y.
Proof.
  induction l as [|i l IH]; intros before z x Hz Hx; [destruct Hz|]. cbn [taken] in Hz. apply in_app_or in Hz as [Hz|Hz]; [|eapply IH; eauto].
  apply in_map_iff in Hz as (w & <- & Hw). apply filter_In in Hw as [Hw _]. apply in_map_iff in Hw as ([bw w'] & <- & Iw). cbn [snd] in *.
  destruct (cut_from (listed before) w' [] x Hx) as (y & Hy & E). exists y. split; auto. apply (nodes_sub T w'); auto. apply nodes_in. eauto.
Qed.

Lemma nodes_relabelled r t x : In x (nodes (relabel r t)) -> exists y, In y (nodes t) /\ head x = set_id (r (tid y)) (head y).
Proof.
  intro Hx. apply nodes_in in Hx as (b & Ix). rewrite relabel_visits_root in Ix. apply in_map_iff in Ix as ([b0 y] & E & Iy).
  injection E as _ <-. exists y. split; [apply nodes_in; eauto|]. apply relabel_head.
Qed.

Lemma relabelled_nodes r t y : In y (nodes t) -> In (relabel r y) (nodes (relabel r t)).
Proof.
  intro Hy. apply nodes_in in Hy as (b & Iy). apply nodes_in. exists (map (relabel r) b). rewrite relabel_visits_root. apply in_map_iff. exists (b, y). auto.
Qed.

Lemma tid_relabel r y : tid (relabel r y) = r (tid y).
Proof. destruct y; reflexivity. Qed.

Lemma plabels_heads r b b' : map head b' = map head b -> plabels (map (relabel r) b') = plabels (map (relabel r) b).
Proof.
  intro E. unfold plabels. rewrite !map_map. f_equal. rewrite !(map_ext (fun x => tid (relabel r x)) (fun x => r (h_id (head x)))) by (intro x; apply tid_relabel).
  rewrite <- !(map_map head (fun h => r (h_id h))). rewrite E. reflexivity.
Qed.

Lemma stems_relabelled (R : hdr -> hdr -> Prop) r t e : (forall h, R h h) -> (forall x, In x (nodes e) -> exists y, In y (nodes t) /\ head x = head y) ->
  stems R (relabel r t) (relabel r e).
Proof.
  intros R0 H x Hx _. destruct (nodes_relabelled r e x Hx) as (x0 & Hx0 & E). destruct (H x0 Hx0) as (y & Hy & Ey).
  exists (relabel r y). split; [apply relabelled_nodes; exact Hy|].
  assert (X : head (relabel r y) = head x) by (rewrite relabel_head, E; unfold tid; rewrite Ey; reflexivity).
  split; [unfold tid; rewrite X; reflexivity|]. rewrite X. apply R0.
Qed.

Lemma cut_ids q t : forall anc i, In i (ids (cut q anc t)) -> In i (ids t).
Proof.
  intros anc i Hi. apply nodes_ids in Hi as (x & Hx & <-). destruct (cut_from q t anc x Hx) as (y & Hy & E). apply nodes_ids. exists y. split; auto.
  unfold tid. rewrite E. reflexivity.
Qed.

Lemma cut_misses q t : NoDup (ids t) -> forall anc z i, In z (flat_map nodes (kids t)) -> q (head z) = true -> In i (ids z) -> ~ In i (ids (cut q anc t)).
Proof.
  tree_induction t. intros N anc z i Hz Qz Hi Hc. cbn [kids] in Hz. apply in_flat_map in Hz as (k & Hk & Hz).
  assert (Ik : In i (ids k)).
  { apply nodes_ids in Hi as (x & Hx & <-). apply nodes_ids. exists x. split; auto. eapply nodes_sub; eauto. }
  cbn [ids] in N. inversion N as [|a l N1 N2]; subst. unfold cut in Hc. cbn [subst_nodes ids] in Hc. destruct Hc as [E|Hc].
  - apply N1. rewrite E. apply in_flat_map. eauto.
  - apply in_flat_map in Hc as (k0 & Hk0 & Hc). apply in_flat_map in Hk0 as (k' & Hk' & Hk0).
    destruct (q (head k')) eqn:Qk; [destruct Hk0|]. destruct Hk0 as [<-|[]].
    assert (k = k') by (eapply NoDup_flat_map_disjoint; [exact N2|exact Hk|exact Hk'|exact Ik|eapply cut_ids; exact Hc]). subst k'.
    destruct k as [hk kk]. cbn [nodes] in Hz. destruct Hz as [<-|Hz]; [congruence|].
    eapply (IH _ Hk); [eapply NoDup_flat_map_in; eauto|exact Hz|exact Qz|exact Hi|exact Hc].
Qed.

Lemma taken_apart l T z x : NoDup (ids T) -> ~ In (tid T) l -> In z (taken [] l T) -> In x (nodes z) -> ~ In (tid x) (ids (cut (listed l) [] T)).
Proof.
  intros N R. assert (G : forall l' before, incl l' l -> In z (taken before l' T) -> In x (nodes z) -> ~ In (tid x) (ids (cut (listed l) [] T))).
  { induction l' as [|i l' IH]; intros before I Hz Hx; [destruct Hz|]. cbn [taken] in Hz. apply in_app_or in Hz as [Hz|Hz].
    - apply in_map_iff in Hz as (w & <- & Hw). apply filter_In in Hw as [Hw Ei]. apply Nat.eqb_eq in Ei.
      apply in_map_iff in Hw as ([bw w'] & E & Iw). cbn [snd] in E. subst w'.
      assert (Hw : In w (nodes T)) by (apply nodes_in; eauto).
      destruct (cut_from (listed before) w [] x Hx) as (y & Hy & E).
      apply (cut_misses _ _ N [] w).
      + destruct T as [h ks]. destruct Hw as [<-|Hw]; [|exact Hw]. exfalso. apply R. unfold tid in *. rewrite Ei. apply I. left. reflexivity.
      + unfold listed. apply existsb_exists. exists i. split; [apply I; left; reflexivity|]. apply Nat.eqb_eq. exact Ei.
      + apply nodes_ids. exists y. split; auto. unfold tid. rewrite E. reflexivity.
    - apply (IH _ (fun j Hj => I j (or_intror Hj)) Hz Hx). }
  apply G. apply incl_refl.
Qed.

Lemma filter_map_inj {A} (r : A -> nat) l x y : NoDup (filter (fun i => negb (Nat.eqb i 0)) (map r l)) -> In x l -> In y l -> r x = r y -> r x <> 0 -> x = y.
Proof.
  induction l as [|a l IH]; intros N Hx Hy E Z; [destruct Hx|]. cbn [map filter] in N.
  assert (Q : forall w, In w l -> r w = r a -> r a <> 0 -> False).
  { intros w Hw Ew Za. destruct (Nat.eqb_spec (r a) 0) as [|_]; [contradiction|]. cbn [negb] in N. inversion N as [|u v N1 N2]; subst.
    apply N1. apply filter_In. split; [rewrite <- Ew; apply in_map; exact Hw|]. apply negb_true_iff, Nat.eqb_neq. exact Za. }
  destruct Hx as [->|Hx], Hy as [->|Hy]; auto.
  - destruct (Q y Hy); congruence.
  - destruct (Q x Hx); congruence.
  - apply IH; auto. destruct (negb _) in N; [inversion N; auto|exact N].
Qed.

Lemma traced_cut (P : hdr -> bool) S (Nn : qname -> qname -> Prop) (Xn : told_of -> told_of -> Prop) (Wn : told_of -> Prop) r l T e L : (forall q, Nn q q) -> (forall a, Xn a a) -> nominal P -> NoDup (ids T) -> ~ In (tid T) l -> traced P S Nn Xn Wn (relabel r (without l T)) e L ->
  traced P S Nn Xn Wn (relabel r T) e (map (relabel r) (taken [] l T) ++ L).
Proof.
  intros Rn Rx N U Rt Tr. change (without l T) with (cut (listed l) [] T) in Tr.
  assert (St : stems (same_but S) (relabel r T) (relabel r (cut (listed l) [] T))).
  { apply stems_relabelled; [apply but_refl|]. intros x Hx. eapply cut_from; exact Hx. }
  destruct Tr as [H Ne Lb A Tk Ap Nm Xm Wm]. split.
  - intros b y I F. rewrite relabel_visits_root in I. apply in_map_iff in I as ([b0 y0] & E & I0). unfold rctx in E. cbn [fst snd] in E. injection E as <- <-.
    destruct (existsb (fun z => listed l (head z)) (y0 :: b0)) eqn:X.
    + right. apply existsb_exists in X as (z & Hz & Lz). unfold listed in Lz. apply existsb_exists in Lz as (i & Hi & Ei). apply Nat.eqb_eq in Ei.
      destruct (taken_there l T b0 y0 I0 []) as (w & x & Hw & Hx & Ex); [exists z; split; auto; unfold tid; rewrite Ei; exact Hi|reflexivity|].
      exists (relabel r w), (relabel r x). split; [apply in_or_app; left; apply in_map; exact Hw|]. split; [apply relabelled_nodes; exact Hx|].
      rewrite !tid_relabel. unfold tid. rewrite Ex. reflexivity.
    + destruct (cut_stays (listed l) T [] [] b0 y0 I0) as (b' & y' & I' & Ey & Eb); [|reflexivity|].
      { intros z Hz. destruct (listed l (head z)) eqn:Q; auto. assert (Y : existsb (fun z => listed l (head z)) (y0 :: b0) = true) by (apply existsb_exists; exists z; auto). congruence. }
      destruct (H (map (relabel r) b') (relabel r y')) as [(b2 & y2 & I2 & E2 & S2)|(z & x & Hz & Hx & E2)].
      * rewrite relabel_visits_root. apply in_map_iff. exists (b', y'). auto.
      * intros z Hz. 
        assert (Hh : forall h, In h (map head (relabel r y' :: map (relabel r) b')) -> P h = false).
        { assert (Q : map head (relabel r y' :: map (relabel r) b') = map head (relabel r y0 :: map (relabel r) b0)).
          { cbn [map]. rewrite !map_map. f_equal; [rewrite !relabel_head; unfold tid; rewrite Ey; reflexivity|].
            rewrite !(map_ext (fun x => head (relabel r x)) (fun x => set_id (r (h_id (head x))) (head x))) by (intro x; apply relabel_head).
            rewrite <- !(map_map head (fun h => set_id (r (h_id h)) h)). rewrite Eb. reflexivity. }
          rewrite Q. intros h Hh. apply in_map_iff in Hh as (w & <- & Hw). apply F. exact Hw. }
        apply Hh. apply in_map. exact Hz.
      * left. exists b2, y2. split; auto. split; [rewrite E2, !tid_relabel; unfold tid; rewrite Ey; reflexivity|].
        rewrite <- (plabels_heads r b0 b' Eb). exact S2.
      * right. exists z, x. split; [apply in_or_app; right; exact Hz|]. split; auto. rewrite E2, !tid_relabel. unfold tid. rewrite Ey. reflexivity.
  - eapply nests_trans; [apply cut_nests|exact Ne].
  - eapply sublist_trans; [exact Lb|apply cut_labels].
  - eapply trails_eq; [exact St|exact A].
  - intros z Hz. apply in_app_or in Hz as [Hz|Hz]; [|eapply trails_eq; [exact St|apply Tk; exact Hz]].
    apply in_map_iff in Hz as (w & <- & Hw). apply stems_relabelled; [apply but_refl|]. intros x Hx. eapply taken_from; eauto.
  - intros V z x Hz Hx Nx Ie. apply in_app_or in Hz as [Hz|Hz].
    + apply in_map_iff in Hz as (w & <- & Hw). destruct (nodes_relabelled r w x Hx) as (y & Hy & Ey).
      assert (Ex : tid x = r (tid y)) by (unfold tid at 1; rewrite Ey; reflexivity). rewrite Ex in *.
      apply (sublist_in _ _ _ Lb) in Ie. apply in_labels in Ie as [Ie _]. rewrite relabel_ids in Ie. apply in_map_iff in Ie as (j & Ej & Hj).
      apply (taken_apart l T w y U Rt Hw Hy).
      destruct (taken_from l T [] w y Hw Hy) as (y1 & Hy1 & E1).
      assert (j = tid y); [|subst; exact Hj]. unfold labels in V. rewrite relabel_ids in V.
      eapply filter_map_inj; [exact V|eapply cut_ids; exact Hj| |exact Ej|congruence].
      apply nodes_ids. exists y1. split; auto. unfold tid. rewrite E1. reflexivity.
    + refine (Ap _ z x Hz Hx Nx Ie). eapply sublist_NoDup; [apply cut_labels|exact V].
  - intros z Hz.
    assert (X : In z (e :: L) -> stems (called Nn) (relabel r T) z).
    { intro Hz'. eapply (called_then (fun a b => b = a) Nn); [intros x y w -> Y; exact Y| |apply Nm; exact Hz'].
      apply stems_relabelled; [intro h; apply called_anyway; reflexivity|]. intros x Hx. eapply cut_from; exact Hx. }
    destruct Hz as [Hz|Hz]; [apply X; left; exact Hz|]. apply in_app_or in Hz as [Hz|Hz]; [|apply X; right; exact Hz].
    apply in_map_iff in Hz as (w & <- & Hw). apply stems_relabelled; [intro h; apply called_anyway; exact Rn|]. intros x Hx. eapply taken_from; eauto.
  - intros z Hz.
    assert (X : In z (e :: L) -> stems (telling Xn) (relabel r T) z).
    { intro Hz'. eapply (telling_then (fun a b => b = a) Xn); [intros x y w -> Y; exact Y| |apply Xm; exact Hz'].
      apply stems_relabelled; [intro h; reflexivity|]. intros x Hx. eapply cut_from; exact Hx. }
    destruct Hz as [Hz|Hz]; [apply X; left; exact Hz|]. apply in_app_or in Hz as [Hz|Hz]; [|apply X; right; exact Hz].
    apply in_map_iff in Hz as (w & <- & Hw). apply stems_relabelled; [intro h; apply Rx|]. intros x Hx. eapply taken_from; eauto.
  - intros z Hz.
    assert (G : forall e, (forall x, In x (nodes e) -> exists y, In y (nodes T) /\ head x = head y) -> forall x, In x (nodes (relabel r e)) ->
      exists y, In y (nodes (relabel r T)) /\ tid y = tid x /\ told (head x) = told (head y)).
    { intros e' He x Hx. destruct (nodes_relabelled r e' x Hx) as (x0 & Hx0 & E). destruct (He x0 Hx0) as (y & Hy & Ey).
      exists (relabel r y). split; [apply relabelled_nodes; exact Hy|].
      assert (Q : head (relabel r y) = head x) by (rewrite relabel_head, E; unfold tid; rewrite Ey; reflexivity).
      unfold tid. rewrite Q. auto. }
    assert (X : In z (e :: L) -> grown Xn Wn (relabel r T) z).
    { intro Hz'. eapply (grown_then (fun a b => b = a) Xn Xn (fun _ => False) Wn Wn); [intros x y w -> Y; exact Y|intros a b []|auto| |apply Wm; exact Hz'].
      apply grown_from. apply G. intros x Hx. eapply cut_from; exact Hx. }
    destruct Hz as [Hz|Hz]; [apply X; left; exact Hz|]. apply in_app_or in Hz as [Hz|Hz]; [|apply X; right; exact Hz].
    apply in_map_iff in Hz as (w & <- & Hw). apply grown_from. intros x Hx. destruct (G w (fun x Hx => taken_from l T [] w x Hw Hx) x Hx) as (y & Hy & E & Q).
    exists y. split; auto. split; auto. rewrite Q. apply Rx.
Qed.

(** *** One step *)

Lemma set_id_set k v i h : set_id i (hset_attr k v h) = hset_attr k v (set_id i h).
Proof. destruct h; reflexivity. Qed.

Lemma listed_not_root rules dups t (d : dirt) : Forall not_root rules -> NoDup (ids t) ->
  rbind (untranslatable rules t) (fun l => Ok (l, dups)) = Ok d -> ~ In (tid t) (fst d).
Proof.
  intros R U E I. destruct (untranslatable rules t) as [l|] eqn:X; [|discriminate]. cbn [rbind] in E. injection E as <-. cbn [fst] in I.
  destruct (proj1 (untranslatable_spec rules t _ X _) I) as (r & Hr & Ho). rewrite Forall_forall in R. exact (R r Hr t _ U Ho eq_refl).
Qed.

Lemma stix_dirt_not_root o v D t d : stix_dirt o v = Some D -> NoDup (ids t) -> D t = Ok d -> ~ In (tid t) (fst d).
Proof.
  unfold stix_dirt, dict_get. intros F U E.
  destruct (String.eqb v "1.0"); [apply some_inj in F; subst D; eapply listed_not_root; [apply stix_1_0_not_root|exact U|exact E]|].
  destruct (String.eqb v "1.0.1"); [apply some_inj in F; subst D; eapply listed_not_root; [apply (stix_1_0_1_not_root o)|exact U|exact E]|].
  destruct (String.eqb v "1.1"); [injection F as <-; injection E as <-; intros []|].
  destruct (String.eqb v "1.1.1"); [injection F as <-; injection E as <-; intros []|].
  destruct (String.eqb v "1.2"); [injection F as <-; discriminate E|discriminate].
Qed.

Lemma cybox_dirt_not_root v D t d : cybox_dirt v = Some D -> NoDup (ids t) -> D t = Ok d -> ~ In (tid t) (fst d).
Proof.
  unfold cybox_dirt, dict_get. intros F U E.
  destruct (String.eqb v "2.0"); [injection F as <-; injection E as <-; intros []|].
  destruct (String.eqb v "2.0.1"); [apply some_inj in F; subst D; eapply listed_not_root; [apply cybox_not_root|exact U|exact E]|discriminate].
Qed.

(** The document a step works on, and what was taken away before. *)
Definition prepared (S : list qname) (u u1 : tree) (L : list tree) : Prop :=
  (distinct_attributes u -> distinct_attributes u1) /\
  forall P (N : qname -> qname -> Prop) (X : told_of -> told_of -> Prop) (W : told_of -> Prop) e L', nominal P -> (forall q, N q q) -> (forall a, X a a) ->
    traced P S N X W u1 e L' -> traced P S N X W u e (L ++ L').

Lemma step_prepared S c D (f : tree -> res tree) new_id force g u oc : blind f ->
  (forall t d, NoDup (ids t) -> D t = Ok d -> ~ In (tid t) (fst d)) -> (force = true -> In (lq "id") S) ->
  single c D f new_id force g (numbered 0 (erase u)) = Ok oc ->
  exists u1 L u', prepared S u u1 L /\ f u1 = Ok u' /\ new_document oc = erase u' /\ removed_subtrees oc = map erase L.
Proof.
  intros B Nr Fo E.
  assert (Fin : forall u1 e, f (erase u1) = Ok e -> exists u', f u1 = Ok u' /\ e = erase u').
  { intros u1 e X. rewrite B in X. destruct (f u1) as [u'|]; [|discriminate]. injection X as <-. eauto. }
  unfold single in E. destruct (c _) as [u0|x].
  - rewrite numbered_erase, erase_idem in E. destruct (f (erase u)) as [e|] eqn:X; [|discriminate]. cbn [rbind] in E. injection E as <-.
    destruct (Fin _ _ X) as (u' & Y & Z). exists u, [], u'. split; [split; auto|]. auto.
  - destruct force; [|discriminate]. specialize (Fo eq_refl). cbn [andb] in E. destruct (forceable _); [|discriminate].
    destruct (D _) as [d|] eqn:Dd; [|discriminate]. cbn [rbind] in E. apply Nr in Dd; [|apply numbered_NoDup].
    destruct (f (erase (cleaned new_id g d (numbered 0 (erase u))))) as [e|] eqn:X; [|discriminate]. cbn [rbind] in E. injection E as <-.
    cbn [removed_subtrees new_document]. unfold cleaned, removed_content in *.
    set (T := fresh_ids new_id g (renumbered d) (numbered 0 (erase u))) in *.
    destruct (renumbered_content u 0) as (r & Er).
    assert (Ti : forall (b : list tree) y, h_id (match position (tid y) (renumbered d), id_of y with Some k, Some old => hset_attr (lq "id") (new_id (g + k) old) (head y) | _, _ => head y end) = tid y).
    { intros _ y. destruct (position _ _); auto. destruct (id_of y); auto. }
    assert (Ui : NoDup (ids T)) by (unfold T, fresh_ids; rewrite edit_ids by exact Ti; apply numbered_NoDup).
    assert (Rt : ~ In (tid T) (fst d)).
    { replace (tid T) with (tid (numbered 0 (erase u))); [exact Dd|]. unfold T, fresh_ids. destruct (numbered 0 (erase u)) as [h ks]. symmetry. apply (Ti [] (Node h ks)). }
    assert (Al : alike (renewed S) u (relabel r T)).
    { rewrite Er at 1. unfold T, fresh_ids. apply alike_edit.
      + intros b y. apply (Ti b y).
      + intros b y i. destruct (position _ _); [|apply renewed_refl]. destruct (id_of y); [|apply renewed_refl].
        rewrite set_id_set. split; [reflexivity|]. split; [reflexivity|]. split; [|split; [apply but_set; exact Fo|reflexivity]].
        unfold hset_attr, set_attrs. cbn [h_attr]. rewrite attr_get_set. reflexivity. }
    rewrite <- (relabel_erase r) in X. destruct (Fin _ _ X) as (u' & Y & Z).
    exists (relabel r (without (fst d) T)), (map (relabel r) (taken [] (fst d) T)), u'. split; [split|split; [exact Y|split; [exact Z|]]].
    + intros Du x' Hx. destruct (nodes_relabelled _ _ _ Hx) as (y & Hy & Ey). destruct (cut_from (listed (fst d)) T [] y Hy) as (w & Hw & Ew).
      pose proof (distinct_renewed _ _ _ Al Du _ (relabelled_nodes r T w Hw)) as Q. rewrite relabel_head in Q. rewrite Ey, Ew. exact Q.
    + intros P Nn Xn Wn e0 L' N Rn Rx Tr. eapply traced_renewed; [exact N|exact Al|]. apply traced_cut; auto.
    + rewrite map_map. apply map_ext. intro w. symmetry. apply relabel_erase.
Qed.

Lemma chain_parts one v vs g t e l ds : chain one (v :: vs) g t = Ok (e, l, ds) ->
  exists oc l' ds', one v g (numbered 0 t) = Ok oc /\ l = (removed_subtrees oc ++ l')%list /\ chain one vs (g + replacements oc) (new_document oc) = Ok (e, l', ds').
Proof.
  cbn [chain]. destruct (one v g (numbered 0 t)) as [oc|]; [|discriminate]. cbn [rbind].
  destruct (chain one vs (g + replacements oc) (new_document oc)) as [[[e' l'] ds']|] eqn:X; [|discriminate]. cbn [rbind].
  intros H. injection H as <- <- _. exists oc, l', ds'. auto.
Qed.

Lemma through_same one vs : forall q, through one vs q q.
Proof. induction vs as [|v vs IH]; intro q; [reflexivity|]. exists q. split; auto. Qed.

Lemma through_step (one : string -> qname -> qname -> Prop) v vs a b c : once (one v) a b -> through one vs b c -> through one (v :: vs) a c.
Proof. intros A B. exists b. split; auto. Qed.

Lemma along_same one vs : forall a, along one vs a a.
Proof. induction vs as [|v vs IH]; intro a; [reflexivity|]. exists a. split; [apply rt_refl|auto]. Qed.

Lemma along_step (one : string -> told_of -> told_of -> Prop) v vs a b c : clos_refl_trans told_of (one v) a b -> along one vs b c -> along one (v :: vs) a c.
Proof. intros A B. exists b. split; auto. Qed.

Lemma arises_later new one v vs (a : told_of) : arises new one vs a -> arises new one (v :: vs) a.
Proof. intro H. right. exact H. Qed.

Lemma arises_now (new : string -> told_of -> Prop) one v vs a b : (exists c, new v c /\ clos_refl_trans told_of (one v) c a) -> along one vs a b -> arises new one (v :: vs) b.
Proof. intros (c & N & C) A. left. exists c. split; auto. exists a. auto. Qed.

Lemma stix_order_whole l1 v vs b l3 : STIX_VERSIONS = (l1 ++ (v :: vs) ++ b :: l3)%list ->
  (v = "1.2" -> vs = []) /\ (In "1.0.1" vs -> v = "1.0") /\ STIX_VERSIONS = ((l1 ++ [v]) ++ vs ++ b :: l3)%list.
Proof.
  intro E. split; [|split; [|rewrite <- app_assoc; exact E]];
    unfold STIX_VERSIONS in *; repeat (destruct l1 as [|? l1]; cbn [app] in E; [injection E as E0 E; subst v|injection E as ? E]); try (destruct l1; discriminate E);
    try (intro X; discriminate X); try (destruct vs as [|? [|? vs]]; [reflexivity|discriminate E|discriminate E]).
  all: intros I; try reflexivity; exfalso.
  all: repeat (destruct vs as [|? vs]; [simpl in I; tauto|]; cbn [app] in E; injection E as <- E;
         destruct I as [I|I]; [discriminate I|]); try (destruct vs; discriminate E).
  all: try destruct I.
Qed.

Lemma gone_by_less opts v vs h : stix_gone_by opts (v :: vs) h = false -> stix_gone_by opts vs h = false.
Proof. unfold stix_gone_by. cbn [existsb]. rewrite orb_false_iff. tauto. Qed.

Lemma mem_str_in k l : In k l -> mem_str k l = true.
Proof. intro H. unfold mem_str. apply existsb_exists. exists k. split; auto. apply String.eqb_refl. Qed.

Lemma nominal_gone_by opts vs : nominal (stix_gone_by opts vs).
Proof. intros h h' A B C. rewrite !stix_leaving_is. apply nominal_leaving; auto. Qed.

Lemma stix_chain_traced o opts force b l3 S : (update_vocabularies opts = true -> incl vocabulary_attributes S) ->
  (force = true -> In (lq "id") S) ->
  forall vs l1 g u e l ds, STIX_VERSIONS = (l1 ++ vs ++ b :: l3)%list -> (In "1.0.1" vs -> distinct_attributes u) ->
  (forall v, In v vs -> incl (stix_attributes v) S) ->
  chain (stix_single o opts force) vs g (erase u) = Ok (e, l, ds) ->
  exists e' L, erase e' = e /\ map erase L = l /\ traced (stix_gone_by opts vs) S (through stix_name vs) (along (stix_change opts) vs) (arises (stix_new o) (stix_change opts) vs) u e' L.
Proof.
  intros V Fo. induction vs as [|v vs IH]; intros l1 g u0 e l ds B D0 A E.
  - injection E as <- <- _. exists u0, []. split; auto. split; auto. apply traced_refl; [apply through_same|apply along_same].
  - destruct (stix_order_whole _ _ _ _ _ B) as (La & Fi & B').
    apply chain_parts in E as (oc & l' & ds' & E1 & -> & E2). unfold stix_single in E1.
    destruct (stix_check o opts v); [|discriminate]. destruct (stix_dirt o v) eqn:X1; [|discriminate].
    destruct (stix_step o opts v) as [f|] eqn:F; [|discriminate].
    destruct (step_prepared S _ _ _ _ _ _ _ _ (stix_step_blind _ _ _ _ F) (fun t d => stix_dirt_not_root _ _ _ t d X1) Fo E1) as (u & L1 & u' & [Pd Pr] & Fu & Ed & Rm). rewrite Ed in E2.
    assert (D : In "1.0.1" (v :: vs) -> distinct_attributes u) by (intro I; apply Pd, D0, I).
    assert (D' : In "1.0.1" vs -> distinct_attributes u').
    { intro I. pose proof (Fi I) as ->. injection F as <-. eapply stix_1_0_distinct; [exact Fu|]. apply D. right. exact I. }
    destruct (IH _ _ _ _ _ _ B' D' (fun w I => A w (or_intror I)) E2) as (e' & L & Ee & El & T). exists e', (L1 ++ L)%list.
    split; auto. split; [rewrite map_app, Rm, El; reflexivity|]. apply Pr; [apply nominal_gone_by|apply through_same|apply along_same|].
    eapply traced_step; [apply through_step|eapply stix_step_names; [exact F|exact Fu]|apply along_step|eapply sprung_stems, stix_step_tells; [exact F|exact Fu]|apply arises_now|apply arises_later|eapply sprung_grown, stix_step_tells; [exact F|exact Fu]|apply gone_by_less| | | | |exact T].
    + eapply holds_sub; [intro h; symmetry; apply stix_leaving_is|]. eapply stix_step_leaving; [exact F|..|exact Fu].
      * intros ->. reflexivity.
      * intros ->. reflexivity.
      * intros ->. rewrite (La eq_refl). split; reflexivity.
      * intros ->. apply D. left. reflexivity.
    + eapply stix_step_nesting; eauto.
    + eapply stix_step_orderly; eauto.
    + eapply stix_step_trails; [exact F| |exact V|exact Fu]. apply A. left. reflexivity.
Qed.

Lemma cybox_leaving_is opts vs h : cybox_gone_by opts vs h =
  leaving (if mem_str "2.0.1" vs then cybox_2_0_1_replaced ++ (if remove_optionals opts then cybox_2_1_optional else []) else []) false h.
Proof.
  unfold leaving. rewrite andb_false_l, orb_false_r, one_of_when, one_of_app, one_of_when. 
  change (one_of cybox_2_0_1_replaced h || remove_optionals opts && one_of cybox_2_1_optional h) with (cybox_gone opts "2.0.1" h).
  unfold cybox_gone_by. induction vs as [|v vs IH]; [reflexivity|]. cbn [existsb]. rewrite IH. unfold mem_str. cbn [existsb].
  destruct (String.eqb_spec "2.0.1" v) as [<-|N]; [destruct (existsb (String.eqb "2.0.1") vs), (cybox_gone opts "2.0.1" h); reflexivity|].
  assert (Z : cybox_gone opts v h = false) by (unfold cybox_gone; rewrite (proj2 (String.eqb_neq v "2.0.1")) by congruence; reflexivity).
  rewrite Z. reflexivity.
Qed.

Lemma nominal_cybox_gone_by opts vs : nominal (cybox_gone_by opts vs).
Proof. intros h h' A B C. rewrite !cybox_leaving_is. apply nominal_leaving; auto. Qed.

Lemma cybox_chain_traced opts force S : (update_vocabularies opts = true -> incl vocabulary_attributes S) -> incl cybox_attributes S ->
  (force = true -> In (lq "id") S) ->
  forall vs g u e l ds, chain (cybox_single opts force) vs g (erase u) = Ok (e, l, ds) ->
  exists e' L, erase e' = e /\ map erase L = l /\ traced (cybox_gone_by opts vs) S (through cybox_name vs) (along (cybox_change opts) vs) (arises cybox_new (cybox_change opts) vs) u e' L.
Proof.
  intros V A Fo. induction vs as [|v vs IH]; intros g u0 e l ds E.
  - injection E as <- <- _. exists u0, []. split; auto. split; auto. apply traced_refl; [apply through_same|apply along_same].
  - apply chain_parts in E as (oc & l' & ds' & E1 & -> & E2). unfold cybox_single in E1.
    destruct (cybox_check opts v); [|discriminate]. destruct (cybox_dirt v) eqn:X1; [|discriminate].
    destruct (cybox_step opts v) as [f|] eqn:F; [|discriminate].
    destruct (step_prepared S _ _ _ _ _ _ _ _ (cybox_step_blind _ _ _ F) (fun t d => cybox_dirt_not_root _ _ t d X1) Fo E1) as (u & L1 & u' & [_ Pr] & Fu & Ed & Rm). rewrite Ed in E2.
    destruct (IH _ _ _ _ _ E2) as (e' & L & Ee & El & T). exists e', (L1 ++ L)%list.
    split; auto. split; [rewrite map_app, Rm, El; reflexivity|]. apply Pr; [apply nominal_cybox_gone_by|apply through_same|apply along_same|].
    eapply traced_step; [apply through_step|eapply cybox_step_names; [exact F|exact Fu]|apply along_step|eapply sprung_stems, cybox_step_tells; [exact F|exact Fu]|apply arises_now|apply arises_later|eapply sprung_grown, cybox_step_tells; [exact F|exact Fu]| | | | | |exact T].
    + unfold cybox_gone_by. intros h X. cbn [existsb] in X. apply orb_false_iff in X. apply X.
    + eapply holds_sub; [intro h; symmetry; apply cybox_leaving_is|].
      unfold cybox_step in F. by_version F.
      * exact (cybox_2_0_leaving _ _ _ _ _ _ Fu).
      * change (mem_str "2.0.1" ("2.0.1" :: vs)) with true. cbv iota. eapply cybox_2_0_1_leaving; [..|exact Fu].
        -- destruct (remove_optionals opts); reflexivity.
        -- intros -> q Hq. apply in_or_app. right. exact Hq.
        -- destruct (remove_optionals opts); reflexivity.
        -- destruct (remove_optionals opts); reflexivity.
        -- discriminate.
    + eapply cybox_step_nesting; eauto.
    + eapply cybox_step_orderly; eauto.
    + eapply cybox_step_trails; [exact F|exact A|exact V|exact Fu].
Qed.

(** ** Whole updates *)

(** Without force nothing is removed. *)
Lemma single_quiet c D (f : tree -> res tree) new_id g t oc : single c D f new_id false g t = Ok oc -> removed_subtrees oc = [].
Proof.
  unfold single. destruct (c t); [|discriminate]. destruct (f (erase t)); [|discriminate]. cbn [rbind]. intro E. injection E as <-. reflexivity.
Qed.

Lemma chain_quiet one vs : (forall v g t oc, one v g t = Ok oc -> removed_subtrees oc = []) ->
  forall g t e l ds, chain one vs g t = Ok (e, l, ds) -> l = [].
Proof.
  intro H. induction vs as [|v vs IH]; intros g t e l ds E; cbn [chain] in E; [injection E as _ <- _; reflexivity|].
  destruct (one v g (numbered 0 t)) as [oc|] eqn:X; [|discriminate]. cbn [rbind] in E.
  destruct (chain one vs (g + replacements oc) (new_document oc)) as [[[e' l'] ds']|] eqn:Y; [|discriminate]. cbn [rbind] in E.
  injection E as _ <- _. rewrite (H _ _ _ _ X), (IH _ _ _ _ _ Y). reflexivity.
Qed.

Lemma distinct_labelled t : distinct_attributes t -> distinct_attributes (labelled t).
Proof. apply distinct_numbered. Qed.

(** The attributes that an update may change. *)
Definition whole_attributes (l : list qname) (opts : options) (force : bool) : list qname :=
  (l ++ (if update_vocabularies opts then vocabulary_attributes else []) ++ (if force then [lq "id"] else []))%list.

Lemma whole_but l opts force h h' : (forall k, ~ In k (whole_attributes l opts force) -> attr_of k h' = attr_of k h) -> kept_but l opts force h h'.
Proof.
  intros X k N V K. apply X. intro I. apply in_app_or in I as [I|I]; [exact (N I)|]. apply in_app_or in I as [I|I].
  - destruct (update_vocabularies opts); [exact (V eq_refl I)|destruct I].
  - destruct force; [|destruct I]. destruct I as [<-|[]]. exact (K eq_refl eq_refl).
Qed.

Lemma traced_whole P l opts force N X W t e L : distinct_attributes t -> traced P (whole_attributes l opts force) N X W (labelled t) e L ->
  conserved P (labelled t) e L /\ (forall z, In z (e :: L) -> stems (kept_but l opts force) (labelled t) z) /\
  (forall z, In z (e :: L) -> stems (called N) (labelled t) z) /\
  (forall z, In z (e :: L) -> stems (telling X) (labelled t) z) /\
  forall z, In z (e :: L) -> new_nodes W z.
Proof.
  intros D [H Ne Lb A Tk Ap Nm Xm Wm]. split; [apply reaches_conserved; auto; apply Ap|].
  { unfold labels. apply NoDup_filter. apply numbered_NoDup. }
  assert (G : forall z, stems (same_but (whole_attributes l opts force)) (labelled t) z -> stems (kept_but l opts force) (labelled t) z).
  { intros z Q x Hx Nx. destruct (Q x Hx Nx) as (y & Hy & E & R). exists y. split; auto. split; auto. apply whole_but. apply R.
    apply (distinct_labelled t D). exact Hy. }
  assert (Gn : forall z, In z (e :: L) -> new_nodes W z).
  { intros z Hz x Hx Z. destruct (Wm z Hz x Hx Z) as [Q|(y & Hy & Zy & _)]; [exact Q|]. exfalso.
    assert (I : In (tid y) (ids (labelled t))) by (apply nodes_ids; exists y; auto). apply Kept.numbered_range in I. lia. }
  split; [|split; [exact Nm|split; [exact Xm|exact Gn]]]. intros z [<-|Hz]; apply G; auto.
Qed.

Lemma stix_update_conserved o d from to opts force s t a vs r s' : wf_state s -> denotes s d t -> distinct_attributes t ->
  stix_start from t = Some a -> between STIX_VERSIONS a (match given to with Some b => b | None => "1.2.1" end) vs ->
  stix_update o d from to opts force s = (Ok r, s') ->
  exists e L, document s' (r_document r) (erase e) /\ Forall2 (document s') (removed_nodes r) (map erase L) /\ (force = false -> L = []) /\
    conserved (stix_gone_by (or_default o opts) vs) (labelled t) e L /\
    (forall z, In z (e :: L) -> stems (kept_but (flat_map stix_attributes vs) (or_default o opts) force) (labelled t) z) /\
    (forall z, In z (e :: L) -> stems (called (through stix_name vs)) (labelled t) z) /\
    (forall z, In z (e :: L) -> stems (fun h h' => along (stix_change (or_default o opts)) vs (told h) (told h')) (labelled t) z) /\
    forall z, In z (e :: L) -> new_nodes (arises (stix_new o) (stix_change (or_default o opts)) vs) z.
Proof.
  intros W Dn D Ha B E. pose proof (stix_update_runs o d from to opts force s t a vs W Dn Ha B) as R.
  destruct (chain _ vs (gen s) (erase t)) as [[[e l] ds]|x] eqn:C; [|destruct R as (n & s0 & R); congruence].
  destruct R as (r0 & s0 & ns & R & _ & Doc & Rs & _). rewrite E in R. injection R as <- <-.
  assert (Q : force = false -> l = []).
  { intros ->. eapply chain_quiet; [|exact C]. intros v g t0 oc X. unfold stix_single in X. destruct (stix_check _ _ _); [|discriminate].
    destruct (stix_dirt _ _); [|discriminate]. destruct (stix_step _ _ _); [|discriminate]. eapply single_quiet; exact X. }
  destruct B as (l1 & l2 & l3 & B & Bv).
  set (S := whole_attributes (flat_map stix_attributes vs) (or_default o opts) force).
  rewrite <- (erase_labelled t) in C.
  assert (X : exists e' L, erase e' = e /\ map erase L = l /\ traced (stix_gone_by (or_default o opts) vs) S (through stix_name vs) (along (stix_change (or_default o opts)) vs) (arises (stix_new o) (stix_change (or_default o opts)) vs) (labelled t) e' L);
    [eapply stix_chain_traced; [| | | | |exact C]|destruct X as (e' & L & <- & <- & T)].
  - intros U k I. unfold S, whole_attributes. rewrite U. apply in_or_app. right. apply in_or_app. left. exact I.
  - intros ->. unfold S, whole_attributes. apply in_or_app. right. apply in_or_app. right. left. reflexivity.
  - exact B.
  - intros _. apply distinct_labelled. exact D.
  - intros v I k Ik. unfold S, whole_attributes. apply in_or_app. left. apply in_flat_map. eauto.
  - apply traced_whole in T as [T1 T2]; [|exact D]. exists e', L. split; auto. split; auto. split; [|split; auto].
    intro F. apply Q in F. apply map_eq_nil in F. exact F.
Qed.

Lemma cybox_update_conserved o d from to opts force s t a vs r s' : wf_state s -> denotes s d t -> distinct_attributes t ->
  cybox_start from t = Some a -> between CYBOX_VERSIONS a (match given to with Some b => b | None => "2.1" end) vs ->
  cybox_update o d from to opts force s = (Ok r, s') ->
  exists e L, document s' (r_document r) (erase e) /\ Forall2 (document s') (removed_nodes r) (map erase L) /\ (force = false -> L = []) /\
    conserved (cybox_gone_by (or_default o opts) vs) (labelled t) e L /\
    (forall z, In z (e :: L) -> stems (kept_but cybox_attributes (or_default o opts) force) (labelled t) z) /\
    (forall z, In z (e :: L) -> stems (called (through cybox_name vs)) (labelled t) z) /\
    (forall z, In z (e :: L) -> stems (fun h h' => along (cybox_change (or_default o opts)) vs (told h) (told h')) (labelled t) z) /\
    forall z, In z (e :: L) -> new_nodes (arises cybox_new (cybox_change (or_default o opts)) vs) z.
Proof.
  intros W Dn D Ha B E. pose proof (cybox_update_runs o d from to opts force s t a vs W Dn Ha B) as R.
  destruct (chain _ vs (gen s) (erase t)) as [[[e l] ds]|x] eqn:C; [|destruct R as (n & s0 & R); congruence].
  destruct R as (r0 & s0 & ns & R & _ & Doc & Rs & _). rewrite E in R. injection R as <- <-.
  assert (Q : force = false -> l = []).
  { intros ->. eapply chain_quiet; [|exact C]. intros v g t0 oc X. unfold cybox_single in X. destruct (cybox_check _ _); [|discriminate].
    destruct (cybox_dirt _); [|discriminate]. destruct (cybox_step _ _); [|discriminate]. eapply single_quiet; exact X. }
  set (S := whole_attributes cybox_attributes (or_default o opts) force).
  rewrite <- (erase_labelled t) in C.
  assert (X : exists e' L, erase e' = e /\ map erase L = l /\ traced (cybox_gone_by (or_default o opts) vs) S (through cybox_name vs) (along (cybox_change (or_default o opts)) vs) (arises cybox_new (cybox_change (or_default o opts)) vs) (labelled t) e' L);
    [eapply cybox_chain_traced; [| | |exact C]|destruct X as (e' & L & <- & <- & T)].
  - intros U k I. unfold S, whole_attributes. rewrite U. apply in_or_app. right. apply in_or_app. left. exact I.
  - intros k I. unfold S, whole_attributes. apply in_or_app. left. exact I.
  - intros ->. unfold S, whole_attributes. apply in_or_app. right. apply in_or_app. right. left. reflexivity.
  - apply traced_whole in T as [T1 T2]; [|exact D]. exists e', L. split; auto. split; auto. split; [|split; auto].
    intro F. apply Q in F. apply map_eq_nil in F. exact F.
Qed.

(** With nothing taken away, everything is in the new document. *)
Lemma all_there s' (doc : list nat) force L : Forall2 (document s') doc (map erase L) -> (force = false -> L = []) -> (force = true -> doc = []) -> L = [].
Proof.
  intros F A B. destruct force; [|auto]. rewrite (B eq_refl) in F. inversion F as [X|]. symmetry in H. apply map_eq_nil in H. exact H.
Qed.

Lemma stix_update_carried o d from to opts force s t a vs r s' : wf_state s -> denotes s d t -> distinct_attributes t ->
  stix_start from t = Some a -> between STIX_VERSIONS a (match given to with Some b => b | None => "1.2.1" end) vs ->
  stix_update o d from to opts force s = (Ok r, s') -> (force = true -> removed_nodes r = []) ->
  exists e, document s' (r_document r) (erase e) /\ carried (stix_gone_by (or_default o opts) vs) (labelled t) e /\
    stems (kept_but (flat_map stix_attributes vs) (or_default o opts) force) (labelled t) e.
Proof.
  intros W Dn D Ha B E Rm. destruct (stix_update_conserved _ _ _ _ _ _ _ _ _ _ _ _ W Dn D Ha B E) as (e & L & Doc & Rs & Q & C & St & _).
  rewrite (all_there _ _ _ _ Rs Q Rm) in C. exists e. split; auto. split; [apply conserved_carried; exact C|]. apply St. left. reflexivity.
Qed.

Lemma cybox_update_carried o d from to opts force s t a vs r s' : wf_state s -> denotes s d t -> distinct_attributes t ->
  cybox_start from t = Some a -> between CYBOX_VERSIONS a (match given to with Some b => b | None => "2.1" end) vs ->
  cybox_update o d from to opts force s = (Ok r, s') -> (force = true -> removed_nodes r = []) ->
  exists e, document s' (r_document r) (erase e) /\ carried (cybox_gone_by (or_default o opts) vs) (labelled t) e /\
    stems (kept_but cybox_attributes (or_default o opts) force) (labelled t) e.
Proof.
  intros W Dn D Ha B E Rm. destruct (cybox_update_conserved _ _ _ _ _ _ _ _ _ _ _ _ W Dn D Ha B E) as (e & L & Doc & Rs & Q & C & St & _).
  rewrite (all_there _ _ _ _ Rs Q Rm) in C. exists e. split; auto. split; [apply conserved_carried; exact C|]. apply St. left. reflexivity.
Qed.
