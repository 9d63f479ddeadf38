(** * Kind, name and texts of nodes through a step. *)

From Coq Require Import String Ascii List Bool Arith Lia Relation_Operators.
From Verif Require Import Str Xml XPath Utils Base Tables Spec SpecDoc SpecPass SpecStep
  SpecCheck SpecClean SpecUpdate SpecTrace Lib Refine RefineBase RefineTrans RefineLists RefineSteps Relabel
  Trace SpecField Fields Carried Moved Located SpecWhole Called.
Import ListNotations.
Local Open Scope string_scope.

Section Texts.
  Variables (V : qname -> qname -> Prop) (moved : dict string) (lists : bool) (terms : list (string * string)).
  Variable one : told_of -> told_of -> Prop.
  Variable new : told_of -> Prop.
  Hypothesis every : forall a b, change V moved lists terms a b -> one a b.

  Definition retold (h h' : hdr) : Prop := clos_refl_trans told_of one (told h) (told h').
  Local Notation R := retold.

  Lemma retold_refl h : R h h.
  Proof. apply rt_refl. Qed.

  Lemma retold_trans h h0 h' : R h h0 -> R h0 h' -> R h h'.
  Proof. intros A B. eapply rt_trans; eauto. Qed.

  Lemma retold_same h h' : told h' = told h -> R h h'.
  Proof. intro E. unfold retold. rewrite E. apply rt_refl. Qed.

  Lemma retold_name h q : h_kind h = KElem -> V (h_tag h) q -> R h (set_tag q h).
  Proof. intros K H. apply rt_step, every. destruct h as [i k q0 d a x c z]. cbn [h_kind] in K. subst k. apply ch_name. exact H. Qed.

  Lemma named_elem q x : named q x = true -> h_kind (head x) = KElem.
  Proof. unfold named. destruct (h_kind _); auto; discriminate. Qed.

  Lemma elem_kind x : is_elem x = true -> h_kind (head x) = KElem.
  Proof. unfold is_elem. destruct (h_kind _); auto; discriminate. Qed.

  Definition brought (h : hdr) : Prop := exists a, new a /\ clos_refl_trans told_of one a (told h).

  Lemma brought_on h h' : brought h -> R h h' -> brought h'.
  Proof. intros (a & N & A) B. exists a. split; auto. eapply rt_trans; eauto. Qed.

  Lemma brought_new h : new (told h) -> brought h.
  Proof. intro H. exists (told h). split; auto. apply rt_refl. Qed.

  (** Every node is new or comes from a node. *)
  Definition sprung (t e : tree) : Prop := forall x, In x (nodes e) ->
    tid x = 0 /\ brought (head x) \/ exists y, In y (nodes t) /\ tid y = tid x /\ R (head y) (head x).

  Lemma sprung_refl t : sprung t t.
  Proof. intros x Hx. right. exists x. split; auto. split; auto. apply retold_refl. Qed.

  Lemma sprung_edit f t : (forall b y, In (b, y) (visits [] t) -> h_id (f b y) = tid y) ->
    (forall b y, In (b, y) (visits [] t) -> R (head y) (f b y)) -> sprung t (edit f [] t).
  Proof.
    intros K H x Hx. right. destruct (nodes_edit f t [] x Hx) as (b & y & I & E). exists y. split.
    - apply nodes_in. exists b. auto.
    - unfold tid at 2. rewrite E. split; [symmetry; apply (K b); auto|auto].
  Qed.

  Lemma sprung_subst F t : (forall b k l z, In (b, k) (visits [] t) -> F b k = Some l -> In z l -> sprung k z) -> sprung t (subst_nodes F [] t).
  Proof.
    intros H x Hx. destruct (nodes_subst F t [] x Hx) as [(y & Hy & E)|(b & k & l & z & I & E & Hz & Hxz)].
    - right. exists y. split; auto. unfold tid. rewrite E. split; auto. apply retold_refl.
    - destruct (H b k l z I E Hz x Hxz) as [A|(y & Hy & Ey)]; [left; exact A|right]. exists y. split; auto.
      apply (nodes_sub t k); auto. apply nodes_in. eauto.
  Qed.

  Lemma sprung_new t h : h_id h = 0 -> new (told h) -> sprung t (Node h []).
  Proof. intros E N x [<-|[]]. left. split; [exact E|]. apply brought_new. exact N. Qed.

  Lemma sprung_element t q ks : new (KElem, q, None, None) -> (forall k, In k ks -> sprung t k) -> sprung t (element q ks).
  Proof.
    intros N H x [<-|Hx]; [left; split; [reflexivity|]; apply brought_new; exact N|]. apply in_flat_map in Hx as (k & Hk & Hx). exact (H k Hk x Hx).
  Qed.

  Lemma sprung_sub t k : In k (nodes t) -> sprung t k.
  Proof. intros Hk x Hx. right. exists x. split; [eapply nodes_sub; eauto|]. split; auto. apply retold_refl. Qed.

  Lemma sprung_renamed t q k : R (head k) (set_tag q (head k)) -> In k (nodes t) -> sprung t (renamed_to q k).
  Proof.
    intros H' Hk x [<-|Hx]; right.
    - exists k. auto.
    - exists x. split; [|split; auto; apply retold_refl]. apply (nodes_sub t k); auto. destruct k as [h ks]. right. exact Hx.
  Qed.

  Definition tells (f : tree -> res tree) : Prop := forall t e, f t = Ok e -> sprung t e.

  Lemma tells_eq t u e : sprung t u -> sprung u e -> sprung t e.
  Proof.
    intros H H' x Hx. destruct (H' x Hx) as [A|(y & Hy & E & A)]; [left; exact A|]. destruct (H y Hy) as [[B1 B2]|(z & Hz & E' & B)].
    - left. split; [congruence|]. eapply brought_on; eauto.
    - right. exists z. split; auto. split; [congruence|]. eapply retold_trans; eauto.
  Qed.

  Lemma tells_nil : tells (in_order []).
  Proof. intros t e H. rewrite in_order_nil in H. injection H as <-. apply sprung_refl. Qed.

  Lemma tells_cons f l : tells f -> tells (in_order l) -> tells (in_order (f :: l)).
  Proof. intros H H' t e E. apply in_order_ok in E as (m & A & B). exact (tells_eq t m e (H t m A) (H' m e B)). Qed.

  Lemma tells_when b f : (b = true -> tells f) -> tells (when b f).
  Proof. intros H. unfold when. destruct b; [auto|]. intros t e E. injection E as <-. apply sprung_refl. Qed.

  Lemma tells_passes {A} (f : A -> tree -> res tree) l : (forall x, tells (f x)) -> tells (passes f l).
  Proof.
    intro H. induction l as [|x l IH]; intros t e E.
    - injection E as <-. apply sprung_refl.
    - rewrite passes_cons in E. destruct (f x t) as [m|] eqn:E1; [|discriminate]. exact (tells_eq t m e (H x t m E1) (IH m e E)).
  Qed.

  Lemma tells_edit_where p g : keeps_id g -> (forall h, told (g h) = told h) -> tells (always (edit_where p g)).
  Proof.
    intros K H t e E. injection E as <-. apply sprung_edit; intros b y I; destruct (p b y); auto; try apply K.
    - apply retold_same; auto.
    - apply retold_refl.
  Qed.

  Lemma tells_on_root f : keeps_id f -> (forall h, told (f h) = told h) -> tells (always (on_root f)).
  Proof.
    intros K H t e E. injection E as <-. intros x Hx. right. destruct t as [h ks]. destruct Hx as [<-|Hx].
    - exists (Node h ks). split; [apply nodes_self|]. split; [symmetry; apply K|]. apply retold_same. apply H.
    - exists x. split; [right; exact Hx|]. split; auto. apply retold_refl.
  Qed.

  Lemma tells_loc drop m loc : tells (always (schemaloc_pass drop m loc)).
  Proof. apply tells_on_root; [apply loc_keeps_id|]. intro h. destruct (attr_get _ _); auto. Qed.

  Lemma tells_lists obj prop : lists = true -> tells (always (lists_pass obj prop)).
  Proof.
    intros Ls t e E. injection E as <-. apply sprung_edit; intros b y I; destruct (is_elem y) eqn:El; auto; [apply repeat_keeps| |apply retold_refl].
    apply elem_kind in El. apply proj2 with (A := h_kind (repeat_edit (properties_above obj prop b) (head y)) = KElem).
    induction (properties_above obj prop b) as [|n [IH0 IH]]; [split; [exact El|apply retold_refl]|]. cbn [repeat_edit].
    set (h := repeat_edit n (head y)) in *. split; [unfold convert_text; destruct (h_text h) as [x|]; auto; destruct (String.eqb x ""); auto|]. eapply retold_trans; [exact IH|]. unfold convert_text. destruct (h_text h) as [x|] eqn:Ex; [|apply retold_refl]. destruct (String.eqb x ""); [apply retold_refl|].
    apply rt_step, every. destruct h as [i0 k q d a x0 c z]. cbn [h_text] in Ex. cbn [h_kind] in IH0. subst x0 k. apply ch_list. exact Ls.
  Qed.

  Lemma tells_vocab v : incl (v_terms v) terms -> tells (vocab_pass v).
  Proof.
    intros In t e E. unfold vocab_pass in E. destruct (first_err type_of _); [discriminate|].
    destruct (first_err (upgraded v) _); [discriminate|]. injection E as <-.
    apply sprung_edit; intros b y Hy; destruct (outdated v (b, y)) eqn:O; auto; try apply retold_refl;
      destruct (upgraded v (b, y)) as [h|] eqn:U; auto; try apply retold_refl.
    - exact (upgraded_keeps v (b, y) h O U).
    - destruct (upgraded_shape _ _ _ _ U) as (a & n & _ & _ & W).
      assert (Ky : h_kind (head y) = KElem).
      { unfold outdated, typed in O. rewrite !andb_true_iff in O. destruct O as [[[_ O] _] _]. apply elem_kind. exact O. }
      clear - W In Ky every. unfold upgraded_with in W.
      destruct (set_if_present (lq "vocab_reference") _ _ _) as [h1|] eqn:E1; [|discriminate]. cbn [rbind] in W.
      destruct (set_if_present (lq "vocab_name") _ _ h1) as [h2|] eqn:E2; [|discriminate]. cbn [rbind] in W. injection W as <-.
      apply set_if_present_same in E1 as (A1 & A2 & _ & A3 & A4 & _). apply set_if_present_same in E2 as (B1 & B2 & _ & B3 & B4 & _).
      cbn [hset_attr set_attrs h_tag h_kind h_tail h_text] in *.
      assert (Q : told h2 = told (head y)) by (unfold told; rewrite B1, B2, B3, B4, A1, A2, A3, A4; reflexivity).
      eapply retold_trans; [apply retold_same; exact Q|]. assert (Tx : h_text h2 = h_text (head y)) by congruence. rewrite <- Tx. assert (K2 : h_kind h2 = KElem) by congruence.
      destruct h2 as [i0 k q d at0 [x|] c z]; cbn [h_text]; [|apply retold_refl]. cbn [h_kind] in K2. subst k.
      destruct (dict_get x (v_terms v)) as [x'|] eqn:D; [|apply retold_refl]. apply rt_step, every. apply ch_term. apply In. apply dict_get_pair. exact D.
  Qed.

  Lemma tells_prune p t : sprung t (prune p t).
  Proof.
    apply sprung_subst. intros b k l z I E Hz. destruct (p b k); [|discriminate]. injection E as <-. destruct Hz.
  Qed.

  Lemma tells_optional p : tells (always (optional_pass p)).
  Proof. intros t e E. injection E as <-. apply tells_prune. Qed.

  Lemma tells_optional_in_type name ns : tells (optional_in_type name ns).
  Proof. intros t e E. unfold optional_in_type in E. destruct (first_err _ _); [discriminate|]. injection E as <-. apply tells_prune. Qed.

  Lemma tells_rewrite p G : (forall b k e, p b k = true -> G k = Ok e -> sprung k e) -> tells (rewrite_all p G).
  Proof.
    intros H t e E. unfold rewrite_all in E. destruct (first_err _ _); [discriminate|]. injection E as <-.
    apply sprung_subst. intros b k l z I E Hz. destruct (p b k) eqn:Pk; [|discriminate].
    destruct (G k) as [e'|] eqn:G'; [|discriminate]. injection E as <-. destruct Hz as [<-|[]]. eapply H; eauto.
  Qed.

  Lemma tells_child_value q0 q : (forall x, new (KElem, q0, x, None)) -> tells (rewrite_all (any_inside [q0]) (value_of_child q)).
  Proof.
    intro N. apply tells_rewrite. intros b k e Pk E. unfold value_of_child in E. destruct (filter _ _); [discriminate|].
    injection E as <-. apply sprung_new; [reflexivity|]. unfold told. cbn [h_kind h_tag h_text h_tail].
    rewrite (named_tag _ _ (any_inside_named _ _ _ Pk)). apply N.
  Qed.

  Lemma tells_as_string q0 : (forall x, new (KElem, q0, x, None)) -> tells (rewrite_all (any_inside [q0]) as_string).
  Proof.
    intro N. apply tells_rewrite. intros b k e Pk E. injection E as <-. apply sprung_new; [reflexivity|]. unfold told. cbn [h_kind h_tag h_text h_tail].
    rewrite (named_tag _ _ (any_inside_named _ _ _ Pk)). apply N.
  Qed.

  Lemma nodes_erased t : forall x, In x (nodes (erase t)) -> tid x = 0 /\ exists y, In y (nodes t) /\ told (head x) = told (head y).
  Proof.
    tree_induction t. intros x [<-|Hx].
    - split; [reflexivity|]. exists (Node h ks). split; [apply nodes_self|]. destruct h; reflexivity.
    - apply in_flat_map in Hx as (k' & Hk & Hx). apply in_map_iff in Hk as (k & <- & Hk). destruct (IH k Hk x Hx) as (A & y & Hy & E).
      split; auto. exists y. split; auto. eapply nodes_kid; eauto.
  Qed.

  Lemma tells_source p o b :
    (forall q x y, In q [common "Source"; indicator "Source"; common "Identity"; common "Name"] -> new (KElem, q, x, y)) ->
    (forall a, from_markup o a -> new a) -> tells (rewrite_all p (structured_source o b)).
  Proof.
    intros N1 N2. apply tells_rewrite. intros b0 k e _ E. unfold structured_source in E. destruct (parse_source _ _ _) as [t|] eqn:P; [|discriminate].
    injection E as <-. intros x Hx. left. destruct (nodes_erased t x Hx) as (Z & y & Hy & Ey). split; [exact Z|]. apply brought_new. rewrite Ey.
    unfold parse_source in P. destruct (no_markup _) eqn:M.
    - destruct (chardata _) as [name|]; [|discriminate]. injection P as <-. destruct b.
      + destruct Hy as [<-|[<-|[<-|[]]]]; apply N1; cbn [In]; auto.
      + destruct Hy as [<-|[<-|[<-|[]]]]; apply N1; cbn [In]; auto.
    - apply N2. eexists b, _, t, y. split; [exact M|]. split; [exact P|]. split; auto.
  Qed.

  Lemma sprung_named t q k : In k (nodes t) -> h_kind (head k) = KElem -> V (h_tag (head k)) q -> sprung t (renamed_to q k).
  Proof. intros I K H. apply sprung_renamed; auto. apply retold_name; auto. Qed.

  Lemma tells_wrap p w : new (KElem, w, None, None) -> tells (rewrite_all p (wrap w)).
  Proof.
    intro N. apply tells_rewrite. intros b k e _ E. injection E as <-. apply sprung_element; [exact N|]. intros z [<-|[]].
    apply sprung_sub, nodes_self.
  Qed.

  Lemma tells_wrap_renamed ps q0 w q : new (KElem, w, None, None) -> V q0 q -> tells (rewrite_all (child_in ps q0) (wrap_renamed w q)).
  Proof.
    intros N Hv. apply tells_rewrite. intros b k e Pk E. injection E as <-. apply sprung_element; [exact N|]. intros z [<-|[]]. unfold child_in in Pk. apply andb_prop in Pk as [_ Pk].
    apply sprung_named; [apply nodes_self|eapply named_elem; exact Pk|]. rewrite (named_tag _ _ Pk). exact Hv.
  Qed.

  Lemma tells_contributing p ns : new (KElem, qn ns "Contributing_Sources", None, None) -> new (KElem, qn ns "Source", None, None) -> (forall q, V q (qn ns "Identity")) -> tells (rewrite_all p (contributing_sources ns)).
  Proof.
    intros N1 N2 Hv. apply tells_rewrite. intros b k e _ E. unfold contributing_sources in E.
    destruct (forallb is_elem (kids k)) eqn:El; [|discriminate]. rewrite forallb_forall in El. injection E as <-. apply sprung_element; [exact N1|]. intros z Hz.
    apply in_map_iff in Hz as (c & <- & Hc). apply sprung_element; [exact N2|]. intros z [<-|[]]. apply sprung_named; [apply kids_nodes; auto|apply elem_kind; auto|]. apply Hv.
  Qed.

  Lemma tells_unwrap a b c : V b c -> tells (always (unwrap_pass a b c)).
  Proof.
    intros Hv t e E. injection E as <-. apply sprung_subst. intros bb k l z I E Hz.
    destruct (inside bb && named a k); [|discriminate]. destruct (filter (named b) (kids k)) as [|y ys] eqn:F; [discriminate|].
    injection E as <-. assert (Hy : In y (filter (named b) (kids k))) by (rewrite F; left; auto). apply filter_In in Hy as (Hy & Ny).
    destruct Hz as [<-|[]]. apply sprung_named; [apply kids_nodes; auto|eapply named_elem; exact Ny|]. rewrite (named_tag _ _ Ny). exact Hv.
  Qed.

  Lemma tells_rename old q : V old q -> tells (rename old q).
  Proof.
    intros Hv t e E. injection E as <-. apply sprung_edit; intros b y I; destruct (any_inside [old] b y) eqn:P; auto; try apply retold_refl.
    unfold any_inside in P. apply andb_prop in P as [_ P]. unfold named_in in P. cbn [existsb] in P. rewrite orb_false_r in P.
    apply retold_name; [eapply named_elem; exact P|]. rewrite (named_tag _ _ P). exact Hv.
  Qed.

  Lemma tells_ns drop : tells (namespaces_pass drop moved).
  Proof.
    intros t e E. apply namespaces_ok in E as ->. intros x Hx. right. destruct (nodes_ns drop moved t [] x Hx) as (b & y & I & E).
    exists y. split; [apply nodes_in; eauto|]. unfold tid. destruct E as [E|[M E]]; rewrite E; (split; [reflexivity|]).
    - apply retold_refl.
    - apply rt_step, every. unfold rebuilt, told. cbn [h_tag h_kind h_text h_tail]. unfold moves in M.
      destruct (h_tag (head y)) as [[ns|] l]; [|discriminate]. cbn [q_ns q_local] in *. unfold new_ns, lookup. apply ch_moved.
      + destruct (dict_get ns moved) as [ns'|] eqn:G; [constructor; exact G|]. exfalso. apply (dict_get_absent _ _ G). apply mem_str_In. exact M.
      + destruct (kids y); auto.
  Qed.

  Lemma tells_passes_vocab l : incl (flat_map v_terms l) terms -> tells (passes vocab_pass l).
  Proof.
    intro H. induction l as [|v l IH]; intros t e E.
    - injection E as <-. apply sprung_refl.
    - rewrite passes_cons in E. cbn [flat_map] in H. destruct (vocab_pass v t) as [t1|] eqn:E1; [|discriminate].
      apply (tells_eq t t1 e); [eapply tells_vocab; [|exact E1]|apply IH; [|exact E]].
      + intros p Hp. apply H, in_or_app. left. exact Hp.
      + intros p Hp. apply H, in_or_app. right. exact Hp.
  Qed.

  Ltac tell :=
    repeat first
      [ apply tells_nil | apply tells_cons | apply tells_loc | apply tells_ns
      | apply tells_lists; assumption | apply tells_child_value; solve [auto] | apply tells_as_string; solve [auto] | apply tells_wrap; assumption | apply tells_source; assumption
      | apply tells_rename; assumption | apply tells_unwrap; assumption | apply tells_optional | apply tells_optional_in_type
      | apply tells_when; intro | apply tells_passes_vocab; auto | apply tells_vocab; auto | apply tells_wrap_renamed; assumption | apply tells_contributing; assumption
      | apply tells_edit_where; [intros [? ? ? ? ? ? ? ?]; reflexivity|reflexivity]
      | apply tells_on_root; [intros [? ? ? ? ? ? ? ?]; reflexivity|reflexivity] ].

  Lemma cybox_2_0_tells p opts : lists = true -> (update_vocabularies opts = true -> incl (v_terms event_type) terms) -> tells (cybox_2_0_step p opts).
  Proof. intros L I. unfold cybox_2_0_step. tell. Qed.

  Lemma cybox_2_0_1_tells p opts : (forall q x, In q [http_name "DNT"; http_name "Vary"; http_name "Refresh"] -> new (KElem, q, x, None)) ->
    moved = driver_ns -> (forall q q', In (q, q') cybox_2_1_names -> V q q') ->
    (update_vocabularies opts = true -> incl (flat_map v_terms [object_relationship; tool_type; action_name]) terms) ->
    tells (cybox_2_0_1_step p opts).
  Proof.
    intros N Em A I. unfold cybox_2_0_1_step.
    assert (N1 := fun x => N _ x (or_introl eq_refl)). assert (N2 := fun x => N _ x (or_intror (or_introl eq_refl))).
    assert (N3 := fun x => N _ x (or_intror (or_intror (or_introl eq_refl)))). rewrite <- Em at 1.
    assert (A1 := A _ _ (or_introl eq_refl)). assert (A2 := A _ _ (or_intror (or_introl eq_refl))).
    assert (A3 := A _ _ (or_intror (or_intror (or_introl eq_refl)))). assert (A4 := A _ _ (or_intror (or_intror (or_intror (or_introl eq_refl))))).
    assert (A5 := A _ _ (or_intror (or_intror (or_intror (or_intror (or_introl eq_refl)))))). tell.
  Qed.

  Lemma stix_1_0_tells opts : lists = true -> (update_vocabularies opts = true -> incl (flat_map v_terms [event_type; motivation_1_0_1; operational_support]) terms) ->
    tells (stix_1_0_step opts).
  Proof.
    intros L I. unfold stix_1_0_step. apply tells_cons; [apply cybox_2_0_tells; auto|]; [|tell].
    - intros U p Hp. apply (I U). cbn [flat_map]. apply in_or_app. left. exact Hp.
    - intros p Hp. apply I; [assumption|]. change (In p (v_terms event_type ++ flat_map v_terms [motivation_1_0_1; operational_support])%list). apply in_or_app. right. exact Hp.
  Qed.

  Lemma stix_1_0_1_tells opts : (forall q x, In q [http_name "DNT"; http_name "Vary"; http_name "Refresh"] -> new (KElem, q, x, None)) ->
    new (KElem, common "Contributing_Sources", None, None) -> new (KElem, common "Source", None, None) -> new (KElem, ttp "Exploit_Target", None, None) ->
    moved = driver_ns -> (forall q q', In (q, q') cybox_2_1_names -> V q q') -> (forall q, V q (common "Identity")) ->
    (update_vocabularies opts = true -> incl (flat_map v_terms [object_relationship; tool_type; action_name; motivation_1_1; indicator_type]) terms) ->
    tells (stix_1_0_1_step opts).
  Proof.
    intros N N1 N2 N3 Em A C I. unfold stix_1_0_1_step.
    assert (Sp : flat_map v_terms [object_relationship; tool_type; action_name; motivation_1_1; indicator_type] =
      (flat_map v_terms [object_relationship; tool_type; action_name] ++ flat_map v_terms [motivation_1_1; indicator_type])%list) by reflexivity.
    rewrite Sp in I. apply tells_cons; [apply cybox_2_0_1_tells; auto|]; [|tell].
    - intros U p Hp. apply (I U). apply in_or_app. left. exact Hp.
    - intros p Hp. apply I; [assumption|]. apply in_or_app. right. exact Hp.
  Qed.

  Lemma stix_1_1_tells o opts : new (KElem, indicator "Related_Campaign", None, None) ->
    (forall q x y, In q [common "Source"; indicator "Source"; common "Identity"; common "Name"] -> new (KElem, q, x, y)) ->
    (forall a, from_markup o a -> new a) -> V (indicator "Related_Campaign") (common "Campaign") ->
    (update_vocabularies opts = true -> incl (v_terms availability_loss) terms) -> tells (stix_1_1_step o opts).
  Proof. intros N1 N2 N3 A I. unfold stix_1_1_step. tell. Qed.

  Lemma stix_1_1_1_tells opts : (update_vocabularies opts = true -> incl (v_terms discovery_method) terms) -> tells (stix_1_1_1_step opts).
  Proof. intro I. unfold stix_1_1_1_step. tell. Qed.

  Lemma stix_1_2_tells : moved = stix_1_2_ns_map -> tells stix_1_2_step.
  Proof. intro Em. unfold stix_1_2_step. rewrite <- Em at 1. tell. Qed.
End Texts.

Lemma terms_incl opts l : update_vocabularies opts = true -> incl (flat_map v_terms l) (terms_of opts l).
Proof. intro U. unfold terms_of. rewrite U. apply incl_refl. Qed.

Lemma cybox_step_tells opts v f t e : cybox_step opts v = Some f -> f t = Ok e -> sprung (cybox_change opts v) (cybox_new v) t e.
Proof.
  intro H. revert t e. change (tells (cybox_change opts v) (cybox_new v) f). unfold cybox_step in H. by_version H.
  - eapply cybox_2_0_tells; [intros a b X; left; split; [reflexivity|exact X]|reflexivity|].
    intro U. pose proof (terms_incl opts [event_type] U) as Q. cbn [flat_map] in Q. rewrite app_nil_r in Q. exact Q.
  - eapply cybox_2_0_1_tells; [intros a b X; right; split; [reflexivity|exact X]|intros q x Hq; split; [reflexivity|]; exists q, x; auto|reflexivity|intros q q1 Hq; exact Hq|apply terms_incl].
Qed.

Lemma stix_step_tells o opts v f t e : stix_step o opts v = Some f -> f t = Ok e -> sprung (stix_change opts v) (stix_new o v) t e.
Proof.
  intro H. revert t e. change (tells (stix_change opts v) (stix_new o v) f). unfold stix_step in H. by_version H.
  - eapply stix_1_0_tells; [intros a b X; left; split; [reflexivity|exact X]|reflexivity|apply terms_incl].
  - eapply stix_1_0_1_tells; [intros a b X; right; left; split; [reflexivity|exact X]|intros q x Hq; left; split; [reflexivity|]; left; exists q, x; auto
    |left; split; [reflexivity|]; right; eexists; split; [reflexivity|]; cbn [In]; auto|left; split; [reflexivity|]; right; eexists; split; [reflexivity|]; cbn [In]; auto
    |left; split; [reflexivity|]; right; eexists; split; [reflexivity|]; cbn [In]; auto|reflexivity|intros q q1 Hq; left; exact Hq|intros q; right; reflexivity|apply terms_incl].
  - eapply stix_1_1_tells; [intros a b X; right; right; left; split; [reflexivity|exact X]|right; split; [reflexivity|]; left; reflexivity
    |intros q x y Hq; right; split; [reflexivity|]; right; left; exists q, x, y; auto|intros a Ha; right; split; [reflexivity|]; right; right; exact Ha|split; reflexivity|].
    intro U. pose proof (terms_incl opts [availability_loss] U) as Q. cbn [flat_map] in Q. rewrite app_nil_r in Q. exact Q.
  - eapply stix_1_1_1_tells; [intros a b X; right; right; right; left; split; [reflexivity|exact X]|].
    intro U. pose proof (terms_incl opts [discovery_method] U) as Q. cbn [flat_map] in Q. rewrite app_nil_r in Q. exact Q.
  - eapply stix_1_2_tells; [intros a b X; right; right; right; right; split; [reflexivity|exact X]|reflexivity].
Qed.

Lemma sprung_stems one new t e : sprung one new t e -> stems (retold one) t e.
Proof. intros H x Hx N. destruct (H x Hx) as [[Z _]|Y]; [destruct (N Z)|exact Y]. Qed.
