(** * The names of elements through a step. *)

From Coq Require Import String Ascii List Bool Arith Lia.
From Verif Require Import Str Xml XPath Utils Base Tables Spec SpecDoc SpecPass SpecStep
  SpecCheck SpecClean SpecUpdate SpecTrace Lib Refine RefineBase RefineTrans RefineLists RefineSteps Relabel
  Trace SpecField Fields Carried Moved Located SpecWhole.
Import ListNotations.
Local Open Scope string_scope.

Section Names.
  Variable V : qname -> qname -> Prop.
  Hypothesis short : forall a b c, V a b -> V b c -> c = b \/ V a c.

  Definition once (q q' : qname) : Prop := q' = q \/ V q q'.
  Local Notation R := (called once).

  Lemma once_trans a b c : once a b -> once b c -> once a c.
  Proof.
    intros [-> | A] [-> | B]; unfold once; auto. destruct (short _ _ _ A B) as [-> | C]; auto.
  Qed.

  Lemma called_refl h : R h h.
  Proof. intro K. split; auto. left. reflexivity. Qed.

  Lemma called_trans h h0 h' : R h h0 -> R h0 h' -> R h h'.
  Proof. intros A B K. destruct (A K) as [K0 A']. destruct (B K0) as [K' B']. split; auto. eapply once_trans; eauto. Qed.

  Lemma called_same h h' : h_kind h' = h_kind h -> h_tag h' = h_tag h -> R h h'.
  Proof. intros E1 E2 K. split; [congruence|]. left. exact E2. Qed.

  Definition names (f : tree -> res tree) : Prop := forall t e, f t = Ok e -> stems R t e.

  Lemma names_eq T m e : stems R T m -> stems R m e -> stems R T e.
  Proof.
    intros H H'. eapply stems_impl; [|exact (stems_trans _ _ _ _ _ H H')].
    simpl. intros h h' (h0 & A & B). eapply called_trans; eauto.
  Qed.

  Lemma names_nil : names (in_order []).
  Proof. intros t e H. rewrite in_order_nil in H. injection H as <-. apply stems_refl. apply called_refl. Qed.

  Lemma names_cons f l : names f -> names (in_order l) -> names (in_order (f :: l)).
  Proof. intros H H' t e E. apply in_order_ok in E as (m & A & B). exact (names_eq t m e (H t m A) (H' m e B)). Qed.

  Lemma names_when b f : (b = true -> names f) -> names (when b f).
  Proof. intros H. unfold when. destruct b; [auto|]. intros t e E. injection E as <-. apply stems_refl. apply called_refl. Qed.

  Lemma names_passes {A} (f : A -> tree -> res tree) l : (forall x, names (f x)) -> names (passes f l).
  Proof.
    intro H. induction l as [|x l IH]; intros t e E.
    - injection E as <-. apply stems_refl. apply called_refl.
    - rewrite passes_cons in E. destruct (f x t) as [m|] eqn:E1; [|discriminate]. exact (names_eq t m e (H x t m E1) (IH m e E)).
  Qed.

  Lemma names_edit_where p g : keeps_id g -> (forall h, h_kind (g h) = h_kind h /\ h_tag (g h) = h_tag h) -> names (always (edit_where p g)).
  Proof.
    intros K H t e E. injection E as <-. apply stems_edit; intros b y I; destruct (p b y); auto; try apply K.
    - destruct (H (head y)). apply called_same; auto.
    - apply called_refl.
  Qed.

  Lemma names_on_root f : keeps_id f -> (forall h, h_kind (f h) = h_kind h /\ h_tag (f h) = h_tag h) -> names (always (on_root f)).
  Proof.
    intros K H t e E. injection E as <-. intros x Hx N. destruct t as [h ks]. destruct Hx as [<-|Hx].
    - exists (Node h ks). split; [apply nodes_self|]. split; [symmetry; apply K|]. destruct (H h). apply called_same; auto.
    - exists x. split; [right; exact Hx|]. split; auto. apply called_refl.
  Qed.

  Lemma names_loc drop m loc : names (always (schemaloc_pass drop m loc)).
  Proof. apply names_on_root; [apply loc_keeps_id|]. intro h. destruct (attr_get _ _); auto. Qed.

  Lemma names_lists obj prop : names (always (lists_pass obj prop)).
  Proof.
    intros t e E. injection E as <-. apply stems_edit; intros b y I; destruct (is_elem y); auto; [apply repeat_keeps| |apply called_refl].
    assert (G : forall n, h_kind (repeat_edit n (head y)) = h_kind (head y) /\ h_tag (repeat_edit n (head y)) = h_tag (head y)).
    { induction n as [|n [IH1 IH2]]; auto. cbn [repeat_edit]. unfold convert_text. destruct (h_text _) as [x|]; auto. destruct (String.eqb x ""); auto. }
    destruct (G (properties_above obj prop b)). apply called_same; auto.
  Qed.

  Lemma names_vocab v : names (vocab_pass v).
  Proof.
    intros t e E. unfold vocab_pass in E. destruct (first_err type_of _); [discriminate|].
    destruct (first_err (upgraded v) _); [discriminate|]. injection E as <-.
    apply stems_edit; intros b y Hy; destruct (outdated v (b, y)) eqn:O; auto; try apply called_refl;
      destruct (upgraded v (b, y)) as [h|] eqn:U; auto; try apply called_refl.
    - exact (upgraded_keeps v (b, y) h O U).
    - destruct (upgraded_shape _ _ _ _ U) as (a & n & _ & _ & W). apply upgraded_with_same in W as (T & K & _). apply called_same; auto.
  Qed.

  Lemma names_prune p t : stems R t (prune p t).
  Proof.
    apply stems_subst; [apply called_refl|]. intros b k l z I E Hz. destruct (p b k); [|discriminate]. injection E as <-. destruct Hz.
  Qed.

  Lemma names_optional p : names (always (optional_pass p)).
  Proof. intros t e E. injection E as <-. apply names_prune. Qed.

  Lemma names_optional_in_type name ns : names (optional_in_type name ns).
  Proof. intros t e E. unfold optional_in_type in E. destruct (first_err _ _); [discriminate|]. injection E as <-. apply names_prune. Qed.

  Lemma names_rewrite p G : (forall b k e, p b k = true -> G k = Ok e -> stems R k e) -> names (rewrite_all p G).
  Proof.
    intros H t e E. unfold rewrite_all in E. destruct (first_err _ _); [discriminate|]. injection E as <-.
    apply stems_subst; [apply called_refl|]. intros b k l z I E Hz. destruct (p b k) eqn:Pk; [|discriminate].
    destruct (G k) as [e'|] eqn:G'; [|discriminate]. injection E as <-. destruct Hz as [<-|[]]. eapply H; eauto.
  Qed.

  Lemma names_child_value p q : names (rewrite_all p (value_of_child q)).
  Proof.
    apply names_rewrite. intros b k e _ E. unfold value_of_child in E. destruct (filter _ _); [discriminate|].
    injection E as <-. apply stems_new. reflexivity.
  Qed.

  Lemma names_as_string p : names (rewrite_all p as_string).
  Proof. apply names_rewrite. intros b k e _ E. injection E as <-. apply stems_new. reflexivity. Qed.

  Lemma names_source p o b : names (rewrite_all p (structured_source o b)).
  Proof.
    apply names_rewrite. intros b0 k e _ E. unfold structured_source in E. destruct (parse_source _ _ _); [|discriminate].
    injection E as <-. apply stems_erased.
  Qed.

  Lemma stems_named t q k : In k (nodes t) -> V (h_tag (head k)) q -> stems R t (renamed_to q k).
  Proof. intros I H. apply stems_renamed; auto; [apply called_refl|]. intro K. split; [exact K|]. right. exact H. Qed.

  Lemma names_wrap p w : names (rewrite_all p (wrap w)).
  Proof.
    apply names_rewrite. intros b k e _ E. injection E as <-. apply stems_element. intros z [<-|[]].
    apply stems_sub; [apply called_refl|apply nodes_self].
  Qed.

  Lemma named_tag q x : named q x = true -> h_tag (head x) = q.
  Proof. unfold named. destruct (h_kind _); try discriminate. apply qn_eqb_eq. Qed.

  Lemma names_wrap_renamed ps q0 w q : V q0 q -> names (rewrite_all (child_in ps q0) (wrap_renamed w q)).
  Proof.
    intro Hv. apply names_rewrite. intros b k e Pk E. injection E as <-. apply stems_element. intros z [<-|[]]. apply stems_named; [apply nodes_self|].
    unfold child_in in Pk. apply andb_prop in Pk as [_ Pk]. rewrite (named_tag _ _ Pk). exact Hv.
  Qed.

  Lemma names_contributing p ns : (forall q, V q (qn ns "Identity")) -> names (rewrite_all p (contributing_sources ns)).
  Proof.
    intro Hv. apply names_rewrite. intros b k e _ E. unfold contributing_sources in E.
    destruct (forallb is_elem (kids k)); [|discriminate]. injection E as <-. apply stems_element. intros z Hz.
    apply in_map_iff in Hz as (c & <- & Hc). apply stems_element. intros z [<-|[]]. apply stems_named; [apply kids_nodes; auto|]. apply Hv.
  Qed.

  Lemma names_unwrap a b c : V b c -> names (always (unwrap_pass a b c)).
  Proof.
    intros Hv t e E. injection E as <-. apply stems_subst; [apply called_refl|]. intros bb k l z I E Hz.
    destruct (inside bb && named a k); [|discriminate]. destruct (filter (named b) (kids k)) as [|y ys] eqn:F; [discriminate|].
    injection E as <-. assert (Hy : In y (filter (named b) (kids k))) by (rewrite F; left; auto). apply filter_In in Hy as (Hy & Ny).
    destruct Hz as [<-|[]]. apply stems_named; [apply kids_nodes; auto|]. rewrite (named_tag _ _ Ny). exact Hv.
  Qed.

  Lemma names_rename old new : V old new -> names (rename old new).
  Proof.
    intros Hv t e E. injection E as <-. apply stems_edit; intros b y I; destruct (any_inside [old] b y) eqn:P; auto; try apply called_refl.
    unfold any_inside in P. apply andb_prop in P as [_ P]. unfold named_in in P. cbn [existsb] in P. rewrite orb_false_r in P.
    intro K. split; [exact K|]. right. rewrite (named_tag _ _ P). exact Hv.
  Qed.

  Lemma names_ns drop m : (forall q q', moved_by m q q' -> V q q') -> names (namespaces_pass drop m).
  Proof.
    intros Hv t e E. apply namespaces_ok in E as ->. intros x Hx N. destruct (nodes_ns drop m t [] x Hx) as (b & y & I & E).
    exists y. split; [apply nodes_in; eauto|]. unfold tid. destruct E as [E|[M E]]; rewrite E; (split; [reflexivity|]).
    - apply called_refl.
    - intro K. split; [reflexivity|]. right. apply Hv. unfold rebuilt. cbn [h_tag]. unfold moves in M.
      destruct (h_tag (head y)) as [[ns|] l]; [|discriminate]. cbn [q_ns q_local] in *. unfold new_ns, lookup.
      destruct (dict_get ns m) as [ns'|] eqn:G; [constructor; exact G|]. exfalso. apply (dict_get_absent _ _ G). apply mem_str_In. exact M.
  Qed.

  Ltac name :=
    repeat first
      [ apply names_nil | apply names_cons | apply names_loc | apply names_ns; assumption | apply names_vocab
      | apply names_lists | apply names_child_value | apply names_as_string | apply names_wrap | apply names_source
      | apply names_rename; assumption | apply names_unwrap; assumption | apply names_optional | apply names_optional_in_type
      | apply names_when; intro | apply names_passes; intro | apply names_wrap_renamed; assumption | apply names_contributing; assumption
      | apply names_edit_where; [intros [? ? ? ? ? ? ? ?]; reflexivity|split; reflexivity]
      | apply names_on_root; [intros [? ? ? ? ? ? ? ?]; reflexivity|split; reflexivity] ].

  Lemma cybox_2_0_names p opts : names (cybox_2_0_step p opts).
  Proof. unfold cybox_2_0_step. name. Qed.

  Lemma cybox_2_0_1_names p opts : (forall q q', In (q, q') cybox_2_1_names -> V q q') -> (forall q q', moved_by driver_ns q q' -> V q q') ->
    names (cybox_2_0_1_step p opts).
  Proof.
    intros A B. unfold cybox_2_0_1_step.
    assert (A1 := A _ _ (or_introl eq_refl)). assert (A2 := A _ _ (or_intror (or_introl eq_refl))).
    assert (A3 := A _ _ (or_intror (or_intror (or_introl eq_refl)))). assert (A4 := A _ _ (or_intror (or_intror (or_intror (or_introl eq_refl))))).
    assert (A5 := A _ _ (or_intror (or_intror (or_intror (or_intror (or_introl eq_refl)))))). name.
  Qed.

  Lemma stix_1_0_names opts : names (stix_1_0_step opts).
  Proof. unfold stix_1_0_step, cybox_2_0_step. name. Qed.

  Lemma stix_1_0_1_names opts : (forall q q', In (q, q') cybox_2_1_names -> V q q') -> (forall q q', moved_by driver_ns q q' -> V q q') ->
    (forall q, V q (common "Identity")) -> names (stix_1_0_1_step opts).
  Proof. intros A B C. unfold stix_1_0_1_step. apply names_cons; [apply cybox_2_0_1_names; auto|]. name. Qed.

  Lemma stix_1_1_names o opts : V (indicator "Related_Campaign") (common "Campaign") -> names (stix_1_1_step o opts).
  Proof. intro A. unfold stix_1_1_step. name. Qed.

  Lemma stix_1_1_1_names opts : names (stix_1_1_1_step opts).
  Proof. unfold stix_1_1_1_step. name. Qed.

  Lemma stix_1_2_names : (forall q q', moved_by stix_1_2_ns_map q q' -> V q q') -> names stix_1_2_step.
  Proof. intro A. unfold stix_1_2_step. name. Qed.
End Names.

(** ** The steps *)

Lemma no_way_back (m : dict string) : forallb (fun v => negb (mem_str v (map fst m))) (map snd m) = true ->
  forall a b c, moved_by m a b -> moved_by m b c -> False.
Proof.
  intros H a b c A B. destruct A as [ns ns' l G]. inversion B as [x y l' G' E1 E2]; subst. apply dict_get_pair in G, G'.
  rewrite forallb_forall in H. specialize (H ns' (in_map snd _ _ G)). apply negb_true_iff in H.
  assert (X : mem_str ns' (map fst m) = true) by (apply mem_str_In; exact (in_map fst _ _ G')). congruence.
Qed.

Lemma driver_moved q q' : moved_by driver_ns q q' -> q_ns q = Some "http://cybox.mitre.org/objects#WinDriverObject-2" /\
  q_ns q' = Some "http://cybox.mitre.org/objects#WinDriverObject-3".
Proof.
  intros [ns ns' l G]. unfold driver_ns, dict_get in G. destruct (String.eqb_spec ns "http://cybox.mitre.org/objects#WinDriverObject-2"); [|discriminate].
  injection G as <-. subst. auto.
Qed.

Lemma cybox_short a b c : In (a, b) cybox_2_1_names \/ moved_by driver_ns a b -> In (b, c) cybox_2_1_names \/ moved_by driver_ns b c -> False.
Proof.
  intros [A|A] [B|B].
  - repeat (destruct A as [A|A]; [injection A as <- <-; repeat (destruct B as [B|B]; [discriminate B|]); destruct B|]). destruct A.
  - apply driver_moved in B as [B _]. repeat (destruct A as [A|A]; [injection A as <- <-; discriminate B|]). destruct A.
  - apply driver_moved in A as [_ A]. repeat (destruct B as [B|B]; [injection B as <- <-; discriminate A|]). destruct B.
  - apply driver_moved in A as [_ A]. apply driver_moved in B as [B _]. rewrite A in B. discriminate B.
Qed.

Lemma cybox_name_short v a b c : cybox_name v a b -> cybox_name v b c -> c = b \/ cybox_name v a c.
Proof. intros [_ A] [_ B]. destruct (cybox_short _ _ _ A B). Qed.

Lemma identity_stays c : In (common "Identity", c) cybox_2_1_names \/ moved_by driver_ns (common "Identity") c -> False.
Proof.
  intros [B|B].
  - repeat (destruct B as [B|B]; [discriminate B|]). destruct B.
  - apply driver_moved in B as [B _]. discriminate B.
Qed.

Lemma stix_name_short v a b c : stix_name v a b -> stix_name v b c -> c = b \/ stix_name v a c.
Proof.
  unfold stix_name. intros [[-> A]|[(-> & A1 & A2)|[-> A]]] [[E B]|[(E & B1 & B2)|[E B]]]; try discriminate E.
  - destruct B as [B|[B|B]]; [| |right; left; auto].
    + destruct A as [A|[A|A]]; [destruct (cybox_short a b c); auto|destruct (cybox_short a b c); auto|subst b; destruct (identity_stays c); auto].
    + destruct A as [A|[A|A]]; [destruct (cybox_short a b c); auto|destruct (cybox_short a b c); auto|subst b; destruct (identity_stays c); auto].
  - subst. discriminate B1.
  - destruct (no_way_back stix_1_2_ns_map eq_refl _ _ _ A B).
Qed.

Lemma cybox_step_names opts v f t e : cybox_step opts v = Some f -> f t = Ok e -> stems (called (once (cybox_name v))) t e.
Proof.
  intro H. revert t e. change (names (cybox_name v) f). unfold cybox_step in H. by_version H.
  - apply cybox_2_0_names. apply cybox_name_short.
  - apply cybox_2_0_1_names; [apply cybox_name_short| |]; intros q q' X; split; auto.
Qed.

Lemma stix_step_names o opts v f t e : stix_step o opts v = Some f -> f t = Ok e -> stems (called (once (stix_name v))) t e.
Proof.
  intro H. revert t e. change (names (stix_name v) f). unfold stix_step in H. by_version H.
  - apply stix_1_0_names. apply stix_name_short.
  - apply stix_1_0_1_names; [apply stix_name_short| | |]; intros; left; split; auto.
  - apply stix_1_1_names; [apply stix_name_short|]. right. left. auto.
  - apply stix_1_1_1_names. apply stix_name_short.
  - apply stix_1_2_names; [apply stix_name_short|]. intros q q' X. right. right. auto.
Qed.
