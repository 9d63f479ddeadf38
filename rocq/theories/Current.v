(** * Proofs: no value of an outdated vocabulary is left. *)

From Coq Require Import String Ascii List Bool Arith Lia.
From Verif Require Import Str Xml XPath Utils Base Tables Cybox Stix Ramrod Spec SpecDoc SpecPass SpecStep
  SpecCheck SpecClean SpecUpdate SpecTrace SpecIds Lib Api Frame Refine RefineBase RefineTrans RefineLists RefineSteps RefineCheck
  RefineClean Relabel RefineUpdate Updates Reports UpdateFacts Trace SpecField Fields Carried Vocab Marks Worked Follow Natural Root Kept Declared
  Cleaned Located Scripts SpecFault Faults Chained Translated Ids Refs Refused SpecMeaning Meaning SpecCurrent.
Import ListNotations.
Local Open Scope string_scope.

Lemma env_get_pair p e n : env_get p e = Some n -> In (p, n) e.
Proof.
  induction e as [|[q u] e IH]; [discriminate|]. cbn [env_get]. destruct (ostr_eqb p q) eqn:E; [|right; auto].
  intro H. injection H as <-. apply ostr_eqb_eq in E as <-. left. reflexivity.
Qed.

Lemma env_items_sub p n e : forall sn, In (p, n) (env_items sn e) -> In (p, n) e.
Proof.
  induction e as [|[q u] e IH]; intros sn; [intros []|]. cbn [env_items]. destruct (existsb _ sn); [right; eauto|].
  intros [H|H]; [left; auto|right; eauto].
Qed.

(** ** Headers: [R] holds of every declaration, and no element whose type has a
    prefix of [P] has a name of [Old]. *)
Section Fine.
  Variables (R : string -> string -> Prop) (P Old : string -> Prop).

  Definition sure (h : hdr) : Prop := forall a u, In (Some a, u) (h_decl h) -> R a u.
  Definition fresh_type (h : hdr) : Prop :=
    forall s a n, attr_of TAG_XSI_TYPE h = Some s -> split_char ":" s = [a; n] -> P a -> ~ Old n.
  Definition fine (h : hdr) : Prop := distinct h /\ sure h /\ (h_kind h = KElem -> fresh_type h).

  Lemma fine_set k v h : k <> TAG_XSI_TYPE -> fine h -> fine (hset_attr k v h).
  Proof.
    intros N (D & S & F). split; [apply attr_set_NoDup; exact D|]. split; [exact S|]. intros K s a n E. apply F; auto.
    rewrite attr_of_set in E by congruence. exact E.
  Qed.

  Lemma fine_del k h : k <> TAG_XSI_TYPE -> fine h -> fine (hdel_attr k h).
  Proof.
    intros N (D & S & F). split; [apply NoDup_del; exact D|]. split; [exact S|]. intros K s a n E. apply F; auto.
    rewrite attr_of_del in E by congruence. exact E.
  Qed.

  Lemma fine_same h h' : h_attr h' = h_attr h -> h_decl h' = h_decl h -> h_kind h' = h_kind h -> fine h -> fine h'.
  Proof.
    intros A B C (D & S & F). split; [unfold distinct; rewrite A; exact D|]. split; [intros a u I; rewrite B in I; auto|].
    intros K s a n E. apply F; [congruence|]. unfold attr_of in *. rewrite <- A. exact E.
  Qed.

  Lemma fine_copy i q d s c tl h : (forall a u, In (Some a, u) d -> R a u) -> h_kind h = KElem -> fine h ->
    fine (Hdr i KElem q d (attr_update [] (h_attr h)) s c tl).
  Proof.
    intros Hd K (D & S & F). split; [apply attr_update_NoDup; constructor|]. split; [exact Hd|]. intros _ w a n E. apply F; auto.
    revert E. unfold attr_of. cbn [h_attr]. rewrite attr_get_update by exact D. destruct (attr_get _ _); auto.
  Qed.

  Lemma fine_new q d s c tl : (forall a u, In (Some a, u) d -> R a u) -> fine (Hdr 0 KElem q d [] s c tl).
  Proof. intro Hd. split; [constructor|]. split; [exact Hd|]. intros _ w a n E. discriminate E. Qed.

  Lemma fine_loc drop m loc : invariant fine (always (schemaloc_pass drop m loc)).
  Proof. apply invariant_on_root. intros h H. destruct (attr_get _ _); auto. apply fine_set; auto. discriminate. Qed.

  Lemma fine_stamp_1 p : invariant fine (always (edit_where p stamp_cybox_2_0_1)).
  Proof. apply invariant_edit_where. intros h H. unfold stamp_cybox_2_0_1. repeat (apply fine_set; [discriminate|]). exact H. Qed.

  Lemma fine_stamp_2 p : invariant fine (always (edit_where p stamp_cybox_2_1)).
  Proof.
    apply invariant_edit_where. intros h H. unfold stamp_cybox_2_1. apply fine_del; [discriminate|].
    repeat (apply fine_set; [discriminate|]). exact H.
  Qed.

  Lemma fine_stix_stamp p i w : invariant fine (always (edit_where p (stamp_stix i w))).
  Proof. apply invariant_edit_where. intros h H. apply fine_set; auto. discriminate. Qed.

  Lemma fine_lists a b : invariant fine (always (lists_pass a b)).
  Proof.
    apply invariant_edit. intros c y H. destruct (is_elem y); auto. generalize (properties_above a b c). induction n as [|n IH]; auto.
    cbn [repeat_edit]. revert IH. apply fine_same; unfold convert_text; (destruct (h_text _) as [s|]; auto; destruct (String.eqb s ""); reflexivity).
  Qed.

  Lemma named_elem q x : named q x = true -> h_kind (head x) = KElem.
  Proof. unfold named. destruct (h_kind (head x)); auto; discriminate. Qed.

  Lemma fine_child_value q u : invariant fine (rewrite_all (any_inside [q]) (value_of_child u)).
  Proof.
    apply invariant_rewrite. intros b k e _ E A. unfold value_of_child in E. destruct (filter _ _) as [|v l] eqn:F; [discriminate|]. injection E as <-.
    assert (Hv : In v (filter (named u) (kids k))) by (rewrite F; left; auto). apply filter_In in Hv as [Hv Nv].
    intros x [<-|[]]. apply fine_copy; [intros ? ? []|eapply named_elem; eauto|]. apply A. apply (nodes_kid k v); auto. apply nodes_self.
  Qed.

  Lemma fine_as_string q : invariant fine (rewrite_all (any_inside [q]) as_string).
  Proof.
    apply invariant_rewrite. intros b k e Pk E A. injection E as <-. intros x [<-|[]]. cbn [head].
    assert (G : fine (Hdr 0 KElem (h_tag (head k)) [] (attr_update [] (h_attr (head k))) (h_text (head k)) false None)).
    { apply fine_copy; [intros ? ? []| |apply A, nodes_self]. unfold any_inside in Pk. apply andb_true_iff in Pk as [_ Pk].
      unfold named_in in Pk. apply existsb_exists in Pk as (z & _ & Pk). eapply named_elem; eauto. }
    destruct (has_attr _ _); [|exact G]. refine (fine_set (lq "datatype") "string" _ _ G). discriminate.
  Qed.

  Lemma fine_rename a b : invariant fine (rename a b).
  Proof. apply invariant_rename. intros h _ H. exact (fine_same h (set_tag b h) eq_refl eq_refl eq_refl H). Qed.

  Lemma fine_renamed q k : all fine k -> all fine (renamed_to q k).
  Proof.
    intros A x [<-|Hx]; [exact (fine_same (head k) (set_tag q (head k)) eq_refl eq_refl eq_refl (A k (nodes_self k)))|]. apply A. destruct k. right. exact Hx.
  Qed.

  Lemma fine_unwrap a b c : invariant fine (always (unwrap_pass a b c)).
  Proof.
    intros t e E A. injection E as <-. apply invariant_subst; auto. intros d k l z _ E Hz Ak.
    destruct (inside d && named _ k); [|discriminate].
    destruct (filter _ (kids k)) as [|x xs] eqn:Fl; [discriminate|]. injection E as <-. destruct Hz as [<-|[]]. apply fine_renamed.
    assert (Hx : In x (filter (named b) (kids k))) by (rewrite Fl; left; auto). apply filter_In in Hx as [Hx _].
    intros y Hy. apply Ak. apply (nodes_kid k x); auto.
  Qed.

  Lemma fine_element q ks : (forall k, In k ks -> all fine k) -> all fine (element q ks).
  Proof. intros H x [<-|Hx]; [apply fine_new; intros ? ? []|]. apply in_flat_map in Hx as (k & Hk & Hx). exact (H k Hk x Hx). Qed.

  Lemma fine_contributing p ns : invariant fine (rewrite_all p (contributing_sources ns)).
  Proof.
    apply invariant_rewrite. intros b k e _ E A. unfold contributing_sources in E. destruct (forallb _ _); [|discriminate]. injection E as <-.
    apply fine_element. intros z Hz. apply in_map_iff in Hz as (y & <- & Hy). apply fine_element. intros w [<-|[]]. apply fine_renamed.
    intros x Hx. apply A. apply (nodes_kid k y); auto.
  Qed.

  Lemma fine_wrap p q : invariant fine (rewrite_all p (wrap q)).
  Proof. apply invariant_rewrite. intros b k e _ E A. injection E as <-. apply fine_element. intros w [<-|[]]. exact A. Qed.

  Lemma fine_wrap_renamed p q r : invariant fine (rewrite_all p (wrap_renamed q r)).
  Proof. apply invariant_rewrite. intros b k e _ E A. injection E as <-. apply fine_element. intros w [<-|[]]. apply fine_renamed. exact A. Qed.

  Lemma fine_optional p : invariant fine (always (optional_pass p)).
  Proof. intros t e E A. injection E as <-. apply invariant_prune. exact A. Qed.

  Lemma fine_optional_in n ns : invariant fine (optional_in_type n ns).
  Proof. intros t e E A. unfold optional_in_type in E. destruct (first_err _ _); [discriminate|]. injection E as <-. apply invariant_prune. exact A. Qed.

  (** What a prefix is read as is declared somewhere above. *)
  Lemma read_sure t b y a u : all fine t -> In (b, y) (visits [] t) -> env_get (Some a) (env_of b y) = Some u -> R a u.
  Proof.
    intros A I E. apply env_get_pair in E. unfold env_of in E. apply in_flat_map in E as (z & Hz & E).
    assert (Nz : In z (nodes t)) by (eapply visits_line; eauto).
    destruct (A z Nz) as (_ & S & _). exact (S a u E).
  Qed.
End Fine.

(** ** Vocabularies *)

Lemma outdated_type v b y : outdated v (b, y) = true -> exists s a n, attr_of TAG_XSI_TYPE (head y) = Some s /\ split_char ":" s = [a; n] /\
  env_get (Some a) (env_of b y) = Some (v_namespace v) /\ In n (v_old_types v).
Proof.
  unfold outdated, type_of. cbn [fst snd]. fold (attr_of TAG_XSI_TYPE (head y)). intro O. apply andb_true_iff in O as [_ O].
  destruct (attr_of TAG_XSI_TYPE (head y)) as [s|]; [|discriminate]. destruct (split_char ":" s) as [|a [|n [|]]] eqn:S; try discriminate.
  destruct (env_get _ _) as [u|] eqn:E; [|discriminate]. apply andb_true_iff in O as [A B]. apply String.eqb_eq in A as ->. apply mem_str_In in B.
  exists s, a, n. auto.
Qed.

Lemma upgraded_decl v b y h : upgraded v (b, y) = Ok h -> h_decl h = h_decl (head y) /\ h_kind h = h_kind (head y).
Proof.
  intro U. destruct (upgraded_shape _ _ _ _ U) as (a & n & _ & _ & W). apply upgraded_with_same in W as (A & B & C & _). auto.
Qed.

Section Terms.
  Variables (R : string -> string -> Prop) (P : string -> Prop).

  (** A vocabulary with another namespace, or with a new type that is not old. *)
  Lemma fine_vocab (Old : string -> Prop) w : In w vocabularies -> (forall a, R a (v_namespace w) -> P a -> ~ Old (v_new_type w)) ->
    invariant (fine R P Old) (vocab_pass w).
  Proof.
    intros Iw H t e E A. unfold vocab_pass in E. destruct (first_err type_of _); [discriminate|].
    destruct (first_err (upgraded w) _); [discriminate|]. injection E as <-. intros x Hx.
    destruct (nodes_edit _ t [] x Hx) as (b & y & I & ->). assert (Fy : fine R P Old (head y)) by (apply A, nodes_in; eauto).
    destruct (outdated w (b, y)) eqn:O; [|exact Fy]. destruct (upgraded w (b, y)) as [h|] eqn:U; [|exact Fy].
    destruct (upgraded_decl _ _ _ _ U) as [Ud Uk]. destruct Fy as (D & S & F). split; [eapply upgraded_distinct; eauto|].
    split; [intros a u J; rewrite Ud in J; auto|]. intros K s a n Es Sp Pa On.
    destruct (outdated_type _ _ _ O) as (s0 & a0 & n0 & E0 & S0 & G0 & _).
    destruct (upgraded_new w b y h Iw U) as (s1 & a1 & n1 & E1 & S1 & s2 & E2 & S2).
    rewrite E0 in E1. injection E1 as <-. rewrite S0 in S1. injection S1 as <- <-.
    rewrite E2 in Es. injection Es as <-. rewrite S2 in Sp. injection Sp as <- <-.
    exact (H a0 (read_sure R P Old t b y a0 _ A I G0) Pa On).
  Qed.

  Lemma fine_vocabs (Old : string -> Prop) l : (forall w, In w l -> In w vocabularies /\ forall a, R a (v_namespace w) -> P a -> ~ Old (v_new_type w)) ->
    invariant (fine R P Old) (passes vocab_pass l).
  Proof. intro H. apply invariant_passes. intros w Hw. destruct (H w Hw). apply fine_vocab; auto. Qed.

  (** The types of a vocabulary that has been updated are not there any more. *)
  Lemma fine_gained (Old : string -> Prop) w t e : In w vocabularies -> (forall a u, R a u -> P a -> u = v_namespace w) ->
    ~ In (v_new_type w) (v_old_types w) -> ~ Old (v_new_type w) -> is_elem t = true -> attr_of TAG_XSI_TYPE (head t) = None ->
    vocab_pass w t = Ok e -> all (fine R P Old) t -> all (fine R P (fun n => Old n \/ In n (v_old_types w))) e.
  Proof.
    intros Iw Hw N1 N2 El Rt E A x Hx.
    assert (A' : all (fine R P Old) e) by (eapply fine_vocab; eauto).
    destruct (A' x Hx) as (D & S & F). split; [exact D|]. split; [exact S|]. intros K s a n Es Sp Pa [On|On]; [exact (F K s a n Es Sp Pa On)|].
    unfold vocab_pass in E. destruct (first_err type_of _) as [|] eqn:Fe; [discriminate|].
    destruct (first_err (upgraded w) _) as [|] eqn:Fu; [discriminate|]. injection E as <-.
    destruct (nodes_edit _ t [] x Hx) as (b & y & I & Hh). rewrite Hh in *. clear Hh.
    destruct (outdated w (b, y)) eqn:O.
    - destruct (upgraded w (b, y)) as [h|z] eqn:U.
      + destruct (upgraded_new w b y h Iw U) as (s1 & a1 & n1 & E1 & S1 & s2 & E2 & S2).
        rewrite E2 in Es. injection Es as <-. rewrite S2 in Sp. injection Sp as <- <-. exact (N1 On).
      + destruct (proj1 (first_err_none _ _) Fu (b, y) (proj2 (filter_In _ _ _) (conj I O))) as (v & Ev). congruence.
    - assert (T : typed (b, y) = true).
      { unfold typed, is_elem, has_attr. cbn [fst snd]. fold (attr_of TAG_XSI_TYPE (head y)). rewrite Es, K.
        destruct b as [|p b]; [|reflexivity]. apply top_visit in I. subst y. congruence. }
      destruct (type_of (b, y)) as [[[a' n'] u]|z] eqn:Ty; [|destruct (proj1 (first_err_none _ _) Fe (b, y) (proj2 (filter_In _ _ _) (conj I T))) as (v & Ev); congruence].
      unfold outdated in O. rewrite T, Ty in O. cbn [andb] in O. unfold type_of in Ty. cbn [fst snd] in Ty. fold (attr_of TAG_XSI_TYPE (head y)) in Ty.
      rewrite Es, Sp in Ty. destruct (env_get _ _) as [u'|] eqn:G; [|discriminate]. injection Ty as <- <- <-.
      rewrite (Hw a u' (read_sure R P Old t b y a u' A I G) Pa), String.eqb_refl in O. cbn [andb] in O.
      apply mem_str_In in On. congruence.
  Qed.
End Terms.

(** ** Namespaces *)

Lemma nodes_ns_elem drop m t : forall anc x, is_elem t = true -> In x (nodes (ns_pass drop m anc t)) ->
  exists b y, In (b, y) (visits anc t) /\ (head x = head y \/ is_elem y = true /\ head x = rebuilt drop m b y).
Proof.
  tree_induction t. intros anc x El H. cbn [ns_pass nodes] in H. destruct H as [<-|H].
  - exists anc, (Node h ks). split; [apply visits_self|]. destruct (moves m (Node h ks)); auto.
  - apply in_flat_map in H as (k' & Hk' & Hx). apply in_map_iff in Hk' as (k & <- & Hk). destruct (is_elem k) eqn:Ek.
    + destruct (IH k Hk _ _ Ek Hx) as (b & y & I & E). exists b, y. split; auto. right. apply in_flat_map. exists k. auto.
    + rewrite <- (nodes_visits k (Node h ks :: anc)) in Hx. apply in_map_iff in Hx as ([b y] & <- & I).
      exists b, y. split; [right; apply in_flat_map; exists k; auto|]. auto.
Qed.

Lemma fine_ns (R R' : string -> string -> Prop) P Old m t : is_elem t = true -> (forall a u, R a u -> R' a u /\ R' a (new_ns m u)) ->
  all (fine R P Old) t -> all (fine R' P Old) (ns_pass [] m [] t).
Proof.
  intros El H A x Hx. destruct (nodes_ns_elem [] m t [] x El Hx) as (b & y & I & Hy).
  assert (Fy : fine R P Old (head y)) by (apply A, nodes_in; eauto).
  assert (Same : fine R' P Old (head y)) by (destruct Fy as (D & S & F); split; [exact D|]; split; [intros a u J; apply H, S, J|exact F]).
  destruct Hy as [->|[Ey ->]]; [exact Same|]. unfold rebuilt.
  refine (fine_copy R' P Old _ _ _ _ _ _ (head y) _ _ Same).
  - intros a u J. apply in_map_iff in J as ([q w] & J & K). injection J as -> <-. apply filter_In in K as [K _]. apply env_items_sub in K.
    cbn [snd]. apply H. unfold env_of in K. apply in_flat_map in K as (z & Hz & K).
    assert (Nz : In z (nodes t)) by (eapply visits_line; eauto). destruct (A z Nz) as (_ & S & _). exact (S a w K).
  - unfold is_elem in Ey. destruct (h_kind (head y)); auto; discriminate.
Qed.

(** ** Sources *)

Lemma fine_structured (R : string -> string -> Prop) P Old o b p t e : R "stixCommon" NS_COMMON_1 -> R "indicator" NS_INDICATOR_2 ->
  (forall anc y, p anc y = true -> named_in [common "Source"; indicator "Source"] y = true) ->
  rewrite_all p (structured_source o b) t = Ok e -> all unmarked t -> all (fine R P Old) t -> all unmarked e /\ all (fine R P Old) e.
Proof.
  intros Rc Ri N E U A.
  enough (K : all (fun h => unmarked h /\ fine R P Old h) e) by (split; intros x Hx; apply K; exact Hx).
  revert E. assert (B : all (fun h => unmarked h /\ fine R P Old h) t) by (intros x Hx; split; [apply U|apply A]; exact Hx).
  intro E. clear U A. revert t e E B. clear - Rc Ri N. apply invariant_rewrite. intros a x e Px E A. apply N in Px. unfold structured_source in E.
  assert (C : clear_text (match h_text (head x) with Some s => s | None => "None" end)).
  { destruct (h_text (head x)) as [s|] eqn:Es; [|split; reflexivity]. destruct (A x (nodes_self x)) as [[_ B] _]. apply B; auto. }
  unfold parse_source in E. rewrite (clear_no_markup _ C) in E. destruct (chardata _) as [name|]; [|discriminate]. injection E as <-.
  intros y Hy. split; [revert y Hy; destruct b; apply known_source_tree; intros ? []|].
  destruct b; destruct Hy as [<-|[<-|[<-|[]]]]; apply fine_new; intros ? ? J; simpl in J;
    repeat destruct J as [J|J]; try (injection J as <- <-; assumption); destruct J.
Qed.

(** ** Steps *)

Definition of_namespace (ns : string) (v : vocab) : bool := String.eqb (v_namespace v) ns.
Definition olds (ns : string) (l : list vocab) : list string := flat_map v_old_types (filter (of_namespace ns) l).

Definition kept_apart (ns : string) (m : dict string) : bool :=
  forallb (fun p => negb (String.eqb (fst p) ns) && negb (String.eqb (snd p) ns) && negb (String.eqb (snd p) later_terms)) m.

Section Steps.
  Variables (ns : string) (P : string -> Prop).
  Hypothesis Hns : In ns [stix_terms; cybox_terms].
  Hypothesis Pc : ~ P "stixCommon".
  Hypothesis Pi : ~ P "indicator".

  Definition reads (a u : string) : Prop := (u = ns <-> P a) /\ u <> later_terms.
  Definition names_of (l : list string) (n : string) : Prop := In n l.

  Record going (L : list string) (t : tree) : Prop := Going {
    g_elem : is_elem t = true;
    g_root : attr_of TAG_XSI_TYPE (head t) = None;
    g_plain : all unmarked t;
    g_fine : all (fine reads P (fun n => In n L)) t
  }.

  Definition goes (L : list string) (f : tree -> res tree) (L' : list string) : Prop := forall t e, f t = Ok e -> going L t -> going L' e.

  Lemma goes_cons L M N f l : goes L f M -> goes M (in_order l) N -> goes L (in_order (f :: l)) N.
  Proof. intros A B t e E G. apply in_order_ok in E as (m & E1 & E2). eapply B; [exact E2|]. eapply A; eauto. Qed.
  Lemma goes_nil L : goes L (in_order []) L.
  Proof. intros t e E G. rewrite in_order_nil in E. injection E as <-. exact G. Qed.
  Lemma goes_when L M b f : b = true -> goes L f M -> goes L (when b f) M.
  Proof. intros -> H. exact H. Qed.
  Lemma goes_may L b f : goes L f L -> goes L (when b f) L.
  Proof. intros H. destruct b; [exact H|]. intros t e E G. injection E as <-. exact G. Qed.

  Lemma goes_by L f : invariant (fine reads P (fun n => In n L)) f -> invariant unmarked f -> root_keeps (attr_of TAG_XSI_TYPE) f -> root_keeps h_kind f ->
    goes L f L.
  Proof.
    intros A B C D t e E [G1 G2 G3 G4]. constructor.
    - unfold is_elem in *. rewrite (D t e E). exact G1.
    - rewrite (C t e E). exact G2.
    - exact (B t e E G3).
    - exact (A t e E G4).
  Qed.

  Lemma ns_dec u : u = ns \/ u <> ns.
  Proof. destruct (String.eqb_spec u ns); auto. Qed.

  Lemma reads_other a u : u <> ns -> u <> later_terms -> ~ P a -> reads a u.
  Proof. intros A B C. split; [|exact B]. split; [contradiction|contradiction]. Qed.

  Lemma common_reads : reads "stixCommon" NS_COMMON_1.
  Proof. apply reads_other; [|discriminate|exact Pc]. destruct Hns as [<-|[<-|[]]]; discriminate. Qed.
  Lemma indicator_reads : reads "indicator" NS_INDICATOR_2.
  Proof. apply reads_other; [|discriminate|exact Pi]. destruct Hns as [<-|[<-|[]]]; discriminate. Qed.

  Lemma reads_moved m a u : kept_apart ns m = true -> reads a u -> reads a u /\ reads a (new_ns m u).
  Proof.
    intros K H. split; [exact H|]. unfold new_ns, lookup. destruct (dict_get u m) as [w|] eqn:G; [|exact H].
    apply Located.dict_get_pair in G. unfold kept_apart in K. rewrite forallb_forall in K. specialize (K _ G). cbn [fst snd] in K.
    apply andb_true_iff in K as [K K3]. apply andb_true_iff in K as [K1 K2]. apply negb_true_iff in K1, K2, K3.
    apply String.eqb_neq in K1, K2, K3. apply reads_other; auto. intro Pa. apply K1. apply H. exact Pa.
  Qed.

  Definition gained (L : list string) (l : list vocab) : Prop :=
    forall w, In w l -> In w vocabularies /\ (v_namespace w = ns -> ~ In (v_new_type w) (L ++ olds ns l)%list).

  Lemma going_more L L' t : (forall n, In n L' -> In n L) -> going L t -> going L' t.
  Proof.
    intros H [G1 G2 G3 G4]. constructor; auto. intros x Hx. destruct (G4 x Hx) as (D & S & F). split; [exact D|]. split; [exact S|].
    intros K s a n E Sp Pa On. exact (F K s a n E Sp Pa (H n On)).
  Qed.

  Lemma goes_vocab L w : In w vocabularies -> (v_namespace w = ns -> ~ In (v_new_type w) (L ++ olds ns [w])%list) ->
    goes L (vocab_pass w) (L ++ olds ns [w])%list.
  Proof.
    intros Iw H t e E [G1 G2 G3 G4].
    assert (C : clear_terms w = true) by (clear - Iw; repeat (destruct Iw as [<-|Iw]; [reflexivity|]); destruct Iw).
    assert (Ge : is_elem e = true) by (unfold is_elem in *; rewrite (root_vocab h_kind w t e E); exact G1).
    assert (Gr : attr_of TAG_XSI_TYPE (head e) = None) by (rewrite (root_vocab (attr_of TAG_XSI_TYPE) w t e E); exact G2).
    assert (K : ~ In (lq "x") set_by_steps) by (unfold set_by_steps; simpl; intuition discriminate).
    assert (Gp : all unmarked e) by exact (known_vocab _ _ K w C t e E G3).
    constructor; auto. unfold olds in *. cbn [filter] in *. destruct (of_namespace ns w) eqn:O.
    - apply String.eqb_eq in O. cbn [flat_map] in *. rewrite app_nil_r in *.
      assert (F : all (fine reads P (fun n => In n L \/ In n (v_old_types w))) e).
      { eapply (fine_gained reads P (fun n => In n L) w t e); auto.
        - intros a u [R _] Pa. rewrite O. apply R. exact Pa.
        - intro X. apply (H O). apply in_or_app. auto.
        - intro X. apply (H O). apply in_or_app. auto. }
      intros x Hx. destruct (F x Hx) as (D & S & Q). split; [exact D|]. split; [exact S|]. intros Ke s a n Es Sp Pa On. apply in_app_or in On. exact (Q Ke s a n Es Sp Pa On).
    - apply String.eqb_neq in O. cbn [flat_map]. rewrite app_nil_r.
      refine (fine_vocab reads P _ w Iw _ t e E G4). intros a [R _] Pa. elim O. apply R. exact Pa.
  Qed.

  Lemma olds_cons w l : olds ns (w :: l) = (olds ns [w] ++ olds ns l)%list.
  Proof. unfold olds. cbn [filter]. destruct (of_namespace ns w); cbn [flat_map]; [rewrite app_nil_r|]; reflexivity. Qed.

  Lemma goes_vocabs l : forall L, gained L l -> goes L (passes vocab_pass l) (L ++ olds ns l)%list.
  Proof.
    induction l as [|w l IH]; intros L H t e E G.
    - injection E as <-. unfold olds. cbn. rewrite app_nil_r. exact G.
    - rewrite passes_cons in E. destruct (vocab_pass w t) as [m|] eqn:E1; [|discriminate].
      rewrite olds_cons, app_assoc. eapply IH; [|exact E|].
      + intros w' Hw'. destruct (H w' (or_intror Hw')) as [Iw' Nw']. split; [exact Iw'|]. intro X. rewrite <- app_assoc, <- olds_cons. auto.
      + destruct (H w (or_introl eq_refl)) as [Iw Nw]. refine (goes_vocab L w Iw _ t m E1 G). intros X Y. apply (Nw X).
        rewrite olds_cons. apply in_app_or in Y. apply in_or_app. destruct Y; [auto|]. right. apply in_or_app. auto.
  Qed.

  Lemma goes_driver L : goes L (namespaces_pass [] driver_ns) L.
  Proof.
    intros t e E [G1 G2 G3 G4].
    assert (K : ~ In (lq "x") set_by_steps) by (unfold set_by_steps; simpl; intuition discriminate).
    assert (Gp : all unmarked e) by exact (known_ns _ _ [] driver_ns (eq_refl : foreign driver_ns = true) t e E G3).
    apply namespaces_ok in E as ->. constructor; auto.
    - destruct t as [h ks]. cbn [ns_pass]. destruct (moves _ _); [reflexivity|exact G1].
    - destruct t as [h ks]. cbn [ns_pass head] in *. destruct (moves _ _); [|exact G2]. unfold attr_of. cbn [rebuilt h_attr head].
      rewrite attr_get_update; [unfold attr_of in G2; rewrite G2; reflexivity|]. destruct (G4 (Node h ks) (nodes_self _)) as [D _]. exact D.
    - eapply fine_ns; [exact G1| |exact G4]. intros a u H. apply reads_moved; auto.
      destruct Hns as [<-|[<-|[]]]; reflexivity.
  Qed.

  Lemma goes_structured L o b p : (forall anc y, p anc y = true -> named_in [common "Source"; indicator "Source"] y = true) ->
    goes L (rewrite_all p (structured_source o b)) L.
  Proof.
    intros N t e E [G1 G2 G3 G4].
    destruct (fine_structured reads P _ o b p t e common_reads indicator_reads N E G3 G4) as [A B]. constructor; auto.
    - unfold is_elem in *. rewrite (root_rewrite h_kind p _ t e E). exact G1.
    - rewrite (root_rewrite (attr_of TAG_XSI_TYPE) p _ t e E). exact G2.
  Qed.

  Lemma free : ~ In (lq "x") set_by_steps.
  Proof. unfold set_by_steps. simpl. intuition discriminate. Qed.

  Lemma root_stamp_1 h : attr_of TAG_XSI_TYPE (stamp_cybox_2_0_1 h) = attr_of TAG_XSI_TYPE h.
  Proof. unfold stamp_cybox_2_0_1. repeat (rewrite attr_of_set by discriminate). reflexivity. Qed.
  Lemma root_stamp_2 h : attr_of TAG_XSI_TYPE (stamp_cybox_2_1 h) = attr_of TAG_XSI_TYPE h.
  Proof. unfold stamp_cybox_2_1. rewrite attr_of_del by discriminate. repeat (rewrite attr_of_set by discriminate). reflexivity. Qed.
  Ltac one_fine :=
    first [ apply fine_loc | apply fine_stix_stamp | apply fine_stamp_1 | apply fine_stamp_2 | apply fine_lists | apply fine_rename
          | apply fine_child_value | apply fine_as_string | apply fine_contributing | apply fine_wrap | apply fine_wrap_renamed
          | apply fine_unwrap | apply fine_optional | apply fine_optional_in ].
  Ltac one_known :=
    first [ apply known_loc; apply free | apply known_stix_stamp; apply free | apply known_stamp_1; apply free | apply known_stamp_2; apply free
          | apply known_lists | apply known_rename; reflexivity
          | apply known_child_value; right; simpl; tauto | apply known_as_string; [simpl; tauto|discriminate]
          | apply known_contributing; reflexivity
          | apply known_wrap | apply known_wrap_renamed; reflexivity | apply known_unwrap; right; simpl; tauto
          | apply known_optional | apply known_optional_in ].
  Ltac one_root :=
    first [ apply root_loc; intros; first [reflexivity|apply attr_of_set; discriminate]
          | apply root_rewrite | apply root_lists | apply root_rename | apply root_unwrap | apply root_optional | apply root_optional_in_type
          | apply root_edit_where; intro; first [reflexivity|apply root_stamp_1|apply root_stamp_2|apply attr_of_set; discriminate] ].
  Ltac one := first [apply goes_driver | apply goes_structured; intros ? ? X; eapply Faults.child_in_source; [|exact X]; simpl; tauto
    | apply goes_by; [one_fine|one_known|one_root|one_root]].


  Lemma goes_one L w : gained L [w] -> goes L (vocab_pass w) (L ++ olds ns [w])%list.
  Proof. intros G. destruct (G w (or_introl eq_refl)) as [A B]. apply goes_vocab; auto. Qed.

  Lemma gained_app L l l' : gained L (l ++ l') -> gained L l /\ gained (L ++ olds ns l) l'.
  Proof.
    assert (O : olds ns (l ++ l') = (olds ns l ++ olds ns l')%list) by (unfold olds; rewrite filter_app, flat_map_app; reflexivity).
    intro G. split; intros w Hw; (assert (I : In w (l ++ l')) by (apply in_or_app; tauto)); destruct (G w I) as [A B]; (split; [exact A|]); intros X Y; apply (B X); rewrite O.
    - apply in_app_or in Y. apply in_or_app. destruct Y; [auto|]. right. apply in_or_app. auto.
    - rewrite <- app_assoc in Y. exact Y.
  Qed.

  Lemma olds_app l l' : olds ns (l ++ l') = (olds ns l ++ olds ns l')%list.
  Proof. unfold olds. rewrite filter_app, flat_map_app. reflexivity. Qed.

  Lemma goes_2_0 L marked opts : update_vocabularies opts = true -> gained L [event_type] -> goes L (cybox_2_0_step marked opts) (L ++ olds ns [event_type])%list.
  Proof.
    intros U G. unfold cybox_2_0_step. do 3 (eapply goes_cons; [one|]).
    eapply goes_cons; [apply goes_when; [exact U|]; exact (goes_one L event_type G)|]. apply goes_nil.
  Qed.

  Lemma goes_2_0_1 L marked opts : update_vocabularies opts = true -> gained L [object_relationship; tool_type; action_name] ->
    goes L (cybox_2_0_1_step marked opts) (L ++ olds ns [object_relationship; tool_type; action_name])%list.
  Proof.
    intros U G. unfold cybox_2_0_1_step. do 11 (eapply goes_cons; [one|]).
    eapply goes_cons; [apply goes_when; [exact U|]; exact (goes_vocabs _ L G)|].
    eapply goes_cons; [apply goes_may; one|]. apply goes_nil.
  Qed.

  Lemma goes_stix L o opts v f : stix_step o opts v = Some f -> v <> "1.2" -> update_vocabularies opts = true -> gained L (stix_vocabularies v) ->
    goes L f (L ++ olds ns (stix_vocabularies v))%list.
  Proof.
    intros H N U G. unfold stix_step in H. by_version H; try congruence.
    - change (stix_vocabularies "1.0") with ([event_type] ++ [motivation_1_0_1; operational_support])%list in *.
      apply gained_app in G as [G1 G2]. rewrite olds_app, app_assoc. unfold stix_1_0_step.
      eapply goes_cons; [apply goes_2_0; auto|]. do 2 (eapply goes_cons; [one|]).
      eapply goes_cons; [apply goes_when; [exact U|]; exact (goes_vocabs _ _ G2)|]. apply goes_nil.
    - change (stix_vocabularies "1.0.1") with ([object_relationship; tool_type; action_name] ++ [motivation_1_1; indicator_type])%list in *.
      apply gained_app in G as [G1 G2]. rewrite olds_app, app_assoc. unfold stix_1_0_1_step.
      eapply goes_cons; [apply goes_2_0_1; auto|]. do 4 (eapply goes_cons; [one|]).
      eapply goes_cons; [apply goes_when; [exact U|]; exact (goes_vocabs _ _ G2)|].
      eapply goes_cons; [apply goes_may; one|]. apply goes_nil.
    - unfold stix_1_1_step. do 6 (eapply goes_cons; [one|]).
      eapply goes_cons; [apply goes_when; [exact U|]; exact (goes_one _ _ G)|].
      eapply goes_cons; [apply goes_may; one|]. apply goes_nil.
    - unfold stix_1_1_1_step. do 2 (eapply goes_cons; [one|]).
      eapply goes_cons; [apply goes_when; [exact U|]; exact (goes_one _ _ G)|]. apply goes_nil.
  Qed.

  Lemma goes_cybox L opts v f : cybox_step opts v = Some f -> update_vocabularies opts = true -> gained L (cybox_vocabularies v) ->
    goes L f (L ++ olds ns (cybox_vocabularies v))%list.
  Proof. intros H U G. unfold cybox_step in H. by_version H; [apply goes_2_0|apply goes_2_0_1]; auto. Qed.

  (** The step to 1.2.1. *)
  Definition reads_later (a u : string) : Prop := In u (if String.eqb ns stix_terms then [stix_terms; later_terms] else [ns]) <-> P a.
  Definition arrived (L : list string) (t : tree) : Prop := all (fine reads_later P (fun n => In n L)) t.

  Lemma reads_lasts a u : reads a u -> reads_later a u.
  Proof.
    intros [A B]. unfold reads_later. rewrite <- A. clear A. destruct Hns as [<-|[<-|[]]].
    - change (In u [stix_terms; later_terms] <-> u = stix_terms). split; [intros [X|[X|[]]]; congruence|left; auto].
    - change (In u [cybox_terms] <-> u = cybox_terms). split; [intros [X|[]]; congruence|left; auto].
  Qed.

  Lemma going_arrived L t : going L t -> arrived L t.
  Proof.
    intros [_ _ _ G] x Hx. destruct (G x Hx) as (D & S & F). split; [exact D|]. split; [|exact F]. intros a u I. apply reads_lasts. auto.
  Qed.

  Lemma reads_renamed a u : reads a u -> reads_later a u /\ reads_later a (new_ns stix_1_2_ns_map u).
  Proof.
    intro H. split; [apply reads_lasts; exact H|]. unfold new_ns, lookup. destruct (dict_get u stix_1_2_ns_map) as [w|] eqn:G; [|apply reads_lasts; exact H].
    apply Located.dict_get_pair in G. destruct H as [A B]. unfold reads_later.
    assert (K : In w (if String.eqb ns stix_terms then [stix_terms; later_terms] else [ns]) <-> u = ns).
    { clear - G Hns. destruct Hns as [<-|[<-|[]]]; cbn [String.eqb]; unfold stix_1_2_ns_map in G; simpl in G;
        repeat (destruct G as [G|G]; [injection G as <- <-; split; [intro X; vm_compute in X; intuition discriminate|intro X; first [discriminate X|vm_compute; auto]]|]); destruct G. }
    rewrite K. exact A.
  Qed.

  Lemma arrives L t e : stix_1_2_step t = Ok e -> going L t -> arrived L e.
  Proof.
    intros E [G1 G2 G3 G4]. unfold stix_1_2_step in E. apply in_order_ok in E as (m1 & E1 & E). apply namespaces_ok in E1 as ->.
    assert (A : arrived L (ns_pass [] stix_1_2_ns_map [] t)) by (eapply fine_ns; [exact G1|exact reads_renamed|exact G4]).
    refine ((_ : invariant (fine reads_later P (fun n => In n L)) _) _ _ E A).
    apply invariant_cons; [apply fine_loc|]. apply invariant_cons; [|apply invariant_nil].
    apply invariant_on_root. intros h H. apply fine_set; auto. discriminate.
  Qed.
End Steps.

(** ** Labels and cleaning *)

Section Whole.
  Variables (ns : string) (P : string -> Prop).
  Hypothesis Hns : In ns [stix_terms; cybox_terms].
  Hypothesis Pc : ~ P "stixCommon".
  Hypothesis Pi : ~ P "indicator".
  Notation going := (going ns P).
  Notation arrived := (arrived ns P).

  Lemma fine_blind R Old h : fine R P Old (set_id 0 h) <-> fine R P Old h.
  Proof. reflexivity. Qed.
  Lemma robust_fine R Old : robust (fine R P Old).
  Proof. split; [apply fine_blind|]. intros v h H. apply fine_set; auto. discriminate. Qed.

  Lemma attr_erase k t : attr_of k (head (erase t)) = attr_of k (head t).
  Proof. destruct t. reflexivity. Qed.

  Lemma cleaned_root k f g d t : k <> lq "id" -> attr_of k (head (erase (cleaned f g d t))) = attr_of k (head t).
  Proof.
    intro N. rewrite attr_erase. unfold cleaned, without, prune, fresh_ids. destruct t as [h ks]. cbn [edit subst_nodes head].
    destruct (position _ _); [|reflexivity]. destruct (id_of _); [|reflexivity]. apply attr_of_set. congruence.
  Qed.

  Lemma going_single L c D f new_id force g n t oc : single c D f new_id force g (numbered n t) = Ok oc -> going L t ->
    exists t1, f t1 = Ok (new_document oc) /\ going L t1.
  Proof.
    intros E [G1 G2 G3 G4]. destruct (single_worked _ _ _ _ _ _ _ _ E) as (t1 & F & Fit & W). exists t1. split; [exact F|].
    assert (K : robust unmarked) by (apply robust_known; discriminate).
    assert (Hn : head (erase (numbered n t)) = head (erase t)) by (rewrite numbered_erase; reflexivity).
    constructor.
    - rewrite (proj2 Fit). clear - G1 Hn. unfold is_elem in *. destruct (numbered n t), t. cbn in *. injection Hn as -> _ _ _ _ _ _. exact G1.
    - assert (R : attr_of TAG_XSI_TYPE (head (numbered n t)) = None) by (rewrite <- attr_erase, Hn, attr_erase; exact G2).
      destruct W as [->|(_ & dt & _ & ->)]; [rewrite attr_erase; exact R|]. rewrite cleaned_root by discriminate. exact R.
    - apply Fit; [exact K|]. apply all_numbered; [apply K|exact G3].
    - apply Fit; [apply robust_fine|]. apply all_numbered; [apply fine_blind|exact G4].
  Qed.

  Definition compatible (L : list string) (l : list vocab) : Prop := forall w, In w l -> v_namespace w = ns -> ~ In (v_new_type w) L.
  Definition disjoint_types (l l' : list vocab) : bool :=
    forallb (fun w => negb (mem_str (v_new_type w) (flat_map v_old_types l))) l'.

  Lemma olds_in n l : In n (olds ns l) -> In n (flat_map v_old_types l).
  Proof. unfold olds. rewrite !in_flat_map. intros (w & I & H). apply filter_In in I as [I _]. eauto. Qed.

  Lemma compatible_after L l l' : compatible L l' -> disjoint_types l l' = true -> compatible (L ++ olds ns l) l'.
  Proof.
    intros C D w Iw E I. apply in_app_or in I as [I|I]; [exact (C w Iw E I)|]. apply olds_in, mem_str_In in I.
    unfold disjoint_types in D. rewrite forallb_forall in D. specialize (D w Iw). rewrite I in D. discriminate.
  Qed.

  Lemma compatible_gained L l : incl l vocabularies -> compatible L l -> disjoint_types l l = true -> gained ns L l.
  Proof. intros I C D w Iw. split; [exact (I w Iw)|]. exact (compatible_after L l l C D w Iw). Qed.

  Lemma stix_known_terms v : incl (stix_vocabularies v) vocabularies /\ disjoint_types (stix_vocabularies v) (stix_vocabularies v) = true.
  Proof.
    unfold stix_vocabularies. destruct (dict_get v _) as [l|] eqn:E; [|split; [intros ? []|reflexivity]].
    apply Located.dict_get_pair in E. repeat (destruct E as [E|E]; [injection E as _ <-; split; [intros w H; simpl in H; unfold vocabularies; simpl; tauto|reflexivity]|]). destruct E.
  Qed.
  Lemma cybox_known_terms v : incl (cybox_vocabularies v) vocabularies /\ disjoint_types (cybox_vocabularies v) (cybox_vocabularies v) = true.
  Proof.
    unfold cybox_vocabularies. destruct (dict_get v _) as [l|] eqn:E; [|split; [intros ? []|reflexivity]].
    apply Located.dict_get_pair in E. repeat (destruct E as [E|E]; [injection E as _ <-; split; [intros w H; simpl in H; unfold vocabularies; simpl; tauto|reflexivity]|]). destruct E.
  Qed.

  Lemma stix_order l1 v vs b l3 : STIX_VERSIONS = (l1 ++ (v :: vs) ++ b :: l3)%list ->
    (v = "1.2" -> vs = []) /\ (forall v', In v' vs -> disjoint_types (stix_vocabularies v) (stix_vocabularies v') = true) /\
    STIX_VERSIONS = ((l1 ++ [v]) ++ vs ++ b :: l3)%list.
  Proof.
    intro E. split; [|split; [|rewrite <- app_assoc; exact E]];
      unfold STIX_VERSIONS in *; repeat (destruct l1 as [|? l1]; cbn [app] in E; [injection E as E0 E; subst v|injection E as ? E]); try (destruct l1; discriminate E);
      try (intro X; discriminate X); try (destruct vs as [|? [|? vs]]; [reflexivity|discriminate E|discriminate E]).
    all: intros v' I; repeat (destruct vs as [|? vs]; [simpl in I; tauto|]; cbn [app] in E; injection E as <- E;
           destruct I as [<-|I]; [reflexivity|]); try (destruct vs; discriminate E).
    all: try destruct I.
  Qed.

  Lemma stix_chain_arrives o opts force b l3 : update_vocabularies opts = true -> forall vs l1 L g t e l ds,
    STIX_VERSIONS = (l1 ++ vs ++ b :: l3)%list -> going L t -> (forall v, In v vs -> compatible L (stix_vocabularies v)) ->
    chain (stix_single o opts force) vs g t = Ok (e, l, ds) -> arrived (L ++ olds ns (flat_map stix_vocabularies vs))%list e.
  Proof.
    intro U. induction vs as [|v vs IH]; intros l1 L g t e l ds B G C E.
    - injection E as <- _ _. cbn [flat_map]. change (olds ns []) with (@nil string). rewrite app_nil_r. apply going_arrived; auto.
    - destruct (stix_order _ _ _ _ _ B) as (La & Di & B'). cbn [chain] in E.
      destruct (stix_single o opts force v g (numbered 0 t)) as [oc|y] eqn:One; cbn [rbind] in E; [|discriminate].
      destruct (chain (stix_single o opts force) vs (g + replacements oc) (new_document oc)) as [[[e' l'] ds']|y] eqn:Ch; cbn [rbind] in E; [|discriminate].
      injection E as -> _ _. unfold stix_single in One. destruct (stix_check o opts v) as [chk|]; [|discriminate One]. destruct (stix_dirt o v) as [dirt|]; [|discriminate One]. destruct (stix_step o opts v) as [f|] eqn:Sf; [|discriminate One].
      destruct (going_single L _ _ _ _ _ _ _ _ _ One G) as (t1 & F & G1).
      destruct (String.eqb_spec v "1.2") as [->|Nv].
      + pose proof (La eq_refl) as ->. injection Ch as <- _ _. change (flat_map stix_vocabularies ["1.2"]) with (@nil vocab).
        change (olds ns []) with (@nil string). rewrite app_nil_r. injection Sf as <-. eapply arrives; eauto.
      + destruct (stix_known_terms v) as [Iv Dv]. pose proof (C v (or_introl eq_refl)) as Cv.
        pose proof (goes_stix ns P Hns Pc Pi L o opts v f Sf Nv U (compatible_gained _ _ Iv Cv Dv) _ _ F G1) as G2.
        cbn [flat_map]. rewrite olds_app, app_assoc. eapply IH; [exact B'|exact G2| |exact Ch].
        intros v' I. apply compatible_after; [apply C; right; exact I|apply Di; exact I].
  Qed.

  Lemma cybox_order l1 v vs b l3 : CYBOX_VERSIONS = (l1 ++ (v :: vs) ++ b :: l3)%list ->
    (forall v', In v' vs -> disjoint_types (cybox_vocabularies v) (cybox_vocabularies v') = true) /\
    CYBOX_VERSIONS = ((l1 ++ [v]) ++ vs ++ b :: l3)%list.
  Proof.
    intro E. split; [|rewrite <- app_assoc; exact E].
    unfold CYBOX_VERSIONS in *; repeat (destruct l1 as [|? l1]; cbn [app] in E; [injection E as E0 E; subst v|injection E as ? E]); try (destruct l1; discriminate E).
    all: intros v' I; repeat (destruct vs as [|? vs]; [simpl in I; tauto|]; cbn [app] in E; injection E as <- E;
           destruct I as [<-|I]; [reflexivity|]); try (destruct vs; discriminate E).
    all: try destruct I.
  Qed.

  Lemma cybox_chain_arrives opts force b l3 : update_vocabularies opts = true -> forall vs l1 L g t e l ds,
    CYBOX_VERSIONS = (l1 ++ vs ++ b :: l3)%list -> going L t -> (forall v, In v vs -> compatible L (cybox_vocabularies v)) ->
    chain (cybox_single opts force) vs g t = Ok (e, l, ds) -> arrived (L ++ olds ns (flat_map cybox_vocabularies vs))%list e.
  Proof.
    intro U. induction vs as [|v vs IH]; intros l1 L g t e l ds B G C E.
    - injection E as <- _ _. cbn [flat_map]. change (olds ns []) with (@nil string). rewrite app_nil_r. apply going_arrived; auto.
    - destruct (cybox_order _ _ _ _ _ B) as (Di & B'). cbn [chain] in E.
      destruct (cybox_single opts force v g (numbered 0 t)) as [oc|y] eqn:One; cbn [rbind] in E; [|discriminate].
      destruct (chain (cybox_single opts force) vs (g + replacements oc) (new_document oc)) as [[[e' l'] ds']|y] eqn:Ch; cbn [rbind] in E; [|discriminate].
      injection E as -> _ _. unfold cybox_single in One. destruct (cybox_check opts v) as [chk|]; [|discriminate One]. destruct (cybox_dirt v) as [dirt|]; [|discriminate One]. destruct (cybox_step opts v) as [f|] eqn:Sf; [|discriminate One].
      destruct (going_single L _ _ _ _ _ _ _ _ _ One G) as (t1 & F & G1).
      destruct (cybox_known_terms v) as [Iv Dv]. pose proof (C v (or_introl eq_refl)) as Cv.
      pose proof (goes_cybox ns P Hns L opts v f Sf U (compatible_gained _ _ Iv Cv Dv) _ _ F G1) as G2.
      cbn [flat_map]. rewrite olds_app, app_assoc. eapply IH; [exact B'|exact G2| |exact Ch].
      intros v' I. apply compatible_after; [apply C; right; exact I|apply Di; exact I].
  Qed.

  (** Reading the result. *)
  Lemma arrived_names L t anc x u n : arrived L t -> In (anc, x) (visits [] t) -> is_elem x = true ->
    In u (if String.eqb ns stix_terms then [stix_terms; later_terms] else [ns]) -> In n L -> type_named (x :: anc) <> Some (Some u, n).
  Proof.
    intros A V El Iu In T. cbn [type_named] in T. unfold type_read in T. change xsi_type with TAG_XSI_TYPE in T.
    destruct (attr_of TAG_XSI_TYPE (head x)) as [s|] eqn:Ex; [|discriminate].
    assert (Hx : List.In x (nodes t)) by (apply nodes_in; eauto). destruct (A x Hx) as (_ & _ & Fr).
    assert (Kx : h_kind (head x) = KElem) by (unfold is_elem in El; destruct (h_kind (head x)); congruence).
    destruct (split_char ":" s) as [|a [|m [|]]] eqn:Sp; try discriminate.
    destruct (meaning a (x :: anc)) as [w|] eqn:M; [|discriminate]. injection T as <- <-.
    rewrite meaning_env in M. apply env_get_pair, in_flat_map in M as (z & Iz & Dz).
    destruct (A z (visits_line _ _ _ _ V Iz)) as (_ & Sz & _). apply (Sz _ _) in Dz. apply (Fr Kx s a m Ex Sp); auto. apply Dz. exact Iu.
  Qed.
End Whole.

(** ** The start *)

Lemma going_start t ns : In ns [stix_terms; cybox_terms] -> is_elem t = true -> untyped_root t -> distinct_attributes t -> sources_without_markup t ->
  clear_prefixes t -> going ns (fun a => declared t a ns) [] t.
Proof.
  intros Hns El Ro Di So (C1 & C2 & C3). constructor; [exact El|exact Ro|apply unmarked_clear; exact So|].
  intros x Hx. split; [apply Di; exact Hx|]. split; [|intros _ s a n _ _ _ []].
  intros a u I. assert (Du : declared t a u) by (exists x; auto). split; [split|].
  - intros <-. exact Du.
  - intro Dn. eapply C1; eauto.
  - intros ->. exact (C3 _ Du).
Qed.

Lemma going_erase ns P L t : going ns P L t -> going ns P L (erase t).
Proof.
  intros [G1 G2 G3 G4]. assert (K : robust unmarked) by (apply robust_known; discriminate).
  constructor; [rewrite elem_erase; exact G1|rewrite attr_erase; exact G2| |]; (apply all_erase; [|assumption]); [apply K|apply fine_blind].
Qed.

Lemma vocabulary_terms v : In v vocabularies -> In (v_namespace v) [stix_terms; cybox_terms].
Proof. unfold vocabularies. intro H. simpl in H. repeat destruct H as [<-|H]; try (simpl; tauto). Qed.

Lemma olds_held v l n : In v l -> In n (v_old_types v) -> In n (olds (v_namespace v) l).
Proof. intros I J. unfold olds. apply in_flat_map. exists v. split; [|exact J]. apply filter_In. split; [exact I|]. unfold of_namespace. apply String.eqb_refl. Qed.

Lemma arrived_none l t e :
  incl l vocabularies -> clear_prefixes t ->
  (forall ns, In ns [stix_terms; cybox_terms] -> arrived ns (fun a => declared t a ns) (olds ns l) e) -> none_outdated l e.
Proof.
  intros Inc C A anc x v u n V El Iv Iu Io. pose proof (vocabulary_terms v (Inc v Iv)) as Hn.
  refine (arrived_names _ _ _ _ _ _ _ _ (A _ Hn) V El _ (olds_held v l n Iv Io)). exact Iu.
Qed.

Lemma guarded_prefix t ns : clear_prefixes t -> In ns [stix_terms; cybox_terms] -> ~ declared t "stixCommon" ns /\ ~ declared t "indicator" ns.
Proof. intros (_ & C & _) H. split; intro D; apply (C _ _ H D); simpl; auto. Qed.

Record sorted (t : tree) : Prop := Sorted {
  so_elem : is_elem t = true; so_root : untyped_root t; so_attr : distinct_attributes t;
  so_plain : sources_without_markup t; so_prefix : clear_prefixes t }.

Lemma stix_update_current o d from to opts force s t a vs r s' new :
  wf_state s -> denotes s d t -> sorted t -> update_vocabularies (or_default o opts) = true ->
  stix_start from t = Some a -> between STIX_VERSIONS a (match given to with Some b => b | None => "1.2.1" end) vs ->
  stix_update o d from to opts force s = (Ok r, s') -> document s' (r_document r) new ->
  none_outdated (flat_map stix_vocabularies vs) new.
Proof.
  intros W D [S1 S2 S3 S4 S5] U Sa B E Doc.
  pose proof (stix_update_runs o d from to opts force s t a vs W D Sa B) as Rn. unfold runs_chain in Rn.
  destruct (chain _ _ _ _) as [[[e l] ds]|y] eqn:Ch; [|destruct Rn as (n & s0 & E0); rewrite E in E0; discriminate E0].
  destruct Rn as (r0 & s0 & ns0 & E0 & W' & De & _). rewrite E in E0. injection E0 as <- <-.
  rewrite (document_unique _ _ _ _ W' Doc De). apply (arrived_none _ t).
  - intros v I. apply in_flat_map in I as (w & _ & I). exact (proj1 (stix_known_terms w) v I).
  - exact S5.
  - intros ns Hn. destruct (guarded_prefix t ns S5 Hn) as [P1 P2]. destruct B as (l1 & l2 & l3 & B & _).
    change (olds ns (flat_map stix_vocabularies vs)) with ([] ++ olds ns (flat_map stix_vocabularies vs))%list.
    eapply (stix_chain_arrives ns _ Hn P1 P2); [exact U|exact B|apply going_erase, going_start; eauto| |exact Ch]. intros v _ w _ _ [].
Qed.

Lemma cybox_update_current o d from to opts force s t a vs r s' new :
  wf_state s -> denotes s d t -> sorted t -> update_vocabularies (or_default o opts) = true ->
  cybox_start from t = Some a -> between CYBOX_VERSIONS a (match given to with Some b => b | None => "2.1" end) vs ->
  cybox_update o d from to opts force s = (Ok r, s') -> document s' (r_document r) new ->
  none_outdated (flat_map cybox_vocabularies vs) new.
Proof.
  intros W D [S1 S2 S3 S4 S5] U Sa B E Doc.
  pose proof (cybox_update_runs o d from to opts force s t a vs W D Sa B) as Rn. unfold runs_chain in Rn.
  destruct (chain _ _ _ _) as [[[e l] ds]|y] eqn:Ch; [|destruct Rn as (n & s0 & E0); rewrite E in E0; discriminate E0].
  destruct Rn as (r0 & s0 & ns0 & E0 & W' & De & _). rewrite E in E0. injection E0 as <- <-.
  rewrite (document_unique _ _ _ _ W' Doc De). apply (arrived_none _ t).
  - intros v I. apply in_flat_map in I as (w & _ & I). exact (proj1 (cybox_known_terms w) v I).
  - exact S5.
  - intros ns Hn. destruct B as (l1 & l2 & l3 & B & _).
    change (olds ns (flat_map cybox_vocabularies vs)) with ([] ++ olds ns (flat_map cybox_vocabularies vs))%list.
    eapply (cybox_chain_arrives ns _ Hn); [exact U|exact B|apply going_erase, going_start; eauto| |exact Ch]. intros v _ w _ _ [].
Qed.
