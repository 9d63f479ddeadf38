(** * Proofs: an update does not multiply attributes. *)

From Coq Require Import String Ascii List Bool Arith Lia.
From Verif Require Import Str Xml XPath Utils Base Tables Cybox Stix Ramrod Spec SpecDoc SpecPass SpecStep
  SpecCheck SpecClean SpecUpdate SpecTrace SpecIds SpecCount Lib Api Frame Refine RefineBase RefineTrans RefineLists RefineSteps RefineCheck
  RefineClean Relabel RefineUpdate Updates Reports UpdateFacts Trace Fields Carried Vocab Marks Worked Follow Natural Root Kept Declared
  Cleaned Located Scripts SpecFault Faults Chained Translated Ids Refs.
Import ListNotations.
Local Open Scope string_scope.
Local Open Scope list_scope.

Section Tally.
  Variables (k : qname) (w : string).

  Definition tl (l : list (qname * string)) : nat :=
    length (filter (fun a => qn_eqb (fst a) k && String.eqb (snd a) w) l).

  Definition sum (f : tree -> nat) (l : list tree) : nat := fold_right (fun x n => f x + n) 0 l.

  Fixpoint tally (t : tree) : nat :=
    match t with Node h ks => tl (h_attr h) + fold_right (fun x n => tally x + n) 0 ks end.

  Lemma tally_node h ks : tally (Node h ks) = tl (h_attr h) + sum tally ks.
  Proof. reflexivity. Qed.

  Lemma tl_app a b : tl (a ++ b) = tl a + tl b.
  Proof. unfold tl. rewrite filter_app, app_length. reflexivity. Qed.

  Lemma tally_occurrences t : occurrences k w t = tally t.
  Proof.
    change (occurrences k w t) with (tl (attributes_in t)). unfold attributes_in. tree_induction t.
    cbn [nodes flat_map head]. rewrite tl_app, tally_node. f_equal. induction ks as [|x ks IHk]; auto.
    cbn [flat_map sum fold_right]. rewrite flat_map_app, tl_app. rewrite (IH x) by (left; reflexivity). f_equal. apply IHk.
    intros y Hy. apply IH. right. exact Hy.
  Qed.

  Lemma sum_app f a b : sum f (a ++ b) = sum f a + sum f b.
  Proof. induction a as [|x a IH]; auto. cbn [app sum fold_right] in *. fold (sum f (a ++ b)). rewrite IH. unfold sum. lia. Qed.

  Lemma sum_map_le (g : tree -> tree) l : (forall x, In x l -> tally (g x) <= tally x) -> sum tally (map g l) <= sum tally l.
  Proof.
    induction l as [|x l IH]; intro H; auto. cbn [map sum fold_right]. apply Nat.add_le_mono; [apply H; left; auto|].
    apply IH. intros y Hy. apply H. right. exact Hy.
  Qed.

  Lemma sum_flat_le (g : tree -> list tree) l : (forall x, In x l -> sum tally (g x) <= tally x) -> sum tally (flat_map g l) <= sum tally l.
  Proof.
    induction l as [|x l IH]; intro H; auto. cbn [flat_map]. rewrite sum_app. cbn [sum fold_right].
    apply Nat.add_le_mono; [apply H; left; auto|]. apply IH. intros y Hy. apply H. right. exact Hy.
  Qed.

  Lemma sum_in x l : In x l -> tally x <= sum tally l.
  Proof.
    induction l as [|y l IH]; intros []; cbn [sum fold_right].
    - subst y. lia.
    - apply IH in H. unfold sum in H. lia.
  Qed.

  (** ** Attribute lists *)

  Definition mine (q : qname) (v : string) : nat := if qn_eqb q k && String.eqb v w then 1 else 0.

  Lemma tl_cons q v l : tl ((q, v) :: l) = mine q v + tl l.
  Proof. unfold tl, mine. cbn [filter fst snd]. destruct (_ && _); reflexivity. Qed.

  Lemma tl_set q v l : tl (attr_set q v l) <= mine q v + tl l.
  Proof.
    induction l as [|[a b] l IH].
    - cbn [attr_set]. rewrite tl_cons. auto.
    - cbn [attr_set]. destruct (qn_eqb q a) eqn:E; rewrite !tl_cons; [apply qn_eqb_eq in E; subst a|]; lia.
  Qed.

  Lemma mine_other q v : k <> q -> mine q v = 0.
  Proof. intro N. unfold mine. destruct (qn_eqb q k) eqn:E; auto. apply qn_eqb_eq in E. congruence. Qed.

  Lemma tl_set_other q v l : k <> q -> tl (attr_set q v l) <= tl l.
  Proof. intro N. pose proof (tl_set q v l) as H. rewrite (mine_other q v N) in H. exact H. Qed.

  Lemma tl_del q l : tl (attr_del q l) <= tl l.
  Proof. induction l as [|[a b] l IH]; auto. cbn [attr_del]. destruct (qn_eqb q a); rewrite ?tl_cons; lia. Qed.

  Lemma tl_update l : forall e, tl (attr_update e l) <= tl e + tl l.
  Proof.
    unfold attr_update. induction l as [|[a b] l IH]; intro e; [apply Nat.le_add_r|]. cbn [fold_left fst snd]. rewrite tl_cons.
    pose proof (IH (attr_set a b e)) as H. pose proof (tl_set a b e). lia.
  Qed.

  (** ** Documents *)

  Lemma tally_edit f : (forall b y, tl (h_attr (f b y)) <= tl (h_attr (head y))) -> forall t anc, tally (edit f anc t) <= tally t.
  Proof.
    intros H t. tree_induction t. intro anc. cbn [edit]. rewrite !tally_node. apply Nat.add_le_mono; [apply (H anc (Node h ks))|].
    apply sum_map_le. intros x Hx. apply IH. exact Hx.
  Qed.

  Lemma tally_subst F : (forall b x l, F b x = Some l -> sum tally l <= tally x) -> forall t anc, tally (subst_nodes F anc t) <= tally t.
  Proof.
    intros H t. tree_induction t. intro anc. cbn [subst_nodes]. rewrite !tally_node. apply Nat.add_le_mono_l.
    apply sum_flat_le. intros x Hx. destruct (F _ x) as [l|] eqn:E; [eapply H; eauto|]. cbn [sum fold_right]. rewrite Nat.add_0_r. apply IH. exact Hx.
  Qed.

  Lemma tally_subst_on (A : tree -> Prop) F : (forall x c, A x -> In c (kids x) -> A c) ->
    (forall b x l, A x -> F b x = Some l -> sum tally l <= tally x) -> forall t anc, A t -> tally (subst_nodes F anc t) <= tally t.
  Proof.
    intros Hd H t. tree_induction t. intros anc At. cbn [subst_nodes]. rewrite !tally_node. apply Nat.add_le_mono_l.
    apply sum_flat_le. intros x Hx. pose proof (Hd _ x At Hx) as Ax.
    destruct (F _ x) as [l|] eqn:E; [eapply H; eauto|]. cbn [sum fold_right]. rewrite Nat.add_0_r. apply IH; auto.
  Qed.

  Lemma tally_ns drop m t : forall anc, tally (ns_pass drop m anc t) <= tally t.
  Proof.
    tree_induction t. intro anc. cbn [ns_pass]. rewrite !tally_node. apply Nat.add_le_mono.
    - destruct (moves m (Node h ks)); auto. cbn [rebuilt h_attr head]. exact (tl_update (h_attr h) []).
    - apply sum_map_le. intros x Hx. destruct (is_elem x); auto.
  Qed.

  Lemma tally_kids t : sum tally (kids t) <= tally t.
  Proof. destruct t as [h ks]. rewrite tally_node. cbn [kids]. lia. Qed.

  Lemma tally_element q ks : tally (element q ks) = sum tally ks.
  Proof. reflexivity. Qed.

  Lemma tally_renamed q t : tally (renamed_to q t) = tally t.
  Proof. destruct t. reflexivity. Qed.

  (** ** Passes *)

  Notation K := (known k (fun _ => True)).
  Hypothesis Hk : ~ In k set_by_steps.
  Hypothesis Hd : k <> lq "datatype".

  Definition fewer (f : tree -> res tree) : Prop := forall t e, f t = Ok e -> all K t -> tally e <= tally t.
  Definition good (f : tree -> res tree) : Prop := invariant K f /\ fewer f.

  Lemma good_cons f l : good f -> good (in_order l) -> good (in_order (f :: l)).
  Proof.
    intros [A B] [C D]. split; [apply invariant_cons; auto|]. intros t e E R. apply in_order_ok in E as (m & E1 & E2).
    pose proof (B _ _ E1 R). pose proof (D _ _ E2 (A _ _ E1 R)). lia.
  Qed.
  Lemma good_nil : good (in_order []).
  Proof. split; [apply invariant_nil|]. intros t e E _. rewrite in_order_nil in E. injection E as <-. auto. Qed.
  Lemma good_when b f : good f -> good (when b f).
  Proof. intros [A B]. split; [apply invariant_when; exact A|]. intros t e E R. destruct b; [eauto|]. injection E as <-. auto. Qed.
  Lemma good_passes {A} (f : A -> tree -> res tree) l : (forall x, In x l -> good (f x)) -> good (passes f l).
  Proof.
    intro H. split; [apply invariant_passes; intros x Hx; exact (proj1 (H x Hx))|]. revert H.
    induction l as [|x l IH]; intros H t e E R.
    - injection E as <-. auto.
    - rewrite passes_cons in E. destruct (f x t) as [m|] eqn:E1; [|discriminate].
      destruct (H x (or_introl eq_refl)) as [A1 B1]. pose proof (B1 _ _ E1 R).
      pose proof (IH (fun y Hy => H y (or_intror Hy)) _ _ E (A1 _ _ E1 R)). lia.
  Qed.

  Lemma fewer_edit f : (forall b y, tl (h_attr (f b y)) <= tl (h_attr (head y))) -> fewer (always (edit f [])).
  Proof. intros H t e E _. injection E as <-. apply tally_edit. exact H. Qed.
  Lemma fewer_where p g : (forall h, tl (h_attr (g h)) <= tl (h_attr h)) -> fewer (always (edit_where p g)).
  Proof. intro H. apply fewer_edit. intros b y. destruct (p b y); auto. Qed.
  Lemma fewer_root g : (forall h, tl (h_attr (g h)) <= tl (h_attr h)) -> fewer (always (on_root g)).
  Proof. intros H t e E _. injection E as <-. destruct t as [h ks]. unfold on_root. cbn [head kids]. rewrite !tally_node. apply Nat.add_le_mono_r, H. Qed.
  Lemma fewer_prune p t : tally (prune p t) <= tally t.
  Proof. apply tally_subst. intros b x l E. destruct (p b x); [|discriminate]. injection E as <-. cbn. lia. Qed.
  Lemma fewer_rewrite p G : (forall b x e, p b x = true -> G x = Ok e -> all K x -> tally e <= tally x) -> fewer (rewrite_all p G).
  Proof.
    intros H t e E R. unfold rewrite_all in E. destruct (first_err _ _); [discriminate|]. injection E as <-.
    apply (tally_subst_on (all K)); auto.
    - intros x c Ax Hc. eapply kid_all; eauto.
    - intros b x l Ax E. destruct (p b x) eqn:P; [|discriminate]. destruct (G x) as [e|] eqn:G1; [|discriminate]. injection E as <-.
      cbn [sum fold_right]. rewrite Nat.add_0_r. eapply H; eauto.
  Qed.

  Lemma set_le q v h : k <> q -> tl (h_attr (hset_attr q v h)) <= tl (h_attr h).
  Proof. apply tl_set_other. Qed.
  Lemma del_le q h : tl (h_attr (hdel_attr q h)) <= tl (h_attr h).
  Proof. apply tl_del. Qed.

  Lemma good_loc drop m1 m2 : good (always (schemaloc_pass drop m1 m2)).
  Proof. split; [apply known_loc; auto|]. apply fewer_root. intro h. destruct (attr_get _ _); auto. apply set_le. apart. Qed.
  Lemma good_lists a b : good (always (lists_pass a b)).
  Proof.
    split; [apply known_lists; auto|]. apply fewer_edit. intros c y. destruct (is_elem y); auto.
    generalize (properties_above a b c). induction n as [|n IH]; auto. cbn [repeat_edit]. unfold convert_text.
    destruct (h_text _); auto. destruct (String.eqb _ _); auto.
  Qed.
  Lemma good_stix_stamp p a b : good (always (edit_where p (stamp_stix a b))).
  Proof. split; [apply known_stix_stamp; auto|]. apply fewer_where. intro h. apply set_le. apart. Qed.
  Lemma good_stamp_1 p : good (always (edit_where p stamp_cybox_2_0_1)).
  Proof.
    split; [apply known_stamp_1; auto|]. apply fewer_where. intro h. unfold stamp_cybox_2_0_1.
    do 3 (etransitivity; [apply set_le; apart|]). auto.
  Qed.
  Lemma good_stamp_2 p : good (always (edit_where p stamp_cybox_2_1)).
  Proof.
    split; [apply known_stamp_2; auto|]. apply fewer_where. intro h. unfold stamp_cybox_2_1. etransitivity; [apply del_le|].
    do 2 (etransitivity; [apply set_le; apart|]). auto.
  Qed.
  Lemma good_rename old new : in_special new = false -> good (rename old new).
  Proof. intro N. split; [apply known_rename; auto|]. apply fewer_where. auto. Qed.
  Lemma good_version : good (always (on_root (hset_attr (lq "version") "1.2.1"))).
  Proof. split; [apply invariant_on_root; intros h H; apply known_set; auto; apart|]. apply fewer_root. intro h. apply set_le. apart. Qed.

  Lemma upgraded_le v c h : upgraded v c = Ok h -> tl (h_attr h) <= tl (h_attr (head (snd c))).
  Proof.
    unfold upgraded. destruct (type_of c) as [i|]; [|discriminate]. cbn [rbind]. unfold upgraded_with. set (h0 := head (snd c)).
    assert (SIP : forall q s a h1 h2, k <> q -> set_if_present q s a h1 = Ok h2 -> tl (h_attr h2) <= tl (h_attr h1)).
    { intros q s a h1 h2 N X. unfold set_if_present in X. destruct (has_attr q a); [|injection X as <-; auto].
      destruct s; [|discriminate]. injection X as <-. apply set_le. exact N. }
    intro U. destruct (set_if_present (lq "vocab_reference") _ _ _) as [h1|] eqn:E1 in U; [|discriminate]. cbn [rbind] in U.
    destruct (set_if_present (lq "vocab_name") _ _ _) as [h2|] eqn:E2 in U; [|discriminate]. cbn [rbind] in U. injection U as <-.
    apply SIP in E1; [|apart]. apply SIP in E2; [|apart].
    transitivity (tl (h_attr h2)).
    - destruct (h_text h0); auto. destruct (dict_get _ _); auto.
    - rewrite E2, E1. apply set_le. apart.
  Qed.

  Lemma good_vocab v : clear_terms v = true -> good (vocab_pass v).
  Proof.
    intro C. split; [apply known_vocab; auto|]. intros t e E _. unfold vocab_pass in E.
    destruct (first_err _ _); [discriminate|]. destruct (first_err _ _); [discriminate|]. injection E as <-. apply tally_edit.
    intros b y. destruct (outdated v (b, y)); auto. destruct (upgraded v (b, y)) as [h|] eqn:U; auto. exact (upgraded_le _ _ _ U).
  Qed.
  Lemma good_vocabs l : forallb clear_terms l = true -> good (passes vocab_pass l).
  Proof. intro H. apply good_passes. intros v Hv. apply good_vocab. rewrite forallb_forall in H. auto. Qed.

  Lemma good_child_value q u : In q cybox_2_0_1_replaced -> good (rewrite_all (any_inside [q]) (value_of_child u)).
  Proof.
    intro N. split; [apply known_child_value; auto|]. apply fewer_rewrite. intros b x e _ E _. unfold value_of_child in E.
    destruct (filter _ _) as [|v l] eqn:F; [discriminate|]. injection E as <-.
    assert (Iv : In v (kids x)) by (assert (H : In v (filter (named u) (kids x))) by (rewrite F; left; auto); apply filter_In in H; tauto).
    rewrite tally_node. cbn [h_attr sum fold_right]. pose proof (tl_update (h_attr (head v)) []) as L. change (tl []) with 0 in L.
    pose proof (sum_in v _ Iv). pose proof (tally_kids x). destruct v as [hv kv]. rewrite tally_node in *. cbn [head] in *. lia.
  Qed.
  Lemma good_as_string q : In q cybox_2_0_1_replaced -> good (rewrite_all (any_inside [q]) as_string).
  Proof.
    intro N. split; [apply known_as_string; auto|]. apply fewer_rewrite. intros b x e _ E _. injection E as <-.
    destruct x as [h ks]. rewrite !tally_node. cbn [head h_attr sum fold_right]. pose proof (tl_update (h_attr h) []) as L. change (tl []) with 0 in L.
    destruct (has_attr _ _); [pose proof (tl_set_other (lq "datatype") "string" (attr_update [] (h_attr h)) Hd)|]; lia.
  Qed.
  Lemma good_unwrap a b c : In c cybox_2_0_1_replaced -> good (always (unwrap_pass a b c)).
  Proof.
    intro N. split; [apply known_unwrap; auto|]. intros t e E _. injection E as <-. apply tally_subst. intros d x l E.
    destruct (inside d && named _ x); [|discriminate]. destruct (filter _ (kids x)) as [|y ys] eqn:Fl; [discriminate|]. injection E as <-.
    assert (Hy : In y (kids x)) by (assert (H : In y (filter (named b) (kids x))) by (rewrite Fl; left; auto); apply filter_In in H; tauto).
    cbn [sum fold_right]. rewrite tally_renamed. pose proof (sum_in y _ Hy). pose proof (tally_kids x). lia.
  Qed.
  Lemma good_optional p : good (always (optional_pass p)).
  Proof. split; [apply known_optional|]. intros t e E _. injection E as <-. apply fewer_prune. Qed.
  Lemma good_optional_in a b : good (optional_in_type a b).
  Proof.
    split; [apply known_optional_in|]. intros t e E _. unfold optional_in_type in E. destruct (first_err _ _); [discriminate|]. injection E as <-.
    apply fewer_prune.
  Qed.
  Lemma good_contributing p u : in_special (qn u "Identity") = false -> good (rewrite_all p (contributing_sources u)).
  Proof.
    intro N. split; [apply known_contributing; auto|]. apply fewer_rewrite. intros b x e _ E _. unfold contributing_sources in E.
    destruct (forallb _ _); [|discriminate]. injection E as <-. rewrite tally_element. etransitivity; [|apply tally_kids].
    apply sum_map_le. intros c _. rewrite tally_element. cbn [sum fold_right]. rewrite tally_renamed. lia.
  Qed.
  Lemma good_wrap p q : good (rewrite_all p (wrap q)).
  Proof.
    split; [apply known_wrap|]. apply fewer_rewrite. intros b x e _ E _. injection E as <-. rewrite tally_element. cbn [sum fold_right]. lia.
  Qed.
  Lemma good_wrap_renamed p q n : in_special n = false -> good (rewrite_all p (wrap_renamed q n)).
  Proof.
    intro N. split; [apply known_wrap_renamed; auto|]. apply fewer_rewrite. intros b x e _ E _. injection E as <-.
    rewrite tally_element. cbn [sum fold_right]. rewrite tally_renamed. lia.
  Qed.
  Lemma good_ns drop m : foreign m = true -> good (namespaces_pass drop m).
  Proof. intro F. split; [apply known_ns; auto|]. intros t e E _. apply namespaces_ok in E as ->. apply tally_ns. Qed.
  Lemma good_structured o b p : (forall anc y, p anc y = true -> named_in [common "Source"; indicator "Source"] y = true) ->
    good (rewrite_all p (structured_source o b)).
  Proof.
    intro P. split; [apply known_structured; auto|]. apply fewer_rewrite. intros a x e Px E A. apply P in Px. unfold structured_source in E.
    assert (C : clear_text (match h_text (head x) with Some s => s | None => "None" end)).
    { destruct (h_text (head x)) as [s|] eqn:Es; [|split; reflexivity]. destruct (A x (nodes_self x)) as [_ B]. apply B; auto. }
    unfold parse_source in E. rewrite (clear_no_markup _ C) in E. destruct (chardata _) as [name|]; [|discriminate]. injection E as <-.
    destruct b; cbn; lia.
  Qed.

  Ltac one :=
    first [ apply good_loc | apply good_stix_stamp | apply good_stamp_1 | apply good_stamp_2
          | apply good_lists | apply good_rename; reflexivity | apply good_ns; vm_compute; reflexivity
          | apply good_child_value; simpl; tauto | apply good_as_string; simpl; tauto
          | apply good_structured; intros ? ? X; eapply child_in_source; [|exact X]; simpl; tauto
          | apply good_contributing; reflexivity
          | apply good_wrap | apply good_wrap_renamed; reflexivity | apply good_unwrap; simpl; tauto
          | apply good_optional | apply good_optional_in | apply good_vocabs; vm_compute; reflexivity | apply good_vocab; vm_compute; reflexivity
          | apply good_version ].
  Ltac each :=
    repeat match goal with
           | |- good (in_order (_ :: _)) => apply good_cons
           | |- good (in_order []) => apply good_nil
           | |- good (when _ _) => apply good_when
           | |- good _ => one
           end.

  Lemma good_2_0 marked opts : good (cybox_2_0_step marked opts).
  Proof. unfold cybox_2_0_step. each. Qed.
  Lemma good_2_0_1 marked opts : good (cybox_2_0_1_step marked opts).
  Proof. unfold cybox_2_0_1_step. each. Qed.

  Lemma stix_step_good o opts v f : stix_step o opts v = Some f -> good f.
  Proof.
    intro E. unfold stix_step in E. by_version E.
    - unfold stix_1_0_step. each. apply good_2_0.
    - unfold stix_1_0_1_step. each. apply good_2_0_1.
    - unfold stix_1_1_step. each.
    - unfold stix_1_1_1_step. each.
    - unfold stix_1_2_step. each.
  Qed.
  Lemma cybox_step_good opts v f : cybox_step opts v = Some f -> good f.
  Proof. intro E. unfold cybox_step in E. by_version E; [apply good_2_0|apply good_2_0_1]. Qed.

  (** ** Whole updates *)

  Lemma tally_erase t : tally (erase t) = tally t.
  Proof.
    clear. tree_induction t. cbn [erase]. rewrite !tally_node. f_equal. induction ks as [|x ks IHk]; auto. cbn [map sum fold_right].
    rewrite (IH x) by (left; reflexivity). f_equal. apply IHk. intros y Hy. apply IH. right. exact Hy.
  Qed.
  Lemma tally_numbered n t : tally (numbered n t) = tally t.
  Proof. rewrite <- (tally_erase (numbered n t)), numbered_erase. apply tally_erase. Qed.

  Lemma mine_value q v : v <> w -> mine q v = 0.
  Proof. intro N. unfold mine. apply String.eqb_neq in N. rewrite N, andb_false_r. reflexivity. Qed.

  (** No id drawn is [w]. *)
  Definition apart_from (new_id : nat -> string -> string) : Prop := k = lq "id" -> forall n old, new_id n old <> w.

  Lemma tally_cleaned f g d t : apart_from f -> tally (cleaned f g d t) <= tally t.
  Proof.
    intro A. unfold cleaned, without. etransitivity; [apply fewer_prune|]. unfold fresh_ids. apply tally_edit. intros b y.
    destruct (position _ _) as [j|]; auto. destruct (id_of y) as [old|]; auto. cbn [hset_attr set_attrs h_attr].
    pose proof (tl_set (lq "id") (f (g + j) old) (h_attr (head y))) as L.
    assert (M : mine (lq "id") (f (g + j) old) = 0).
    { destruct (qn_eqb k (lq "id")) eqn:E; [apply qn_eqb_eq in E; apply mine_value, A; exact E|].
      apply mine_other. intro X. rewrite X in E. rewrite (proj2 (qn_eqb_eq _ _) eq_refl) in E. discriminate. }
    rewrite M in L. exact L.
  Qed.

  Definition bounded (n : nat) (t : tree) : Prop := all K t /\ tally t <= n.

  Lemma known_free_id v h : K h -> K (hset_attr (lq "id") v h).
  Proof. intros [A B]. split; [auto|]. eapply clear_same; [..|exact B]; reflexivity. Qed.

  Lemma single_bounded n c D f new_id force g T oc : (force = true -> apart_from new_id) -> good f ->
    single c D f new_id force g T = Ok oc -> bounded n T -> bounded n (new_document oc).
  Proof.
    intros N [Gi Gf] S [R L]. destruct (single_worked _ _ _ _ _ _ _ _ S) as (t1 & F & Fit & Wk).
    assert (R1 : all K t1).
    { apply Fit; auto. split; [apply known_blind|]. intros v h. apply known_free_id. }
    split; [exact (Gi _ _ F R1)|]. pose proof (Gf _ _ F R1) as L1.
    assert (L2 : tally t1 <= tally T).
    { destruct Wk as [->|(Fo & d & _ & ->)]; rewrite tally_erase; auto. apply tally_cleaned. auto. }
    lia.
  Qed.

  Lemma chain_bounded n one : (forall v g T oc, one v g T = Ok oc -> bounded n T -> bounded n (new_document oc)) ->
    forall vs g t e l ds, chain one vs g t = Ok (e, l, ds) -> bounded n t -> bounded n e.
  Proof.
    intro H. induction vs as [|v vs IH]; intros g t e l ds E R.
    - injection E as <- <- <-. exact R.
    - apply chain_ok in E as (oc & l' & ds' & E1 & E2). eapply IH; [exact E2|]. eapply H; [exact E1|]. destruct R as [R L].
      split; [apply all_numbered; [apply known_blind|exact R]|]. rewrite tally_numbered. exact L.
  Qed.

  Lemma ran_bounded n m s t one vs g r s' : bounded n t ->
    (forall v g T oc, one v g T = Ok oc -> bounded n T -> bounded n (new_document oc)) ->
    runs_chain m s (chain one vs g (erase t)) -> m s = (Ok r, s') -> exists new, document s' (r_document r) new /\ bounded n new.
  Proof.
    intros [R L] H Rn E. unfold runs_chain in Rn. destruct (chain one vs g (erase t)) as [[[e l] ds]|x] eqn:Ch.
    - destruct Rn as (r0 & s0 & ns & E0 & Wf & Doc & _). rewrite E in E0. injection E0 as <- <-. exists e. split; auto.
      eapply chain_bounded; [exact H|exact Ch|]. split; [apply all_erase; [apply known_blind|exact R]|]. rewrite tally_erase. exact L.
    - destruct Rn as (m' & s0 & E0). rewrite E in E0. discriminate.
  Qed.

  Lemma stix_bounded n o d from to opts force s t r s' : (force = true -> apart_from (new_id_func (or_default o opts))) ->
    wf_state s -> denotes s d t -> bounded n t ->
    stix_update o d from to opts force s = (Ok r, s') -> exists new, document s' (r_document r) new /\ bounded n new.
  Proof.
    intros N Wf D R E. pose proof (stix_validation o d from to opts force s t Wf D) as V. cbv zeta in V.
    destruct (stix_start from t) as [a|] eqn:Ea; [|rewrite V in E; discriminate].
    set (b := match given to with Some b => b | None => "1.2.1" end) in *.
    destruct stix_table_ok as [_ Nt]. destruct (older_dec STIX_VERSIONS a b Nt) as [Ho|Ho]; [|rewrite (proj1 V Ho) in E; discriminate].
    pose proof (slice_between _ _ _ Nt Ho) as B.
    pose proof (stix_update_runs o d from to opts force s t a _ Wf D Ea B) as Rn.
    eapply ran_bounded; [exact R| |exact Rn|exact E].
    intros v g T oc S RT. unfold stix_single in S. destruct (stix_check o _ v) as [c|]; [|discriminate].
    destruct (stix_dirt o v) as [Di|] eqn:Ed; [|discriminate]. destruct (stix_step o _ v) as [f|] eqn:Ef; [|discriminate].
    eapply single_bounded; [exact N|eapply stix_step_good; eauto|exact S|exact RT].
  Qed.

  Lemma cybox_bounded n o d from to opts force s t r s' : (force = true -> apart_from (new_id_func (or_default o opts))) ->
    wf_state s -> denotes s d t -> bounded n t ->
    cybox_update o d from to opts force s = (Ok r, s') -> exists new, document s' (r_document r) new /\ bounded n new.
  Proof.
    intros N Wf D R E. pose proof (cybox_validation o d from to opts force s t Wf D) as V. cbv zeta in V.
    destruct (cybox_start from t) as [a|] eqn:Ea; [|rewrite V in E; discriminate].
    set (b := match given to with Some b => b | None => "2.1" end) in *.
    destruct cybox_table_ok as [_ Nt]. destruct (older_dec CYBOX_VERSIONS a b Nt) as [Ho|Ho]; [|rewrite (proj1 V Ho) in E; discriminate].
    pose proof (slice_between _ _ _ Nt Ho) as B.
    pose proof (cybox_update_runs o d from to opts force s t a _ Wf D Ea B) as Rn.
    eapply ran_bounded; [exact R| |exact Rn|exact E].
    intros v g T oc S RT. unfold cybox_single in S. destruct (cybox_check _ v) as [c|]; [|discriminate].
    destruct (cybox_dirt v) as [Di|] eqn:Ed; [|discriminate]. destruct (cybox_step _ v) as [f|] eqn:Ef; [|discriminate].
    eapply single_bounded; [exact N|eapply cybox_step_good; eauto|exact S|exact RT].
  Qed.

  Lemma ramrod_bounded n o d from to opts force s t r s' : (force = true -> apart_from (new_id_func (or_default o opts))) ->
    wf_state s -> denotes s d t -> bounded n t ->
    ramrod_update o d from to opts force s = (Ok r, s') -> exists new, document s' (r_document r) new /\ bounded n new.
  Proof.
    intros Hf W D R E. destruct (String.eqb_spec (q_local (h_tag (head t))) "STIX_Package") as [N|N].
    - rewrite (ramrod_is_stix o d from to opts force s t W D N) in E. eapply stix_bounded; eauto.
    - destruct (String.eqb_spec (q_local (h_tag (head t))) "Observables") as [N'|N'].
      + rewrite (ramrod_is_cybox o d from to opts force s t W D N') in E. eapply cybox_bounded; eauto.
      + pose proof (ramrod_other o d from to opts force s t W D N N') as Q. rewrite E in Q. discriminate.
  Qed.
End Tally.

Lemma entry_occurrences o u k w d from to opts force s t r s' new : entry o u -> ~ In k set_by_steps -> k <> lq "datatype" ->
  (force = true -> k = lq "id" -> forall n old, new_id_func (or_default o opts) n old <> w) ->
  wf_state s -> denotes s d t -> sources_without_markup t ->
  u d from to opts force s = (Ok r, s') -> document s' (r_document r) new -> occurrences k w new <= occurrences k w t.
Proof.
  intros En Hk Hd Hf W D S E Doc. pose proof (entry_wf _ _ _ _ _ _ _ _ _ _ _ En W D E) as W'. rewrite !tally_occurrences.
  assert (B : bounded k w (tally k w t) t).
  { split; auto. intros x Hx. split; auto. apply clear_all in S. exact (S x Hx). }
  assert (X : exists e, document s' (r_document r) e /\ bounded k w (tally k w t) e)
    by (destruct En as [->|[->| ->]]; [eapply ramrod_bounded|eapply stix_bounded|eapply cybox_bounded]; first [exact Hk|exact Hd|exact Hf|exact W|exact D|exact B|exact E]).
  destruct X as (e & De & _ & Le). rewrite (document_unique _ _ _ _ W' Doc De). exact Le.
Qed.

Lemma entry_unique o u d from to opts s t r s' new : entry o u -> wf_state s -> denotes s d t -> sources_without_markup t ->
  u d from to opts false s = (Ok r, s') -> document s' (r_document r) new -> unique_ids t -> unique_ids new.
Proof.
  intros En W D S E Doc U w. etransitivity; [|apply (U w)].
  eapply entry_occurrences; eauto; [apply id_free|discriminate|discriminate].
Qed.
