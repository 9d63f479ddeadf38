(** * The step functions do not look at node identities: running a step on a
    labelled document and forgetting the labels is running it on the document
    without labels. *)

From Coq Require Import String Ascii List Bool Arith Lia.
From Verif Require Import Str Xml XPath Utils Base Tables Spec SpecDoc SpecPass SpecStep
  SpecCheck SpecClean SpecUpdate Lib Refine RefineBase RefineTrans RefineLists RefineSteps Relabel.
Import ListNotations.
Local Open Scope string_scope.

Definition rmap {A B} (f : A -> B) (r : res A) : res B :=
  match r with Ok a => Ok (f a) | Err e => Err e end.

Definition blind (f : tree -> res tree) : Prop := forall t, f (erase t) = rmap erase (f t).
Definition eblind (p : list tree -> tree -> bool) : Prop :=
  forall anc t, p (map erase anc) (erase t) = p anc t.
Definition hblind (g : hdr -> hdr) : Prop := forall h, g (set_id 0 h) = set_id 0 (g h).

Lemma blind_always f : (forall t, f (erase t) = erase (f t)) -> blind (always f).
Proof. intros H t. unfold always. simpl. rewrite H. reflexivity. Qed.

Lemma blind_when b f : blind f -> blind (when b f).
Proof. intros H t. unfold when. destruct b; auto. Qed.

Lemma blind_nil : blind (in_order []).
Proof. intro t. reflexivity. Qed.

Lemma blind_cons f l : blind f -> blind (in_order l) -> blind (in_order (f :: l)).
Proof.
  intros H H' t. rewrite !in_order_cons, H. destruct (f t) as [a|e]; simpl; auto.
Qed.

Lemma passes_cons {A} (f : A -> tree -> res tree) x l t : passes f (x :: l) t = rbind (f x t) (passes f l).
Proof.
  unfold passes. cbn [fold_left]. cbn [rbind]. destruct (f x t) as [a|e]; cbn [rbind]; auto.
  induction l as [|y l IH]; simpl; auto.
Qed.

Lemma blind_passes {A} (f : A -> tree -> res tree) l : (forall x, blind (f x)) -> blind (passes f l).
Proof.
  intro H. induction l as [|x l IH]; intro t; [reflexivity|].
  rewrite !passes_cons, H. destruct (f x t) as [a|e]; simpl; auto.
Qed.

Lemma blind_on_root g : hblind g -> blind (always (on_root g)).
Proof. intro H. apply blind_always. intro t. unfold on_root. rewrite erase_head, erase_kids, H. reflexivity. Qed.

Lemma blind_loc drop m loc : blind (always (schemaloc_pass drop m loc)).
Proof.
  apply blind_on_root. intro h. destruct h; simpl. destruct (attr_get TAG_SCHEMALOCATION h_attr); reflexivity.
Qed.

Lemma erase_edit_same f t : (forall a x, set_id 0 (f a x) = f (map erase a) (erase x)) ->
  edit f [] (erase t) = erase (edit f [] t).
Proof. intro H. symmetry. exact (erase_edit f f t [] (fun a x _ => H a x)). Qed.

Lemma blind_edit_where p g : eblind p -> hblind g -> blind (always (edit_where p g)).
Proof.
  intros Hp Hg. apply blind_always. intro t. unfold edit_where. apply erase_edit_same.
  intros a x. rewrite Hp, erase_head, Hg. destruct (p a x); reflexivity.
Qed.

Lemma eblind_any_inside qs : eblind (any_inside qs).
Proof.
  intros anc t. unfold any_inside, named_in. rewrite inside_erase. f_equal. apply existsb_ext. intros q _. apply named_erase.
Qed.
Lemma named_in_erase qs t : named_in qs (erase t) = named_in qs t.
Proof. unfold named_in. apply existsb_ext. intros q _. apply named_erase. Qed.
Lemma eblind_anywhere qs : eblind (anywhere qs).
Proof. intros anc t. unfold anywhere. apply named_in_erase. Qed.
Lemma eblind_child_in ps q : eblind (child_in ps q).
Proof.
  intros anc t. unfold child_in, child_of. rewrite named_erase. f_equal. destruct anc as [|p a]; auto.
  cbn [map]. rewrite named_in_erase, inside_erase. reflexivity.
Qed.
Lemma eblind_carries : eblind carries_version.
Proof. intros anc t. unfold carries_version. rewrite named_erase, named_in_erase, erase_head. reflexivity. Qed.

Lemma erase_subst F t : (forall a x, option_map (map erase) (F a x) = F (map erase a) (erase x)) ->
  forall anc, subst_nodes F (map erase anc) (erase t) = erase (subst_nodes F anc t).
Proof.
  intro H. tree_induction t. intro anc. simpl. f_equal. rewrite flat_map_map, map_flat_map.
  apply flat_map_ext_in. intros k Hk.
  change (Node (set_id 0 h) (map erase ks) :: map erase anc) with (map erase (Node h ks :: anc)).
  rewrite <- H. destruct (F (Node h ks :: anc) k); simpl; auto. f_equal. exact (IH k Hk (Node h ks :: anc)).
Qed.

Lemma first_err_blind {A} (G : ctx -> res A) (G' : ctx -> res A) p t :
  (forall c, err_of (G' (econtent c)) = err_of (G c)) -> (forall c, p (econtent c) = p c) ->
  first_err G' (filter p (visits [] (erase t))) = first_err G (filter p (visits [] t)).
Proof.
  intros HG Hp. change (@nil tree) with (map erase []) at 1. rewrite erase_visits.
  generalize (visits [] t). induction l as [|c l IH]; auto. cbn [map filter].
  change (map erase (fst c), erase (snd c)) with (econtent c). rewrite Hp. destruct (p c); auto.
  cbn [first_err]. specialize (HG c). unfold err_of in HG.
  destruct (G' (econtent c)), (G c); try discriminate; auto.
Qed.

Lemma blind_rewrite_all p G : eblind p -> blind G -> blind (rewrite_all p G).
Proof.
  intros Hp HG t. unfold rewrite_all.
  rewrite (first_err_blind (fun c => G (snd c)) (fun c => G (snd c)) (fun c => p (fst c) (snd c))).
  - destruct (first_err _ _); simpl; auto. f_equal. apply (erase_subst _ t) with (anc := []).
    intros a x. rewrite Hp, HG. destruct (p a x); auto. destruct (G x); reflexivity.
  - intros c. unfold econtent. simpl. rewrite HG. destruct (G (snd c)); reflexivity.
  - intros c. apply Hp.
Qed.

Lemma erase_prune p t : eblind p -> prune p (erase t) = erase (prune p t).
Proof.
  intro H. unfold prune. apply (erase_subst _ t) with (anc := []). intros a x. rewrite H. destruct (p a x); reflexivity.
Qed.

Lemma blind_optional p : eblind p -> blind (always (optional_pass p)).
Proof.
  intro H. apply blind_always. intro t. unfold optional_pass. apply erase_prune. intros a x. rewrite H, blank_erase. reflexivity.
Qed.

Lemma typed_econtent c : typed (econtent c) = typed c.
Proof.
  destruct c as [a x]. unfold typed, econtent. simpl. rewrite inside_erase, is_elem_erase, erase_head. reflexivity.
Qed.
Lemma type_of_econtent c : type_of (econtent c) = type_of c.
Proof. apply type_of_erase. Qed.

Lemma blind_optional_in_type name ns : blind (optional_in_type name ns).
Proof.
  intro t. unfold optional_in_type. rewrite (first_err_blind type_of type_of typed).
  - destruct (first_err _ _); simpl; auto. f_equal. apply erase_prune. intros a x.
    destruct a as [|p a]; auto. cbn [map]. rewrite is_elem_erase, blank_erase.
    change (map erase a, erase p) with (econtent (a, p)). rewrite of_type_erase. reflexivity.
  - intro c. rewrite type_of_econtent. reflexivity.
  - exact typed_econtent.
Qed.

Lemma outdated_econtent v c : outdated v (econtent c) = outdated v c.
Proof. unfold outdated. rewrite typed_econtent, type_of_econtent. reflexivity. Qed.

Lemma upgraded_econtent v c : outdated v c = true -> upgraded v (econtent c) = rmap (set_id 0) (upgraded v c).
Proof.
  intro O. rewrite <- (vg_upgraded v c O). rewrite <- vg_upgraded.
  - unfold econtent. simpl snd. rewrite erase_head, vg_nat.
    destruct (vg v (head (snd c))); reflexivity.
  - rewrite outdated_econtent. exact O.
Qed.

Lemma filter_true {A} (p : A -> bool) l : forall x, In x (filter p l) -> p x = true.
Proof. intros x H. apply filter_In in H. tauto. Qed.

Lemma first_err_blind_in {A} (G : ctx -> res A) (G' : ctx -> res A) p t :
  (forall c, p c = true -> err_of (G' (econtent c)) = err_of (G c)) -> (forall c, p (econtent c) = p c) ->
  first_err G' (filter p (visits [] (erase t))) = first_err G (filter p (visits [] t)).
Proof.
  intros HG Hp. change (@nil tree) with (map erase []) at 1. rewrite erase_visits.
  generalize (visits [] t). induction l as [|c l IH]; auto. cbn [map filter].
  change (map erase (fst c), erase (snd c)) with (econtent c). rewrite Hp. destruct (p c) eqn:P; auto.
  cbn [first_err]. specialize (HG c P). unfold err_of in HG.
  destruct (G' (econtent c)), (G c); try discriminate; auto.
Qed.

Lemma blind_vocab v : blind (vocab_pass v).
Proof.
  intro t. unfold vocab_pass. rewrite (first_err_blind type_of type_of typed);
    [|intro c; rewrite type_of_econtent; reflexivity|exact typed_econtent].
  destruct (first_err type_of _); simpl; auto.
  rewrite (first_err_blind_in (upgraded v) (upgraded v) (outdated v)).
  - destruct (first_err _ _); simpl; auto. f_equal. apply erase_edit_same. intros a x.
    change (map erase a, erase x) with (econtent (a, x)). rewrite outdated_econtent.
    destruct (outdated v (a, x)) eqn:O; [|rewrite erase_head; reflexivity].
    rewrite upgraded_econtent by auto. destruct (upgraded v (a, x)); simpl; auto. rewrite erase_head; reflexivity.
  - intros c O. rewrite upgraded_econtent by auto. destruct (upgraded v c); reflexivity.
  - apply outdated_econtent.
Qed.

Lemma blind_lists obj prop : blind (always (lists_pass obj prop)).
Proof.
  apply blind_always. intro t. unfold lists_pass. apply erase_edit_same. intros a x.
  rewrite is_elem_erase, properties_above_erase, erase_head.
  destruct (is_elem x); [rewrite convert_repeat_nat|]; reflexivity.
Qed.

Lemma filter_erase p l : (forall t, p (erase t) = p t) -> filter p (map erase l) = map erase (filter p l).
Proof.
  intro H. induction l as [|x l IH]; simpl; auto. rewrite H. destruct (p x); simpl; congruence.
Qed.

Lemma renamed_erase q t : renamed_to q (erase t) = erase (renamed_to q t).
Proof. destruct t; reflexivity. Qed.

Lemma blind_unwrap a b c : blind (always (unwrap_pass a b c)).
Proof.
  apply blind_always. intro t. unfold unwrap_pass. apply (erase_subst _ t) with (anc := []). intros an x.
  rewrite inside_erase, named_erase. destruct (inside an && named a x); auto.
  rewrite erase_kids, filter_erase by (intro; apply named_erase).
  destruct (filter (named b) (kids x)); simpl; auto; rewrite renamed_erase; reflexivity.
Qed.

Lemma moves_erase m t : moves m (erase t) = moves m t.
Proof. destruct t; reflexivity. Qed.

Lemma erase_ns drop m t : forall anc, ns_pass drop m (map erase anc) (erase t) = erase (ns_pass drop m anc t).
Proof.
  tree_induction t. intro anc. cbn [erase ns_pass].
  change (Node (set_id 0 h) (map erase ks)) with (erase (Node h ks)). rewrite moves_erase. f_equal.
  - destruct (moves m (Node h ks)); auto. unfold rebuilt. rewrite env_of_erase, erase_head, erase_kids.
    destruct ks; reflexivity.
  - rewrite !map_map. apply map_ext_in. intros k Hk. rewrite is_elem_erase. destruct (is_elem k); auto.
    exact (IH k Hk (Node h ks :: anc)).
Qed.

Lemma blind_ns drop m : blind (namespaces_pass drop m).
Proof. intro t. unfold namespaces_pass. rewrite stuck_erase. destruct (stuck m t); cbn [rmap]; [reflexivity|]. f_equal. exact (erase_ns drop m t []). Qed.

Lemma blind_child_value q : blind (value_of_child q).
Proof.
  intro t. unfold value_of_child. rewrite erase_kids, filter_erase by (intro; apply named_erase).
  destruct (filter (named q) (kids t)); simpl; auto. rewrite !erase_head. reflexivity.
Qed.

Lemma blind_as_string : blind as_string.
Proof. intros [h ks]. reflexivity. Qed.

Lemma blind_wrap q : blind (wrap q).
Proof. intro t. reflexivity. Qed.

Lemma blind_wrap_renamed w q : blind (wrap_renamed w q).
Proof. intro t. unfold wrap_renamed. rewrite renamed_erase. reflexivity. Qed.

Lemma blind_contributing ns : blind (contributing_sources ns).
Proof.
  intro t. unfold contributing_sources. rewrite erase_kids, forallb_map.
  rewrite (forallb_ext _ is_elem) by (intros k _; apply is_elem_erase).
  destruct (forallb is_elem (kids t)); simpl; auto. do 2 f_equal. unfold element. simpl. f_equal.
  rewrite !map_map. apply map_ext. intro k. simpl. rewrite renamed_erase. reflexivity.
Qed.

Lemma blind_source o b : blind (structured_source o b).
Proof.
  intro t. unfold structured_source. rewrite erase_head.
  replace (h_text (set_id 0 (head t))) with (h_text (head t)) by (destruct (head t); reflexivity).
  destruct (parse_source _ _ _); simpl; auto. rewrite erase_idem. reflexivity.
Qed.

Lemma blind_rename old new : blind (rename old new).
Proof. apply blind_edit_where; [apply eblind_any_inside|]. intro h; reflexivity. Qed.

Ltac blinds :=
  repeat first
    [ apply blind_nil | apply blind_cons | apply blind_when | apply blind_passes; intro | apply blind_loc | apply blind_rename
    | apply blind_lists | apply blind_vocab | apply blind_unwrap | apply blind_ns | apply blind_optional
    | apply blind_optional_in_type | apply blind_rewrite_all | apply blind_child_value | apply blind_as_string
    | apply blind_wrap | apply blind_wrap_renamed | apply blind_contributing | apply blind_source
    | apply eblind_any_inside | apply eblind_anywhere | apply eblind_child_in | apply eblind_carries
    | apply blind_on_root; let h := fresh "h" in intro h; destruct h; reflexivity
    | apply blind_edit_where; [|let h := fresh "h" in intro h; destruct h; reflexivity] ].

Lemma cybox_2_0_blind p opts : eblind p -> blind (cybox_2_0_step p opts).
Proof. intro H. unfold cybox_2_0_step. blinds. exact H. Qed.

Lemma cybox_2_0_1_blind p opts : eblind p -> blind (cybox_2_0_1_step p opts).
Proof. intro H. unfold cybox_2_0_1_step. blinds. exact H. Qed.

Lemma stix_step_blind o opts v f : stix_step o opts v = Some f -> blind f.
Proof.
  intro H. unfold stix_step in H. repeat (cbn [dict_get] in H; match type of H with
    | (if ?b then _ else _) = _ => destruct b; [apply some_inj in H; subst f|]
    | None = _ => discriminate end).
  - unfold stix_1_0_step. blinds.
  - unfold stix_1_0_1_step. blinds.
  - unfold stix_1_1_step. blinds.
  - unfold stix_1_1_1_step. blinds.
  - unfold stix_1_2_step. blinds.
Qed.

Lemma cybox_step_blind opts v f : cybox_step opts v = Some f -> blind f.
Proof.
  intro H. unfold cybox_step in H. repeat (cbn [dict_get] in H; match type of H with
    | (if ?b then _ else _) = _ => destruct b; [apply some_inj in H; subst f|]
    | None = _ => discriminate end).
  - apply cybox_2_0_blind. blinds.
  - apply cybox_2_0_1_blind. blinds.
Qed.
