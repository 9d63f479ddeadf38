(** * The root through the passes of a step. *)

From Coq Require Import String Ascii List Bool Arith Lia.
From Verif Require Import Str Xml XPath Utils Base Tables Spec SpecDoc SpecPass SpecStep
  SpecCheck SpecClean SpecUpdate SpecTrace SpecField Lib Refine RefineBase RefineTrans RefineLists RefineSteps Relabel Cybox Stix RefineUpdate Natural Updates Reports UpdateFacts Trace Fields Carried Follow Vocab Worked Marks.
Import ListNotations.
Local Open Scope string_scope.

(** The root keeps [pi]. *)
Definition root_keeps {X} (pi : hdr -> X) (f : tree -> res tree) : Prop :=
  forall t e, f t = Ok e -> pi (head e) = pi (head t).

Lemma head_edit f t : head (edit f [] t) = f [] t.
Proof. destruct t; reflexivity. Qed.

Lemma head_subst F t : head (subst_nodes F [] t) = head t.
Proof. destruct t; reflexivity. Qed.

Lemma root_nil {X} (pi : hdr -> X) : root_keeps pi (in_order []).
Proof. intros t e E. rewrite in_order_nil in E. injection E as <-. reflexivity. Qed.

Lemma root_cons {X} (pi : hdr -> X) f l : root_keeps pi f -> root_keeps pi (in_order l) -> root_keeps pi (in_order (f :: l)).
Proof. intros H H' t e E. apply in_order_ok in E as (m & A & B). rewrite (H' m e B). apply (H t m A). Qed.

Lemma root_when {X} (pi : hdr -> X) b f : root_keeps pi f -> root_keeps pi (when b f).
Proof. intros H t e E. unfold when in E. destruct b; [exact (H t e E)|]. injection E as <-. reflexivity. Qed.

Lemma root_passes {X A} (pi : hdr -> X) (f : A -> tree -> res tree) l : Forall (fun x => root_keeps pi (f x)) l ->
  root_keeps pi (passes f l).
Proof.
  induction 1 as [|x l H F IH]; intros t e E.
  - injection E as <-. reflexivity.
  - rewrite passes_cons in E. destruct (f x t) as [m|] eqn:E1; [|discriminate].
    etransitivity; [exact (IH m e E)|exact (H t m E1)].
Qed.

Lemma root_edit_where {X} (pi : hdr -> X) p g : (forall h, pi (g h) = pi h) -> root_keeps pi (always (edit_where p g)).
Proof. intros H t e E. injection E as <-. unfold edit_where. rewrite head_edit. destruct (p [] t); auto. Qed.

Lemma root_inside {X} (pi : hdr -> X) qs g : root_keeps pi (always (edit_where (any_inside qs) g)).
Proof. intros t e E. injection E as <-. unfold edit_where. rewrite head_edit. reflexivity. Qed.

Lemma root_rename {X} (pi : hdr -> X) old new : root_keeps pi (rename old new).
Proof. intros t e E. unfold rename in E. injection E as <-. unfold edit_where. rewrite head_edit. reflexivity. Qed.

Lemma root_on_root {X} (pi : hdr -> X) f : (forall h, pi (f h) = pi h) -> root_keeps pi (always (on_root f)).
Proof. intros H t e E. injection E as <-. apply H. Qed.

Lemma root_loc {X} (pi : hdr -> X) drop m loc : (forall v h, pi (hset_attr TAG_SCHEMALOCATION v h) = pi h) ->
  root_keeps pi (always (schemaloc_pass drop m loc)).
Proof. intro H. apply root_on_root. intro h. destruct (attr_get _ _); auto. Qed.

Lemma root_lists {X} (pi : hdr -> X) obj prop : root_keeps pi (always (lists_pass obj prop)).
Proof. intros t e E. injection E as <-. unfold lists_pass. rewrite head_edit. destruct (is_elem t); reflexivity. Qed.

Lemma root_vocab {X} (pi : hdr -> X) v : root_keeps pi (vocab_pass v).
Proof.
  intros t e E. unfold vocab_pass in E. destruct (first_err type_of _); [discriminate|].
  destruct (first_err (upgraded v) _); [discriminate|]. injection E as <-. rewrite head_edit. reflexivity.
Qed.

Lemma root_vocabs {X} (pi : hdr -> X) b vs : root_keeps pi (when b (passes vocab_pass vs)).
Proof. apply root_when, root_passes, Forall_forall. intros v _. apply root_vocab. Qed.

Lemma root_rewrite {X} (pi : hdr -> X) p G : root_keeps pi (rewrite_all p G).
Proof. intros t e E. unfold rewrite_all in E. destruct (first_err _ _); [discriminate|]. injection E as <-. rewrite head_subst. reflexivity. Qed.

Lemma root_optional {X} (pi : hdr -> X) p : root_keeps pi (always (optional_pass p)).
Proof. intros t e E. injection E as <-. unfold optional_pass, prune. rewrite head_subst. reflexivity. Qed.

Lemma root_optional_in_type {X} (pi : hdr -> X) name ns : root_keeps pi (optional_in_type name ns).
Proof.
  intros t e E. unfold optional_in_type in E. destruct (first_err _ _); [discriminate|]. injection E as <-.
  unfold prune. rewrite head_subst. reflexivity.
Qed.

Lemma root_unwrap {X} (pi : hdr -> X) a b c : root_keeps pi (always (unwrap_pass a b c)).
Proof. intros t e E. injection E as <-. unfold unwrap_pass. rewrite head_subst. reflexivity. Qed.

Lemma root_ns {X} (pi : hdr -> X) drop m : (forall t, moves m t = true -> pi (rebuilt drop m [] t) = pi (head t)) ->
  root_keeps pi (namespaces_pass drop m).
Proof.
  intros H t e E. apply namespaces_ok in E as ->. specialize (H t). destruct t as [h ks]. cbn [ns_pass head] in *. destruct (moves m (Node h ks)); auto.
Qed.

Ltac roots :=
  repeat first
    [ apply root_nil | apply root_cons | apply root_lists | apply root_vocabs | apply root_inside | apply root_rename
    | apply root_rewrite | apply root_optional | apply root_optional_in_type | apply root_unwrap | apply root_when | apply root_vocab ].

(** ** Labels *)

Lemma root_id_2_0 p opts : root_keeps h_id (cybox_2_0_step p opts).
Proof.
  unfold cybox_2_0_step. roots; [apply root_loc|apply root_edit_where]; reflexivity.
Qed.

Lemma root_id_2_0_1 p opts : root_keeps h_id (cybox_2_0_1_step p opts).
Proof.
  unfold cybox_2_0_1_step. roots; [apply root_ns|apply root_loc|apply root_edit_where]; reflexivity.
Qed.

Definition rooted (t : tree) : Prop := tid t = 1 /\ NoDup (labels t).

Lemma rooted_labelled t : rooted (labelled t).
Proof. split; [apply labelled_root|]. apply NoDup_filter, labelled_NoDup. Qed.

Lemma rooted_step f t e : orderly f -> root_keeps h_id f -> f t = Ok e -> rooted t -> rooted e.
Proof.
  intros O K E [A B]. split; [rewrite <- A; apply (K t e E)|]. eapply sublist_NoDup; [apply (O t e E)|exact B].
Qed.

(** With the labels in the relation. *)
Lemma stems_id R T e : stems R T e -> stems (fun h h' => h_id h' = h_id h /\ R h h') T e.
Proof. intros S x Hx N. destruct (S x Hx N) as (y & Hy & E & Ry). exists y. split; auto. Qed.

Lemma rooted_below h ks x : rooted (Node h ks) -> In x (flat_map nodes ks) -> tid x <> 1.
Proof.
  intros [A B] Hx E. change (h_id h = 1) in A. rewrite labels_node in B. rewrite A in B. cbn in B. inversion B as [|? ? N _]; subst. apply N.
  apply in_flat_map in Hx as (k & Hk & Hx). apply in_flat_map. exists k. split; auto. rewrite <- E. apply labels_in; auto. congruence.
Qed.

(** What a change of the root's header does to the nodes. *)
Lemma stems_on_root (R : hdr -> hdr -> Prop) f t : rooted t -> keeps_id f -> R (head t) (f (head t)) ->
  (forall h, h_id h <> 1 -> R h h) -> stems R t (on_root f t).
Proof.
  intros Ro K H1 H2 x Hx N. destruct t as [h ks]. destruct Hx as [<-|Hx].
  - exists (Node h ks). split; [apply nodes_self|]. split; [symmetry; apply K|exact H1].
  - exists x. split; [right; exact Hx|]. split; auto. apply H2. exact (rooted_below h ks x Ro Hx).
Qed.

Lemma stix_root_id o opts v f : stix_step o opts v = Some f -> root_keeps h_id f.
Proof.
  intro H. unfold stix_step in H. by_version H.
  - unfold stix_1_0_step. apply root_cons; [apply root_id_2_0|]. roots; [apply root_loc|apply root_edit_where]; reflexivity.
  - unfold stix_1_0_1_step. apply root_cons; [apply root_id_2_0_1|]. roots; [apply root_loc|apply root_edit_where]; reflexivity.
  - unfold stix_1_1_step. roots; [apply root_loc|apply root_loc|apply root_edit_where]; reflexivity.
  - unfold stix_1_1_1_step. roots; [apply root_loc|apply root_edit_where]; reflexivity.
  - unfold stix_1_2_step. roots; [apply root_ns|apply root_loc|apply root_on_root]; reflexivity.
Qed.

Lemma cybox_root_id opts v f : cybox_step opts v = Some f -> root_keeps h_id f.
Proof. intro H. unfold cybox_step in H. by_version H; [apply root_id_2_0|apply root_id_2_0_1]. Qed.
