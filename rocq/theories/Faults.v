(** * Undocumented exceptions of a step. *)

From Coq Require Import String Ascii List Bool Arith Lia NArith.
From Verif Require Import Str Xml XPath Utils Base Tables Spec SpecDoc SpecPass SpecStep
  SpecCheck SpecClean SpecUpdate SpecTrace SpecField SpecFault Lib Refine RefineBase RefineTrans RefineLists RefineSteps Relabel Cybox Stix RefineUpdate Natural Updates Reports UpdateFacts Trace Fields Carried Follow Vocab Worked Marks Root Versions SpecRead Reading Codec.
Import ListNotations.
Local Open Scope string_scope.

(** From a document with [I], [f] does not raise [e], and its result has [J]. *)
Definition safe (I : tree -> Prop) (e : exn) (f : tree -> res tree) (J : tree -> Prop) : Prop :=
  forall t, I t -> match f t with Ok m => J m | Err x => x <> e end.

Lemma safe_nil I e : safe I e (in_order []) I.
Proof. intros t H. rewrite in_order_nil. exact H. Qed.

Lemma safe_cons I J K e f l : safe I e f J -> safe J e (in_order l) K -> safe I e (in_order (f :: l)) K.
Proof.
  intros A B t H. rewrite in_order_cons. specialize (A t H). destruct (f t) as [m|x]; cbn [rbind]; [apply (B m A)|exact A].
Qed.

Lemma safe_when I e b f : safe I e f I -> safe I e (when b f) I.
Proof. intros A t H. unfold when. destruct b; [apply A; exact H|exact H]. Qed.

Lemma safe_passes {A} I e (f : A -> tree -> res tree) l : (forall x, In x l -> safe I e (f x) I) -> safe I e (passes f l) I.
Proof.
  induction l as [|x l IH]; intros H t Ht; [exact Ht|]. rewrite passes_cons. pose proof (H x (or_introl eq_refl) t Ht) as P.
  destruct (f x t) as [m|y]; cbn [rbind]; [|exact P]. apply IH; auto. intros z Hz. apply H. right. exact Hz.
Qed.

(** A pass that raises something else if anything. *)
Lemma safe_by (I J : tree -> Prop) e f : (forall t x, f t = Err x -> x <> e) -> (forall t m, f t = Ok m -> I t -> J m) -> safe I e f J.
Proof. intros A B t H. destruct (f t) as [m|x] eqn:E; eauto. Qed.

Lemma first_err_elem {B} (F : ctx -> res B) l e : first_err F l = Some e -> exists c, In c l /\ F c = Err e.
Proof.
  induction l as [|c l IH]; simpl; [discriminate|]. destruct (F c) eqn:E.
  - intro H. destruct (IH H) as (d & Hd & Ed). eauto.
  - intro H; injection H as <-. eauto.
Qed.

Lemma always_err f t x : always f t = Err x -> False.
Proof. discriminate. Qed.

Lemma rewrite_err p G t x : rewrite_all p G t = Err x -> exists b y, In (b, y) (visits [] t) /\ p b y = true /\ G y = Err x.
Proof.
  unfold rewrite_all. destruct (first_err _ _) as [z|] eqn:E; [|discriminate]. intro H. injection H as <-.
  apply first_err_elem in E as ([b y] & I & E). apply filter_In in I as [I P]. eauto.
Qed.

Lemma vocab_err v t x : vocab_pass v t = Err x -> exists c, In c (visits [] t) /\
  (typed c = true /\ type_of c = Err x \/ outdated v c = true /\ upgraded v c = Err x).
Proof.
  unfold vocab_pass. destruct (first_err type_of _) as [z|] eqn:E.
  - intro H. injection H as <-. apply first_err_elem in E as (c & I & E). apply filter_In in I as [I P]. eauto.
  - destruct (first_err (upgraded v) _) as [z|] eqn:E2; [|discriminate].
    intro H. injection H as <-. apply first_err_elem in E2 as (c & I & E2). apply filter_In in I as [I P]. exists c. auto.
Qed.

Lemma optional_err n ns t x : optional_in_type n ns t = Err x -> exists c, In c (visits [] t) /\ typed c = true /\ type_of c = Err x.
Proof.
  unfold optional_in_type. destruct (first_err type_of _) as [z|] eqn:E; [|discriminate].
  intro H. injection H as <-. apply first_err_elem in E as (c & I & E). apply filter_In in I as [I P]. eauto.
Qed.

(** ** Conditions on the type and vocabulary reference of a node *)

Definition typing (Q : hdr -> Prop) : Prop :=
  (forall h h', attr_of TAG_XSI_TYPE h' = attr_of TAG_XSI_TYPE h ->
     attr_of (lq "vocab_reference") h' = attr_of (lq "vocab_reference") h -> Q h -> Q h') /\
  (forall h, attr_of TAG_XSI_TYPE h = None -> Q h).

Definition distinct (h : hdr) : Prop := NoDup (map fst (h_attr h)).
Definition good (Q : hdr -> Prop) (h : hdr) : Prop := distinct h /\ Q h.

Section Good.
  Variable Q : hdr -> Prop.
  Hypothesis TQ : typing Q.

  Lemma good_new q d s c tl : good Q (Hdr 0 KElem q d [] s c tl).
  Proof. split; [constructor|]. apply TQ. reflexivity. Qed.

  Lemma good_set k v h : k <> TAG_XSI_TYPE -> k <> lq "vocab_reference" -> good Q h -> good Q (hset_attr k v h).
  Proof.
    intros A B [D H]. split; [apply attr_set_NoDup; exact D|]. refine (proj1 TQ h _ _ _ H); apply attr_of_set; congruence.
  Qed.

  Lemma NoDup_del k l : NoDup (map fst l) -> NoDup (map fst (attr_del k l)).
  Proof.
    intro H. induction l as [|[a v] l IH]; cbn [attr_del map fst] in *; auto. inversion H as [|? ? N1 N2]; subst.
    destruct (qn_eqb k a); [exact N2|]. cbn [map fst]. constructor; [|auto]. intro X. apply N1. clear - X.
    induction l as [|[a' v'] l IH]; cbn [attr_del map] in *; auto. destruct (qn_eqb k a'); [right; exact X|].
    cbn [map fst] in X. destruct X as [X|X]; [left; exact X|right; auto].
  Qed.

  Lemma good_del k h : k <> TAG_XSI_TYPE -> k <> lq "vocab_reference" -> good Q h -> good Q (hdel_attr k h).
  Proof.
    intros A B [D H]. split; [apply NoDup_del; exact D|]. refine (proj1 TQ h _ _ _ H); apply attr_of_del; congruence.
  Qed.

  Lemma good_same h h' : h_attr h' = h_attr h -> good Q h -> good Q h'.
  Proof. intros E [D H]. split; [unfold distinct; rewrite E; exact D|]. refine (proj1 TQ h _ _ _ H); unfold attr_of; rewrite E; reflexivity. Qed.

  Lemma good_copy q d s c tl h : good Q h -> good Q (Hdr 0 KElem q d (attr_update [] (h_attr h)) s c tl).
  Proof.
    intros [D H]. split; [apply attr_update_NoDup; constructor|]. 
    refine (proj1 TQ h _ _ _ H); unfold attr_of; cbn [h_attr]; rewrite attr_get_update by exact D; destruct (attr_get _ _); reflexivity.
  Qed.

  Lemma good_loc drop m loc : invariant (good Q) (always (schemaloc_pass drop m loc)).
  Proof. apply invariant_on_root. intros h H. destruct (attr_get _ _); auto. apply good_set; auto; discriminate. Qed.

  Lemma good_stamp_2_0_1 p : invariant (good Q) (always (edit_where p stamp_cybox_2_0_1)).
  Proof. apply invariant_edit_where. intros h H. unfold stamp_cybox_2_0_1. repeat (apply good_set; [discriminate|discriminate|]). exact H. Qed.

  Lemma good_stamp_2_1 p : invariant (good Q) (always (edit_where p stamp_cybox_2_1)).
  Proof.
    apply invariant_edit_where. intros h H. unfold stamp_cybox_2_1. apply good_del; [discriminate|discriminate|].
    repeat (apply good_set; [discriminate|discriminate|]). exact H.
  Qed.

  Lemma good_stamp_stix p i w : invariant (good Q) (always (edit_where p (stamp_stix i w))).
  Proof. apply invariant_edit_where. intros h H. apply good_set; auto; discriminate. Qed.

  Lemma good_repeat n h : good Q h -> good Q (repeat_edit n h).
  Proof.
    intro H. induction n as [|n IH]; auto. cbn [repeat_edit]. refine (good_same _ _ _ IH). unfold convert_text.
    destruct (h_text _) as [s|]; auto. destruct (String.eqb s ""); reflexivity.
  Qed.

  Lemma good_lists a b : invariant (good Q) (always (lists_pass a b)).
  Proof. apply invariant_edit. intros c y H. destruct (is_elem y); auto. apply good_repeat. exact H. Qed.

  Lemma good_driver : invariant (good Q) (namespaces_pass [] driver_ns).
  Proof. apply invariant_ns. intros b y _ H. unfold rebuilt. apply (good_same (Hdr 0 KElem (lq "") [] (attr_update [] (h_attr (head y))) None false None)); [reflexivity|]. apply good_copy. exact H. Qed.

  Lemma good_child_value p q : invariant (good Q) (rewrite_all p (value_of_child q)).
  Proof.
    apply invariant_rewrite. intros b k e _ E A. unfold value_of_child in E. destruct (filter _ _) as [|v l] eqn:F; [discriminate|]. injection E as <-.
    intros x [<-|[]]. apply good_copy. assert (Hv : In v (filter (named q) (kids k))) by (rewrite F; left; auto).
    apply filter_In in Hv as [Hv _]. apply A. apply (nodes_kid k v); auto. apply nodes_self.
  Qed.

  Lemma good_as_string p : invariant (good Q) (rewrite_all p as_string).
  Proof.
    apply invariant_rewrite. intros b k e _ E A. injection E as <-. intros x [<-|[]]. cbn [head].
    assert (G : good Q (Hdr 0 KElem (h_tag (head k)) [] (attr_update [] (h_attr (head k))) (h_text (head k)) false None)) by (apply good_copy, A, nodes_self).
    destruct (has_attr _ _); [|exact G].
    refine (good_set (lq "datatype") "string" _ _ _ G); discriminate.
  Qed.

  Lemma good_rename a b : invariant (good Q) (rename a b).
  Proof. apply invariant_rename. intros h _ H. exact (good_same h (set_tag b h) eq_refl H). Qed.

  Lemma good_renamed q k : all (good Q) k -> all (good Q) (renamed_to q k).
  Proof.
    intros A x [<-|Hx]; [exact (good_same (head k) (set_tag q (head k)) eq_refl (A k (nodes_self k)))|]. apply A. destruct k. right. exact Hx.
  Qed.

  Lemma good_unwrap a b c : invariant (good Q) (always (unwrap_pass a b c)).
  Proof.
    intros t e E A. injection E as <-. apply invariant_subst; auto. intros d k l z _ E Hz Ak.
    destruct (inside d && named _ k); [|discriminate].
    destruct (filter _ (kids k)) as [|x xs] eqn:Fl; [discriminate|]. injection E as <-. destruct Hz as [<-|[]]. apply good_renamed.
    assert (Hx : In x (filter (named b) (kids k))) by (rewrite Fl; left; auto). apply filter_In in Hx as [Hx _].
    intros y Hy. apply Ak. apply (nodes_kid k x); auto.
  Qed.

  Lemma good_element q ks : (forall k, In k ks -> all (good Q) k) -> all (good Q) (element q ks).
  Proof. intros H x [<-|Hx]; [apply good_new|]. apply in_flat_map in Hx as (k & Hk & Hx). exact (H k Hk x Hx). Qed.

  Lemma good_contributing p ns : invariant (good Q) (rewrite_all p (contributing_sources ns)).
  Proof.
    apply invariant_rewrite. intros b k e _ E A. unfold contributing_sources in E. destruct (forallb _ _); [|discriminate]. injection E as <-.
    apply good_element. intros z Hz. apply in_map_iff in Hz as (y & <- & Hy). apply good_element. intros w [<-|[]]. apply good_renamed.
    intros x Hx. apply A. apply (nodes_kid k y); auto.
  Qed.

  Lemma good_wrap p q : invariant (good Q) (rewrite_all p (wrap q)).
  Proof. apply invariant_rewrite. intros b k e _ E A. injection E as <-. apply good_element. intros w [<-|[]]. exact A. Qed.

  Lemma good_wrap_renamed p q r : invariant (good Q) (rewrite_all p (wrap_renamed q r)).
  Proof. apply invariant_rewrite. intros b k e _ E A. injection E as <-. apply good_element. intros w [<-|[]]. apply good_renamed. exact A. Qed.

  Lemma good_optional p : invariant (good Q) (always (optional_pass p)).
  Proof. intros t e E A. injection E as <-. apply invariant_prune. exact A. Qed.

  Lemma good_optional_in_type n ns : invariant (good Q) (optional_in_type n ns).
  Proof. intros t e E A. unfold optional_in_type in E. destruct (first_err _ _); [discriminate|]. injection E as <-. apply invariant_prune. exact A. Qed.
End Good.

(** ** The declarations of the root *)

Definition root_has (D : list string) (t : tree) : Prop := forall a, In a D -> exists ns, In (Some a, ns) (h_decl (head t)).

Lemma root_has_keeps D f t e : root_keeps h_decl f -> f t = Ok e -> root_has D t -> root_has D e.
Proof. intros K E H a Ha. rewrite (K t e E). apply H. exact Ha. Qed.

Lemma env_items_in p ns l : forall seen, In (p, ns) l -> existsb (ostr_eqb p) seen = false -> exists ns', In (p, ns') (env_items seen l).
Proof.
  induction l as [|[p' u] l IH]; intros seen I N; [destruct I|]. cbn [env_items].
  destruct (ostr_eqb p p') eqn:E.
  - assert (p = p') as <-.
    { destruct p, p'; cbn [ostr_eqb] in E; try discriminate; auto. apply String.eqb_eq in E. congruence. }
    rewrite N. exists u. left. reflexivity.
  - destruct I as [I|I]; [injection I as -> ->; destruct p; cbn [ostr_eqb] in E; [rewrite String.eqb_refl in E|]; discriminate|].
    destruct (existsb (ostr_eqb p') seen); [auto|]. destruct (IH (p' :: seen) I) as (ns' & J); [cbn [existsb]; rewrite E; exact N|].
    exists ns'. right. exact J.
Qed.

Lemma filter_all_true {A} (p : A -> bool) l : (forall x, p x = true) -> filter p l = l.
Proof. intro H. induction l as [|x l IH]; simpl; auto. rewrite H, IH. reflexivity. Qed.

Lemma root_has_driver D t e : namespaces_pass [] driver_ns t = Ok e -> root_has D t -> root_has D e.
Proof.
  intros E H a Ha. apply namespaces_ok in E as ->. destruct (H a Ha) as (ns & I). destruct t as [h ks]. cbn [ns_pass head] in *.
  destruct (moves driver_ns (Node h ks)); [|eauto]. unfold rebuilt, env_of. cbn [h_decl flat_map head]. rewrite app_nil_r.
  destruct (env_items_in _ _ _ [] I eq_refl) as (ns' & J). exists (new_ns driver_ns ns').
  change (Some a, new_ns driver_ns ns') with ((fun p : option string * string => (fst p, new_ns driver_ns (snd p))) (Some a, ns')).
  apply in_map. rewrite filter_all_true; auto.
Qed.

Lemma env_get_in p ns l : In (p, ns) l -> env_get p l <> None.
Proof.
  induction l as [|[p' u] l IH]; [intros []|]. intros [I|I]; cbn [env_get].
  - injection I as -> ->. destruct p; cbn [ostr_eqb]; [rewrite String.eqb_refl|]; discriminate.
  - destruct (ostr_eqb p p'); [discriminate|auto].
Qed.

Lemma visits_root t : forall b y, In (b, y) (visits [] t) -> In t (y :: b).
Proof.
  destruct t as [h ks]. intros b y [I|I]; [injection I as <- <-; left; reflexivity|].
  apply in_flat_map in I as (k & Hk & I). destruct (visits_anc_app k _ _ _ I) as (q & ->). right. apply in_or_app. right. left. reflexivity.
Qed.

Lemma root_env D t b y a : root_has D t -> In (b, y) (visits [] t) -> In a D -> env_get (Some a) (env_of b y) <> None.
Proof.
  intros H I Ha. destruct (H a Ha) as (ns & J). apply (env_get_in _ ns). unfold env_of. apply in_flat_map. exists t. split; auto.
  apply visits_root. exact I.
Qed.

(** ** The three errors of types and vocabularies *)

Definition vocabularies : list vocab :=
  [event_type; object_relationship; tool_type; action_name; motivation_1_0_1; operational_support; motivation_1_1; indicator_type;
   availability_loss; discovery_method].

Definition held (Q : hdr -> Prop) (D : list string) (t : tree) : Prop := all (good Q) t /\ root_has D t.

Lemma held_by (Q : hdr -> Prop) D f t e : invariant (good Q) f -> root_keeps h_decl f -> f t = Ok e -> held Q D t -> held Q D e.
Proof. intros A B E [H R]. split; [exact (A t e E H)|exact (root_has_keeps D f t e B E R)]. Qed.

Definition of_types (e : exn) : Prop := e <> IndexError /\ e <> AttributeError /\ e <> XMLSyntaxError.

Section Types.
  Variables (Q : hdr -> Prop) (D : list string) (e : exn).
  Hypothesis TQ : typing Q.
  Hypothesis Oe : of_types e.
  Hypothesis Vq : forall v b y h, In v vocabularies -> outdated v (b, y) = true -> upgraded v (b, y) = Ok h -> good Q (head y) -> good Q h.
  Hypothesis Tq : forall t c, held Q D t -> In c (visits [] t) -> typed c = true -> type_of c <> Err e.
  Hypothesis Uq : forall v t c, In v vocabularies -> held Q D t -> In c (visits [] t) -> outdated v c = true -> upgraded v c <> Err e.

  Lemma types_vocab v : In v vocabularies -> safe (held Q D) e (vocab_pass v) (held Q D).
  Proof.
    intros Hv t H. destruct (vocab_pass v t) as [m|x] eqn:E.
    - refine (held_by Q D _ t m _ (root_vocab _ v) E H). clear - Vq Hv. intros t e E A. unfold vocab_pass in E.
      destruct (first_err type_of _); [discriminate|]. destruct (first_err (upgraded v) _); [discriminate|]. injection E as <-.
      refine (invariant_edit _ _ _ t _ eq_refl A). intros b y Hy. destruct (outdated v (b, y)) eqn:O; auto.
      destruct (upgraded v (b, y)) as [h|] eqn:U; eauto.
    - intros ->. apply vocab_err in E as (c & I & [[T E]|[O E]]); [exact (Tq t c H I T E)|exact (Uq v t c Hv H I O E)].
  Qed.

  Lemma types_optional n ns : safe (held Q D) e (optional_in_type n ns) (held Q D).
  Proof.
    intros t H. destruct (optional_in_type n ns t) as [m|x] eqn:E.
    - refine (held_by Q D _ t m (good_optional_in_type Q n ns) (root_optional_in_type _ n ns) E H).
    - intros ->. apply optional_err in E as (c & I & T & E). exact (Tq t c H I T E).
  Qed.

  Lemma types_always f : invariant (good Q) (always f) -> root_keeps h_decl (always f) -> safe (held Q D) e (always f) (held Q D).
  Proof. intros A B. apply safe_by; [discriminate|]. intros t m E H. exact (held_by Q D _ t m A B E H). Qed.

  Lemma types_rewrite p G : invariant (good Q) (rewrite_all p G) -> (forall t x, G t = Err x -> x <> e) -> safe (held Q D) e (rewrite_all p G) (held Q D).
  Proof.
    intros A B. apply safe_by.
    - intros t x E. apply rewrite_err in E as (b & y & _ & _ & E). eauto.
    - intros t m E H. exact (held_by Q D _ t m A (root_rewrite _ p G) E H).
  Qed.

  Lemma types_value q t x : value_of_child q t = Err x -> x <> e.
  Proof. unfold value_of_child. destruct (filter _ _); [|discriminate]. intro H. injection H as <-. intro H. apply (proj1 Oe). auto. Qed.

  Lemma types_contributing ns t x : contributing_sources ns t = Err x -> x <> e.
  Proof. unfold contributing_sources. destruct (forallb _ _); [discriminate|]. intro H. injection H as <-. intro H. apply (proj1 (proj2 Oe)). auto. Qed.

  Lemma types_passes l : incl l vocabularies -> safe (held Q D) e (passes vocab_pass l) (held Q D).
  Proof. intro H. apply safe_passes. intros v Hv. apply types_vocab. exact (H v Hv). Qed.

  Lemma types_loc drop m loc : safe (held Q D) e (always (schemaloc_pass drop m loc)) (held Q D).
  Proof. apply types_always; [apply good_loc; exact TQ|apply root_loc; reflexivity]. Qed.

  Lemma types_stamp p i w : safe (held Q D) e (always (edit_where p (stamp_stix i w))) (held Q D).
  Proof. apply types_always; [apply good_stamp_stix; exact TQ|apply root_edit_where; reflexivity]. Qed.

  Lemma types_rename a b : safe (held Q D) e (rename a b) (held Q D).
  Proof. apply types_always; [apply (good_rename Q TQ)|apply root_inside]. Qed.

  Lemma types_child_value p q : safe (held Q D) e (rewrite_all p (value_of_child q)) (held Q D).
  Proof. apply types_rewrite; [apply good_child_value; exact TQ|apply types_value]. Qed.

  (** The document can be moved, if that is the error in question. *)
  Definition movable (m : dict string) (t : tree) : Prop := e = ValueError -> stuck m t = false.

  Lemma types_driver : safe (fun t => held Q D t /\ movable driver_ns t) e (namespaces_pass [] driver_ns) (held Q D).
  Proof.
    intros t [[H R] Mv]. destruct (namespaces_pass [] driver_ns t) as [m|x] eqn:E.
    2:{ intro X. unfold namespaces_pass in E. destruct (stuck driver_ns t) eqn:S; [|discriminate]. injection E as <-.
        rewrite Mv in S by (symmetry; exact X). discriminate. }
    split; [exact (good_driver Q TQ t m E H)|exact (root_has_driver D t m E R)].
  Qed.

  Lemma types_2_0 p opts : safe (held Q D) e (cybox_2_0_step p opts) (held Q D).
  Proof.
    unfold cybox_2_0_step. eapply safe_cons; [apply types_loc|].
    eapply safe_cons; [apply types_always; [apply good_stamp_2_0_1; exact TQ|apply root_edit_where; reflexivity]|].
    eapply safe_cons; [apply types_always; [apply good_lists; exact TQ|apply root_lists]|].
    eapply safe_cons; [apply safe_when, types_vocab; left; reflexivity|]. apply safe_nil.
  Qed.

  Lemma types_2_0_1 p opts : safe (fun t => held Q D t /\ movable driver_ns t) e (cybox_2_0_1_step p opts) (held Q D).
  Proof.
    unfold cybox_2_0_1_step. eapply safe_cons; [apply types_driver|]. eapply safe_cons; [apply types_loc|].
    eapply safe_cons; [apply types_always; [apply good_stamp_2_1; exact TQ|apply root_edit_where; reflexivity]|].
    do 2 (eapply safe_cons; [apply types_child_value|]).
    eapply safe_cons; [apply types_rewrite; [apply good_as_string; exact TQ|discriminate]|].
    do 4 (eapply safe_cons; [apply types_rename|]).
    eapply safe_cons; [apply types_always; [apply good_unwrap; exact TQ|apply root_unwrap]|].
    eapply safe_cons; [apply safe_when, types_passes; intros v [<-|[<-|[<-|[]]]]; [right; left|do 2 right; left|do 3 right; left]; reflexivity|].
    eapply safe_cons; [apply safe_when, types_always; [apply good_optional|apply root_optional]|]. apply safe_nil.
  Qed.

  Lemma types_1_0 opts : safe (held Q D) e (stix_1_0_step opts) (held Q D).
  Proof.
    unfold stix_1_0_step. eapply safe_cons; [apply types_2_0|]. eapply safe_cons; [apply types_loc|]. eapply safe_cons; [apply types_stamp|].
    eapply safe_cons; [apply safe_when, types_passes; intros v [<-|[<-|[]]]; [do 4 right; left|do 5 right; left]; reflexivity|]. apply safe_nil.
  Qed.

  Lemma types_1_0_1 opts : safe (fun t => held Q D t /\ movable driver_ns t) e (stix_1_0_1_step opts) (held Q D).
  Proof.
    unfold stix_1_0_1_step. eapply safe_cons; [apply types_2_0_1|]. eapply safe_cons; [apply types_loc|]. eapply safe_cons; [apply types_stamp|].
    eapply safe_cons; [apply types_rewrite; [apply good_contributing; exact TQ|apply types_contributing]|].
    eapply safe_cons; [apply types_rewrite; [apply good_wrap; exact TQ|discriminate]|].
    eapply safe_cons; [apply safe_when, types_passes; intros v [<-|[<-|[]]]; [do 6 right; left|do 7 right; left]; reflexivity|].
    eapply safe_cons; [apply safe_when, types_always; [apply good_optional|apply root_optional]|]. apply safe_nil.
  Qed.

  Lemma types_1_1_1 opts : safe (held Q D) e (stix_1_1_1_step opts) (held Q D).
  Proof.
    unfold stix_1_1_1_step. eapply safe_cons; [apply types_loc|]. eapply safe_cons; [apply types_stamp|].
    eapply safe_cons; [apply safe_when, types_vocab; do 9 right; left; reflexivity|]. apply safe_nil.
  Qed.
End Types.

(** ** Sources *)

Definition readable (s : string) : Prop := no_markup s = true /\ chardata s <> None.
Definition plain_source (h : hdr) : Prop :=
  named_in [common "Source"; indicator "Source"] (Node h []) = true -> forall s, h_text h = Some s -> readable s.

Lemma sources_all t : sources_plain t <-> all plain_source t.
Proof. split; intros H x Hx N s E; apply readable_iff; exact (H x Hx N s E). Qed.

Lemma plain_source_same h h' : h_tag h' = h_tag h -> h_kind h' = h_kind h -> h_text h' = h_text h -> plain_source h -> plain_source h'.
Proof. intros A B C H N s E. rewrite C in E. apply H; auto. revert N. unfold named_in, named. cbn [head]. rewrite A, B. auto. Qed.

Lemma plain_source_other h : named_in [common "Source"; indicator "Source"] (Node h []) = false -> plain_source h.
Proof. intros E N. rewrite E in N. discriminate. Qed.

Lemma source_loc drop m loc : invariant plain_source (always (schemaloc_pass drop m loc)).
Proof. apply invariant_on_root. intros h H. destruct (attr_get _ _); exact H. Qed.

Lemma source_stamp p i w : invariant plain_source (always (edit_where p (stamp_stix i w))).
Proof. apply invariant_edit_where. intros h H. exact (plain_source_same h (stamp_stix i w h) eq_refl eq_refl eq_refl H). Qed.

Lemma source_parsed o b y : plain_source (head y) -> named_in [common "Source"; indicator "Source"] y = true ->
  exists name, structured_source o b y = Ok (erase (if b then source_tree (qn NS_INDICATOR_2 "Source") [(Some "indicator", NS_INDICATOR_2)]
                     [(Some "stixCommon", NS_COMMON_1)] name
              else source_tree (qn NS_COMMON_1 "Source") [(Some "stixCommon", NS_COMMON_1)] [] name)).
Proof.
  intros H N. unfold structured_source.
  assert (R : readable (match h_text (head y) with Some s => s | None => "None" end)).
  { destruct (h_text (head y)) as [s|] eqn:T; [|split; [reflexivity|discriminate]]. apply H; auto. }
  destruct R as [A B]. unfold parse_source. rewrite A. destruct (chardata _) as [name|]; [|contradiction]. exists name. reflexivity.
Qed.

Lemma source_tree_plain outer od id name : all plain_source (erase (source_tree outer od id name)).
Proof.
  intros x [<-|[<-|[<-|[]]]].
  - intros _ s E. injection E as <-. split; [reflexivity|]. vm_compute. discriminate.
  - apply plain_source_other. reflexivity.
  - apply plain_source_other. reflexivity.
Qed.

Lemma source_tree_good Q outer od id name : typing Q -> all (good Q) (erase (source_tree outer od id name)).
Proof. intros T x [<-|[<-|[<-|[]]]]; apply (good_new Q T). Qed.

Lemma child_in_named qs q b y : child_in qs q b y = true -> named q y = true.
Proof. unfold child_in. destruct b; [discriminate|]. intro H. repeat (apply andb_true_iff in H as [? H]); auto. Qed.

Definition sourced_held (Q : hdr -> Prop) D t := held Q D t /\ all plain_source t.

Lemma source_rewrite Q D e o b p : typing Q -> (forall anc y, p anc y = true -> named_in [common "Source"; indicator "Source"] y = true) ->
  safe (sourced_held Q D) e (rewrite_all p (structured_source o b)) (sourced_held Q D).
Proof.
  intros T P t [[G R] S]. destruct (rewrite_all p (structured_source o b) t) as [m|x] eqn:E.
  - assert (S' : forall b0 k e0, p b0 k = true -> structured_source o b k = Ok e0 -> all plain_source k -> all plain_source e0).
    { intros b0 k e0 Pk Ek Ak. destruct (source_parsed o b k (Ak k (nodes_self k)) (P _ _ Pk)) as (name & Es).
      rewrite Es in Ek. injection Ek as <-. destruct b; apply source_tree_plain. }
    split; [|exact (invariant_rewrite plain_source p _ S' t m E S)]. split; [|exact (root_has_keeps D _ t m (root_rewrite _ p _) E R)].
    clear S'. assert (A : all (fun h => good Q h /\ plain_source h) t) by (intros x Hx; split; [apply G|apply S]; exact Hx).
    intros x Hx. refine (proj1 (invariant_rewrite (fun h => good Q h /\ plain_source h) p _ _ t m E A x Hx)).
    intros b0 k e0 Pk Ek Ak. destruct (source_parsed o b k (proj2 (Ak k (nodes_self k))) (P _ _ Pk)) as (name & Es).
    rewrite Es in Ek. injection Ek as <-. intros z Hz. split; destruct b; revert z Hz; first [apply source_tree_plain|apply source_tree_good; exact T].
  - exfalso. apply rewrite_err in E as (b0 & y & I & Py & E).
    destruct (source_parsed o b y) as (name & Es); [apply S, nodes_in; eauto|exact (P _ _ Py)|]. rewrite Es in E. discriminate.
Qed.

Lemma sourced_always Q D e f : invariant plain_source (always f) -> safe (held Q D) e (always f) (held Q D) -> safe (sourced_held Q D) e (always f) (sourced_held Q D).
Proof. intros A B t [H S]. specialize (B t H). cbn in *. split; auto. exact (A t (f t) eq_refl S). Qed.

Lemma child_in_source qs q b y : In q [common "Source"; indicator "Source"] -> child_in qs q b y = true -> named_in [common "Source"; indicator "Source"] y = true.
Proof. intros I H. apply child_in_named in H. unfold named_in. apply existsb_exists. eauto. Qed.

Section Sources.
  Variables (Q : hdr -> Prop) (D : list string) (e : exn).
  Hypothesis TQ : typing Q.

  (** The passes up to the sources. *)
  Lemma sources_first o : safe (sourced_held Q D) e (in_order
      [ always (schemaloc_pass [] driver_ns cybox_2_0_1_schemaloc_map);
        always (schemaloc_pass [] [] stix_1_1_schemaloc_map);
        always (edit_where carries_version (stamp_stix "2.1.1" "1.1.1"));
        rewrite_all (child_in sourced (common "Source")) (structured_source o false);
        rewrite_all (child_in [indicator "Sighting"] (indicator "Source")) (structured_source o true) ]) (sourced_held Q D).
  Proof.
    eapply safe_cons; [apply sourced_always; [apply source_loc|apply types_loc; exact TQ]|].
    eapply safe_cons; [apply sourced_always; [apply source_loc|apply types_loc; exact TQ]|].
    eapply safe_cons; [apply sourced_always; [apply source_stamp|apply types_stamp; exact TQ]|].
    eapply safe_cons; [apply source_rewrite; [exact TQ|intros anc y; apply child_in_source; left; reflexivity]|].
    eapply safe_cons; [apply source_rewrite; [exact TQ|intros anc y; apply child_in_source; right; left; reflexivity]|].
    apply safe_nil.
  Qed.
End Sources.

Lemma in_order_app l l' t : in_order (l ++ l') t = rbind (in_order l t) (in_order l').
Proof. revert t. induction l as [|f l IH]; intro t; [rewrite in_order_nil; reflexivity|]. cbn [app]. rewrite !in_order_cons. destruct (f t); cbn [rbind]; auto. Qed.

Lemma safe_app I J K e l l' : safe I e (in_order l) J -> safe J e (in_order l') K -> safe I e (in_order (l ++ l')) K.
Proof. intros A B t H. rewrite in_order_app. specialize (A t H). destruct (in_order l t); cbn [rbind]; [apply B|]; exact A. Qed.

Lemma safe_weaken (I I' J J' : tree -> Prop) e f : (forall t, I t -> I' t) -> (forall t, J' t -> J t) -> safe I' e f J' -> safe I e f J.
Proof. intros A B H t Ht. specialize (H t (A t Ht)). destruct (f t); auto. Qed.

Lemma types_1_1 Q D e o opts : typing Q -> of_types e ->
  (forall v b y h, In v vocabularies -> outdated v (b, y) = true -> upgraded v (b, y) = Ok h -> good Q (head y) -> good Q h) ->
  (forall t c, held Q D t -> In c (visits [] t) -> typed c = true -> type_of c <> Err e) ->
  (forall v t c, In v vocabularies -> held Q D t -> In c (visits [] t) -> outdated v c = true -> upgraded v c <> Err e) ->
  safe (sourced_held Q D) e (stix_1_1_step o opts) (held Q D).
Proof.
  intros TQ Oe Vq Tq Uq. unfold stix_1_1_step.
  match goal with |- safe _ _ (in_order ?l) _ => change l with (firstn 5 l ++ skipn 5 l)%list end.
  eapply safe_app; [apply sources_first; exact TQ|]. cbn [skipn].
  apply (safe_weaken _ (held Q D) _ (held Q D)); [intros t H; apply H|auto|].
  eapply safe_cons; [apply types_rewrite; [apply good_wrap_renamed; exact TQ|discriminate]|].
  eapply safe_cons; [apply safe_when, types_vocab; auto; do 8 right; left; reflexivity|].
  eapply safe_cons; [apply safe_when, types_optional; auto|]. apply safe_nil.
Qed.

(** ** The conditions *)

Definition q_value (h : hdr) : Prop := forall v, attr_of TAG_XSI_TYPE h = Some v -> exists a n, split_char ":" v = [a; n].
Definition q_key (D : list string) (h : hdr) : Prop :=
  forall v a n, attr_of TAG_XSI_TYPE h = Some v -> split_char ":" v = [a; n] -> In a D.
Definition broken : list string := ["ObjectRelationshipVocab-1.0"; "PlanningAndOperationalSupportVocab-1.0"].
Definition q_type (h : hdr) : Prop :=
  forall v a n, attr_of TAG_XSI_TYPE h = Some v -> split_char ":" v = [a; n] -> In n broken -> attr_of (lq "vocab_reference") h = None.

Lemma typing_value : typing q_value.
Proof. split; [intros h h' A _ H v E; rewrite A in E; auto|intros h A v E; rewrite A in E; discriminate]. Qed.

Lemma typing_key D : typing (q_key D).
Proof. split; [intros h h' A _ H v a n E; rewrite A in E; eauto|intros h A v a n E; rewrite A in E; discriminate]. Qed.

Lemma typing_type : typing q_type.
Proof. split; [intros h h' A B H v a n E; rewrite A in E; rewrite B; eauto|intros h A v a n E; rewrite A in E; discriminate]. Qed.

Lemma typing_true : typing (fun _ => True).
Proof. split; auto. Qed.

Lemma distinct_set_if k v h0 h h' : set_if_present k v h0 h = Ok h' -> distinct h -> distinct h'.
Proof.
  unfold set_if_present. destruct (has_attr k h0); [|congruence]. destruct v; [|discriminate]. intro E. injection E as <-.
  intro H. apply attr_set_NoDup. exact H.
Qed.

Lemma distinct_upgraded v alias h h' : upgraded_with v alias h = Ok h' -> distinct h -> distinct h'.
Proof.
  unfold upgraded_with. intros E H. destruct (set_if_present _ _ h _) as [h1|] eqn:E1 in E; [|discriminate]. cbn [rbind] in E.
  destruct (set_if_present _ _ h h1) as [h2|] eqn:E2; [|discriminate]. cbn [rbind] in E. injection E as <-.
  assert (D2 : distinct h2).
  { eapply distinct_set_if; eauto. eapply distinct_set_if; eauto. apply attr_set_NoDup. exact H. }
  destruct (h_text h) as [s|]; [destruct (dict_get s (v_terms v))|]; exact D2.
Qed.

Lemma upgraded_new v b y h : In v vocabularies -> upgraded v (b, y) = Ok h ->
  exists s a n, attr_of TAG_XSI_TYPE (head y) = Some s /\ split_char ":" s = [a; n] /\
    exists s', attr_of TAG_XSI_TYPE h = Some s' /\ split_char ":" s' = [a; v_new_type v].
Proof.
  intros I U. destruct (upgraded_shape _ _ _ _ U) as (a & n & N & S & W). apply upgraded_type in W.
  unfold attr_of. destruct (attr_get TAG_XSI_TYPE (h_attr (head y))) as [s|]; [|contradiction]. exists s, a, n. split; auto. split; auto.
  eexists. split; [exact W|].
  assert (Sa : split_char ":" a = [a]) by (eapply split_char_part; rewrite S; left; reflexivity).
  change (":" ++ v_new_type v)%string with (String ":" (v_new_type v)). rewrite split_char_app by exact Sa. f_equal.
  clear - I. repeat (destruct I as [<-|I]; [reflexivity|]). destruct I.
Qed.

Lemma new_types v : In v vocabularies -> In (v_new_type v) broken -> False.
Proof. intros I. repeat (destruct I as [<-|I]; [intros [E|[E|[]]]; discriminate E|]). destruct I. Qed.

Lemma upgraded_distinct v b y h : upgraded v (b, y) = Ok h -> distinct (head y) -> distinct h.
Proof. intros U H. destruct (upgraded_shape _ _ _ _ U) as (a & n & _ & _ & W). eapply distinct_upgraded; eauto. Qed.

Lemma upgraded_value v b y h : In v vocabularies -> upgraded v (b, y) = Ok h -> good q_value (head y) -> good q_value h.
Proof.
  intros I U [Dy Hy]. split; [eapply upgraded_distinct; eauto|]. destruct (upgraded_new v b y h I U) as (s & a & n & _ & _ & s' & E & S).
  intros w Ew. rewrite E in Ew. injection Ew as <-. eauto.
Qed.

Lemma upgraded_key D v b y h : In v vocabularies -> upgraded v (b, y) = Ok h -> good (q_key D) (head y) -> good (q_key D) h.
Proof.
  intros I U [Dy Hy]. split; [eapply upgraded_distinct; eauto|]. destruct (upgraded_new v b y h I U) as (s & a & n & E0 & S0 & s' & E & S).
  intros w a' n' Ew Sw. rewrite E in Ew. injection Ew as <-. rewrite S in Sw. injection Sw as <- _. eauto.
Qed.

Lemma upgraded_qtype v b y h : In v vocabularies -> upgraded v (b, y) = Ok h -> good q_type (head y) -> good q_type h.
Proof.
  intros I U [Dy Hy]. split; [eapply upgraded_distinct; eauto|]. destruct (upgraded_new v b y h I U) as (s & a & n & E0 & S0 & s' & E & S).
  intros w a' n' Ew Sw B. rewrite E in Ew. injection Ew as <-. rewrite S in Sw. injection Sw as <- <-. destruct (new_types v I B).
Qed.

Lemma type_of_err c e : typed c = true -> type_of c = Err e -> exists v, attr_of TAG_XSI_TYPE (head (snd c)) = Some v /\
  ((e = ValueError /\ forall a n, split_char ":" v <> [a; n]) \/
   e = KeyError /\ exists a n, split_char ":" v = [a; n] /\ env_get (Some a) (env_of (fst c) (snd c)) = None).
Proof.
  unfold typed, type_of, has_attr, attr_of. destruct (attr_get TAG_XSI_TYPE _) as [v|]; [|rewrite andb_false_r; discriminate]. intros _ H.
  exists v. split; auto. destruct (split_char ":" v) as [|a [|n [|]]];
    try (left; injection H as <-; split; [reflexivity|intros; discriminate]).
  destruct (env_get _ _) eqn:E; [discriminate|]. right. injection H as <-. eauto 6.
Qed.

Lemma outdated_err v c e : In v vocabularies -> outdated v c = true -> upgraded v c = Err e -> e = TypeError /\
  exists s a n, attr_of TAG_XSI_TYPE (head (snd c)) = Some s /\ split_char ":" s = [a; n] /\ In n broken /\
    attr_of (lq "vocab_reference") (head (snd c)) <> None.
Proof.
  intros I O U. unfold outdated in O. apply andb_true_iff in O as [_ O]. unfold upgraded in U.
  destruct (type_of c) as [[[a n] ns]|] eqn:T; [|discriminate]. apply andb_true_iff in O as [_ O]. cbn [rbind fst] in U.
  assert (Nm : exists s, v_name v = PStr s) by (clear - I; repeat (destruct I as [<-|I]; [eexists; reflexivity|]); destruct I).
  destruct Nm as (nm & Nm). unfold upgraded_with in U. rewrite Nm in U.
  destruct (set_if_present (lq "vocab_reference") _ _ _) as [h1|x] eqn:S in U.
  - exfalso. cbn [rbind] in U. unfold set_if_present in U. destruct (has_attr (lq "vocab_name") _); discriminate U.
  - injection U as <-. unfold set_if_present, has_attr in S. destruct (attr_get (lq "vocab_reference") _) as [r|] eqn:R; [|discriminate].
    destruct (v_reference v) as [s|s] eqn:Rf; [discriminate|]. injection S as <-. split; auto.
    unfold type_of in T. destruct (attr_get TAG_XSI_TYPE _) as [w|] eqn:W; [|discriminate].
    destruct (split_char ":" w) as [|a' [|n' [|]]] eqn:Sp; try discriminate. destruct (env_get _ _); [|discriminate]. injection T as -> -> ->.
    exists w, a, n. split; auto. split; auto. split; [|unfold attr_of; rewrite R; discriminate].
    apply mem_str_In in O. clear - I O Rf. revert Rf O. unfold broken.
    repeat (destruct I as [<-|I]; [first [intros Rf; discriminate Rf|intros _ O; vm_compute in O; destruct O as [<-|[]]; vm_compute; auto]|]). destruct I.
Qed.

(** ** The three errors *)

Lemma value_never c t D : held q_value D t -> In c (visits [] t) -> typed c = true -> type_of c <> Err ValueError.
Proof.
  intros [H _] I T E. destruct c as [b y]. apply type_of_err in E as (v & A & [[_ N]|[X _]]); [|discriminate|auto].
  destruct (H y) as [_ Hy]; [apply nodes_in; eauto|]. destruct (Hy v A) as (a & n & S). exact (N a n S).
Qed.

Lemma key_never c t D : held (q_key D) D t -> In c (visits [] t) -> typed c = true -> type_of c <> Err KeyError.
Proof.
  intros [H R] I T E. destruct c as [b y]. apply type_of_err in E as (v & A & [[X _]|[_ (a & n & S & N)]]); [discriminate| |auto].
  destruct (H y) as [_ Hy]; [apply nodes_in; eauto|]. exact (root_env D t b y a R I (Hy v a n A S) N).
Qed.

Lemma type_never v c t D : In v vocabularies -> held q_type D t -> In c (visits [] t) -> outdated v c = true -> upgraded v c <> Err TypeError.
Proof.
  intros Iv [H _] I O E. destruct c as [b y]. apply outdated_err in E as (_ & s & a & n & A & S & B & N); auto.
  destruct (H y) as [_ Hy]; [apply nodes_in; eauto|]. exact (N (Hy s a n A S B)).
Qed.

(** A condition on headers for each error. *)
Definition q_of (e : exn) (D : list string) : hdr -> Prop :=
  match e with
  | ValueError => q_value
  | KeyError => q_key D
  | TypeError => q_type
  | _ => fun _ => True
  end.

Lemma typing_of e D : typing (q_of e D).
Proof. destruct e; first [apply typing_value|apply typing_key|apply typing_type|apply typing_true]. Qed.

Lemma q_upgraded e D v b y h : In v vocabularies -> outdated v (b, y) = true -> upgraded v (b, y) = Ok h ->
  good (q_of e D) (head y) -> good (q_of e D) h.
Proof.
  intros I _ U. destruct e; first [apply (upgraded_value v b y h I U)|apply (upgraded_key D v b y h I U)|apply (upgraded_qtype v b y h I U)
    |intros [A _]; split; [exact (upgraded_distinct v b y h U A)|exact Logic.I]].
Qed.

Lemma q_typed e D t c : held (q_of e D) D t -> In c (visits [] t) -> typed c = true -> type_of c <> Err e.
Proof.
  intros H I T. destruct e; first [exact (value_never c t D H I T)|exact (key_never c t D H I T)|idtac];
    intro E; apply type_of_err in E as (v & _ & [[X _]|[X _]]); auto; discriminate X.
Qed.

Lemma q_outdated e D v t c : In v vocabularies -> held (q_of e D) D t -> In c (visits [] t) -> outdated v c = true -> upgraded v c <> Err e.
Proof.
  intros Iv H I O. destruct e; first [exact (type_never v c t D Iv H I O)|idtac]; intro E; apply outdated_err in E as (X & _); auto; discriminate X.
Qed.

(** ** Which exceptions a pass can raise at all *)

Definition raises (f : tree -> res tree) (L : list exn) : Prop := forall t x, f t = Err x -> In x L.

Lemma raises_nil L : raises (in_order []) L.
Proof. intros t x E. rewrite in_order_nil in E. discriminate. Qed.

Lemma raises_cons L f l : raises f L -> raises (in_order l) L -> raises (in_order (f :: l)) L.
Proof. intros A B t x E. rewrite in_order_cons in E. destruct (f t) eqn:F; cbn [rbind] in E; [eapply B; eauto|]. injection E as <-. eapply A; eauto. Qed.

Lemma raises_when L b f : raises f L -> raises (when b f) L.
Proof. intros A t x E. unfold when in E. destruct b; [eapply A; eauto|discriminate]. Qed.

Lemma raises_passes {A} L (f : A -> tree -> res tree) l : (forall x, In x l -> raises (f x) L) -> raises (passes f l) L.
Proof.
  induction l as [|x l IH]; intros H t y E; [discriminate|]. rewrite passes_cons in E. destruct (f x t) as [m|z] eqn:F; cbn [rbind] in E.
  - refine (IH _ m y E). intros w Hw. apply H. right. exact Hw.
  - injection E as <-. exact (H x (or_introl eq_refl) t z F).
Qed.

Lemma raises_always L f : raises (always f) L.
Proof. intros t x E. discriminate. Qed.

Lemma raises_namespaces drop m : raises (namespaces_pass drop m) [ValueError].
Proof. intros t x E. unfold namespaces_pass in E. destruct (stuck m t); [injection E as <-; left; reflexivity|discriminate]. Qed.

Lemma raises_rewrite L p G : (forall t x, G t = Err x -> In x L) -> raises (rewrite_all p G) L.
Proof. intros H t x E. apply rewrite_err in E as (b & y & _ & _ & E). eauto. Qed.

Lemma raises_incl L L' f : incl L L' -> raises f L -> raises f L'.
Proof. intros I H t x E. apply I. eapply H; eauto. Qed.

Lemma type_errs c x : typed c = true -> type_of c = Err x -> In x [ValueError; KeyError].
Proof. intros T E. apply type_of_err in E as (v & _ & [[-> _]|[-> _]]); simpl; auto. Qed.

Lemma raises_vocab v : In v vocabularies -> raises (vocab_pass v) [ValueError; KeyError; TypeError].
Proof.
  intros I t x E. apply vocab_err in E as (c & _ & [[T E]|[O E]]).
  - destruct (type_errs c x T E) as [<-|[<-|[]]]; simpl; auto.
  - apply outdated_err in E as (-> & _); simpl; auto.
Qed.

Lemma raises_vocabs l : incl l vocabularies -> raises (passes vocab_pass l) [ValueError; KeyError; TypeError].
Proof. intro H. apply raises_passes. intros v Hv. apply raises_vocab. auto. Qed.

Lemma raises_strings v t : In v vocabularies -> v_reference v <> PTuple (match v_reference v with PStr s | PTuple s => s end) -> vocab_pass v t <> Err TypeError.
Proof.
  intros I R E. apply vocab_err in E as (c & _ & [[T E]|[O E]]).
  - destruct (type_errs c _ T E) as [X|[X|[]]]; discriminate X.
  - unfold upgraded in E. unfold outdated in O. apply andb_true_iff in O as [T _]. destruct (type_of c) as [i|x] eqn:Ti; cbn [rbind] in E.
    + unfold upgraded_with, set_if_present in E. destruct (v_reference v) as [s|s]; [|apply R; reflexivity].
      assert (Nm : exists s, v_name v = PStr s) by (clear - I; repeat (destruct I as [<-|I]; [eexists; reflexivity|]); destruct I).
      destruct Nm as (nm & Nm). rewrite Nm in E. destruct (has_attr _ _); cbn [rbind] in E; destruct (has_attr (lq "vocab_name") _); discriminate E.
    + injection E as ->. destruct (type_errs c _ T Ti) as [X|[X|[]]]; discriminate X.
Qed.

Definition kinds_2_0_1 : list exn := [ValueError; KeyError; TypeError; IndexError].

Lemma raises_2_0 p opts : raises (cybox_2_0_step p opts) [ValueError; KeyError; TypeError].
Proof.
  unfold cybox_2_0_step. do 3 (apply raises_cons; [apply raises_always|]). apply raises_cons; [|apply raises_nil].
  apply raises_when, raises_vocab. left. reflexivity.
Qed.

Lemma raises_value q t x : value_of_child q t = Err x -> In x kinds_2_0_1.
Proof. unfold value_of_child. destruct (filter _ _); [|discriminate]. intro H. injection H as <-. simpl. auto 6. Qed.

Lemma in_types v l : In v l -> incl l vocabularies -> In v vocabularies.
Proof. auto. Qed.

(** What follows the two values. *)
Definition after_values (opts : options) : list (tree -> res tree) :=
  [ rewrite_all (any_inside [http_name "Refresh"]) as_string;
      rename (http_name "X_Requested_For") (http_name "X_Forwarded_For");
      rename (packet_name "Authenication_Data") (packet_name "Authentication_Data");
      rename (packet_name "Excapsulating_Security_Payload")
             (packet_name "Encapsulating_Security_Payload");
      rename (packet_name "Protol_Addr_Size") (packet_name "Proto_Addr_Size");
      always (unwrap_pass (object_name "WinMailslot" "Handle") (object_name "WinHandle" "Handle")
                (object_name "WinMailslot" "Handle"));
      when (update_vocabularies opts)
        (passes vocab_pass [object_relationship; tool_type; action_name]);
      when (remove_optionals opts) (always (optional_pass (any_inside cybox_2_1_optional))) ].

Lemma raises_after opts : raises (in_order (after_values opts)) [ValueError; KeyError; TypeError].
Proof.
  unfold after_values. apply raises_cons; [apply raises_rewrite; discriminate|].
  do 5 (apply raises_cons; [apply raises_always|]).
  apply raises_cons; [apply raises_when, raises_vocabs; intros v [<-|[<-|[<-|[]]]]; [right; left|do 2 right; left|do 3 right; left]; reflexivity|].
  apply raises_cons; [apply raises_when, raises_always|]. apply raises_nil.
Qed.

Lemma raises_2_0_1 p opts : raises (cybox_2_0_1_step p opts) kinds_2_0_1.
Proof.
  unfold cybox_2_0_1_step. apply raises_cons; [eapply raises_incl; [|apply raises_namespaces]; intros x [<-|[]]; left; reflexivity|].
  do 2 (apply raises_cons; [apply raises_always|]).
  do 2 (apply raises_cons; [apply raises_rewrite, raises_value|]).
  apply (raises_incl [ValueError; KeyError; TypeError]); [intros x [<-|[<-|[<-|[]]]]; simpl; auto|apply raises_after].
Qed.

Lemma raises_1_0 opts : raises (stix_1_0_step opts) [ValueError; KeyError; TypeError].
Proof.
  unfold stix_1_0_step. apply raises_cons; [apply raises_2_0|]. do 2 (apply raises_cons; [apply raises_always|]).
  apply raises_cons; [apply raises_when, raises_vocabs; intros v [<-|[<-|[]]]; [do 4 right; left|do 5 right; left]; reflexivity|]. apply raises_nil.
Qed.

(** What follows the contributors. *)
Definition after_contributors (opts : options) : list (tree -> res tree) :=
    [ rewrite_all (child_in [ttp "Exploit_Targets"] (common "Exploit_Target"))
                  (wrap (ttp "Exploit_Target"));
      when (update_vocabularies opts) (passes vocab_pass [motivation_1_1; indicator_type]);
      when (remove_optionals opts)
        (always (optional_pass (any_inside [marking "Controlled_Structure";
                                            marking "Marking_Structure"]))) ].

Lemma raises_after_contributors opts : raises (in_order (after_contributors opts)) [ValueError; KeyError; TypeError].
Proof.
  unfold after_contributors. apply raises_cons; [apply raises_rewrite; discriminate|].
  apply raises_cons; [apply raises_when, raises_vocabs; intros v [<-|[<-|[]]]; [do 6 right; left|do 7 right; left]; reflexivity|].
  apply raises_cons; [apply raises_when, raises_always|]. apply raises_nil.
Qed.

Definition kinds_1_0_1 : list exn := [ValueError; KeyError; TypeError; IndexError; AttributeError].

Lemma raises_1_0_1 opts : raises (stix_1_0_1_step opts) kinds_1_0_1.
Proof.
  unfold stix_1_0_1_step. apply raises_cons; [apply (raises_incl kinds_2_0_1); [intros x [<-|[<-|[<-|[<-|[]]]]]; simpl; auto 6|apply raises_2_0_1]|].
  do 2 (apply raises_cons; [apply raises_always|]).
  apply raises_cons; [apply raises_rewrite; intros t x E; unfold contributing_sources in E; destruct (forallb _ _); [discriminate|]; injection E as <-; simpl; auto 6|].
  apply (raises_incl [ValueError; KeyError; TypeError]); [intros x [<-|[<-|[<-|[]]]]; simpl; auto|apply raises_after_contributors].
Qed.

Lemma raises_optional n ns : raises (optional_in_type n ns) [ValueError; KeyError].
Proof. intros t x E. apply optional_err in E as (c & _ & T & E). exact (type_errs c x T E). Qed.

Lemma raises_source o b t x : structured_source o b t = Err x -> x = XMLSyntaxError.
Proof. unfold structured_source. destruct (parse_source _ _ _); [discriminate|]. intro H. injection H as <-. reflexivity. Qed.

Lemma raises_strings_only v : In v vocabularies -> v_reference v <> PTuple (match v_reference v with PStr s | PTuple s => s end) ->
  raises (vocab_pass v) [ValueError; KeyError].
Proof.
  intros I R t x E. pose proof (raises_strings v t I R) as N. destruct (raises_vocab v I t x E) as [<-|[<-|[<-|[]]]]; simpl; auto; contradiction.
Qed.

Lemma raises_1_1 o opts : raises (stix_1_1_step o opts) [ValueError; KeyError; XMLSyntaxError].
Proof.
  unfold stix_1_1_step. do 3 (apply raises_cons; [apply raises_always|]).
  do 2 (apply raises_cons; [apply raises_rewrite; intros t x E; apply raises_source in E as ->; simpl; auto|]).
  apply raises_cons; [apply raises_rewrite; discriminate|].
  assert (I : incl [ValueError; KeyError] [ValueError; KeyError; XMLSyntaxError]) by (intros x [<-|[<-|[]]]; simpl; auto).
  apply raises_cons; [apply (raises_incl _ _ _ I), raises_when, raises_strings_only; [do 8 right; left; reflexivity|discriminate]|].
  apply raises_cons; [apply (raises_incl _ _ _ I), raises_when, raises_optional|]. apply raises_nil.
Qed.

Lemma raises_1_1_1 opts : raises (stix_1_1_1_step opts) [ValueError; KeyError].
Proof.
  unfold stix_1_1_1_step. do 2 (apply raises_cons; [apply raises_always|]).
  apply raises_cons; [apply raises_when, raises_strings_only; [do 9 right; left; reflexivity|discriminate]|]. apply raises_nil.
Qed.

Lemma raises_1_2 : raises stix_1_2_step [ValueError].
Proof. unfold stix_1_2_step. apply raises_cons; [apply raises_namespaces|]. do 2 (apply raises_cons; [apply raises_always|]). apply raises_nil. Qed.

(** ** A condition on an element and its children, up to a class of headers *)

Section Shape.
  Context {A : Type}.
  Variables (c : hdr -> A) (P : A -> list A -> Prop).

  Definition shaped (t : tree) : Prop := forall x, In x (nodes t) -> P (c (head x)) (map (fun k => c (head k)) (kids x)).

  Lemma shaped_node h ks : shaped (Node h ks) <-> P (c h) (map (fun k => c (head k)) ks) /\ forall k, In k ks -> shaped k.
  Proof.
    split.
    - intro H. split; [exact (H (Node h ks) (or_introl eq_refl))|]. intros k Hk x Hx. apply H. right. apply in_flat_map. eauto.
    - intros [H K] x [<-|Hx]; [exact H|]. apply in_flat_map in Hx as (k & Hk & Hx). exact (K k Hk x Hx).
  Qed.

  Lemma shaped_edit f : (forall b y, c (f b y) = c (head y)) -> forall t b, shaped t -> shaped (edit f b t).
  Proof.
    intro H. induction t as [h ks IH] using tree_induct. intros b S. apply shaped_node in S as [S K]. cbn [edit]. apply shaped_node. split.
    - rewrite H. cbn [head]. rewrite map_map. erewrite map_ext; [exact S|]. intros [h' ks']. cbn [edit head]. rewrite H. reflexivity.
    - intros k Hk. apply in_map_iff in Hk as (k' & <- & Hk). apply IH; auto.
  Qed.

  Lemma shaped_on_root g t : (forall h, c (g h) = c h) -> shaped t -> shaped (on_root g t).
  Proof. intros H S. destruct t as [h ks]. apply shaped_node in S as [S K]. unfold on_root. cbn [head kids]. apply shaped_node. rewrite H. auto. Qed.

  Lemma shaped_ns m : (forall b y, moves m y = true -> is_elem y = true -> c (rebuilt [] m b y) = c (head y)) ->
    forall t b, is_elem t = true -> shaped t -> shaped (ns_pass [] m b t).
  Proof.
    intro H. assert (Hh : forall t b, is_elem t = true -> c (head (ns_pass [] m b t)) = c (head t)).
    { intros [h ks] b E. cbn [ns_pass head]. destruct (moves m _) eqn:M; [exact (H b (Node h ks) M E)|reflexivity]. }
    induction t as [h ks IH] using tree_induct. intros b E S. apply shaped_node in S as [S K]. cbn [ns_pass]. apply shaped_node. split.
    - rewrite map_map. pose proof (Hh (Node h ks) b E) as R. cbn [ns_pass head] in R. rewrite R. clear R.
      erewrite map_ext; [exact S|]. intros k. destruct (is_elem k) eqn:Ek; auto.
    - intros k Hk. apply in_map_iff in Hk as (k' & <- & Hk). destruct (is_elem k') eqn:Ek; [|auto].
      apply IH; auto.
  Qed.

  Lemma subst_head F b t : head (subst_nodes F b t) = head t.
  Proof. destruct t. reflexivity. Qed.

  Lemma shaped_subst F : (forall b k l, F b k = Some l -> shaped k -> exists z, l = [z] /\ c (head z) = c (head k) /\ shaped z) ->
    forall t b, shaped t -> shaped (subst_nodes F b t).
  Proof.
    intro H. induction t as [h ks IH] using tree_induct. intros b S. apply shaped_node in S as [S K]. cbn [subst_nodes]. 
    apply shaped_node. split.
    - match goal with |- P _ (map _ (flat_map ?g ks)) => assert (E : map (fun k => c (head k)) (flat_map g ks) = map (fun k => c (head k)) ks) end.
      { clear S IH. generalize (Node h ks :: b). intro bb. induction ks as [|k ks IHk]; auto. cbn [flat_map]. rewrite map_app, IHk by (intros; apply K; right; auto).
        cbn [map]. f_equal. 
        destruct (F bb k) as [l|] eqn:El; [|cbn [map app]; rewrite subst_head; reflexivity].
        destruct (H _ _ _ El (K k (or_introl eq_refl))) as (z & -> & Ez & _). cbn [map app]. rewrite Ez. reflexivity. }
      rewrite E. exact S.
    - intros z Hz. apply in_flat_map in Hz as (k & Hk & Hz). destruct (F _ k) as [l|] eqn:El.
      + destruct (H _ _ _ El (K k Hk)) as (w & -> & _ & Sw). destruct Hz as [<-|[]]. exact Sw.
      + destruct Hz as [<-|[]]. apply IH; auto.
  Qed.

  Lemma shaped_rewrite p G t e : (forall b k z, p b k = true -> G k = Ok z -> shaped k -> c (head z) = c (head k) /\ shaped z) ->
    rewrite_all p G t = Ok e -> shaped t -> shaped e.
  Proof.
    intros H E S. unfold rewrite_all in E. destruct (first_err _ _); [discriminate|]. injection E as <-. apply shaped_subst; auto.
    intros b k l El Sk. destruct (p b k) eqn:Pk; [|discriminate]. destruct (G k) as [z|] eqn:Gk; [|discriminate]. injection El as <-.
    exists z. split; auto. eapply H; eauto.
  Qed.

  Lemma shaped_prune (p : list tree -> tree -> bool) : (forall a l l', sublist l l' -> P a l' -> P a l) -> forall t b, shaped t ->
    shaped (subst_nodes (fun anc t => if p anc t then Some [] else None) b t).
  Proof.
    intro H. induction t as [h ks IH] using tree_induct. intros b S. apply shaped_node in S as [S K]. cbn [subst_nodes]. 
    apply shaped_node. split.
    - refine (H _ _ _ _ S). clear. generalize (Node h ks :: b). intro bb. induction ks as [|k ks IHk]; [apply sub_nil|]. cbn [flat_map].
      destruct (p bb k); cbn [app map]; [apply sub_skip, IHk|]. rewrite subst_head. apply sub_keep, IHk.
    - intros z Hz. apply in_flat_map in Hz as (k & Hk & Hz). destruct (p _ k); [destruct Hz|]. destruct Hz as [<-|[]]. apply IH; auto.
  Qed.
End Shape.

(** *** Values *)

(** 0: fields with the name [q]; 1: URI values; 2: the rest. *)
Definition value_class (q : qname) (h : hdr) : nat :=
  if named q (Node h []) then 0 else if named (object_name "URI" "Value") (Node h []) then 1 else 2.
Definition value_shape (a : nat) (l : list nat) : Prop := a = 0 -> In 1 l.

Lemma named_node q t : named q (Node (head t) []) = named q t.
Proof. reflexivity. Qed.

Lemma value_class_same q h h' : h_tag h' = h_tag h -> h_kind h' = h_kind h -> value_class q h' = value_class q h.
Proof. intros A B. unfold value_class, named. cbn [head]. rewrite A, B. reflexivity. Qed.

Lemma value_shape_of q t : named (object_name "URI" "Value") (Node (Hdr 0 KElem q [] [] None false None) []) = false ->
  (forall x, In x (nodes t) -> named q x = true -> exists k, In k (kids x) /\ named (object_name "URI" "Value") k = true) -> shaped (value_class q) value_shape t.
Proof.
  intros D H x Hx E. unfold value_class in E. rewrite named_node in E. destruct (named q x) eqn:N; [|destruct (named (object_name "URI" "Value") (Node (head x) [])); discriminate E].
  destruct (H x Hx N) as (k & Hk & Nk). apply in_map_iff. exists k. split; auto. unfold value_class. rewrite !named_node, Nk.
  destruct (named q k) eqn:Q; auto. exfalso. unfold named in *. cbn [head h_kind h_tag] in D. destruct (h_kind (head k)); try discriminate.
  apply qn_eqb_eq in Nk. apply qn_eqb_eq in Q. rewrite <- Q, Nk, qn_eqb_refl in D. discriminate.
Qed.

Lemma driver_class {A} (c : hdr -> A) : (forall h h', h_kind h = KElem -> h_kind h' = KElem ->
    q_ns (h_tag h) = Some "http://cybox.mitre.org/objects#WinDriverObject-2" -> q_ns (h_tag h') = Some "http://cybox.mitre.org/objects#WinDriverObject-3" -> c h' = c h) ->
  forall b y, moves driver_ns y = true -> is_elem y = true -> c (rebuilt [] driver_ns b y) = c (head y).
Proof.
  intros H b y M E. unfold moves in M. destruct (q_ns (h_tag (head y))) as [ns|] eqn:N; [|discriminate]. apply mem_str_In in M. destruct M as [M|[]].
  cbn [fst] in M. subst ns. assert (K : h_kind (head y) = KElem) by (unfold is_elem in E; destruct (h_kind (head y)); auto; discriminate).
  apply H; auto. unfold rebuilt. cbn [h_tag q_ns]. rewrite N. reflexivity.
Qed.

Lemma named_other_ns q h u : q_ns (h_tag h) = Some u -> q_ns q <> Some u -> named q (Node h []) = false.
Proof.
  intros A B. unfold named. cbn [head]. destruct (h_kind h); auto. apply not_true_is_false. intro E. apply qn_eqb_eq in E. subst q. contradiction.
Qed.

Lemma value_class_driver q : (exists l, q = http_name l) -> forall h h', h_kind h = KElem -> h_kind h' = KElem ->
    q_ns (h_tag h) = Some "http://cybox.mitre.org/objects#WinDriverObject-2" -> q_ns (h_tag h') = Some "http://cybox.mitre.org/objects#WinDriverObject-3" ->
  value_class q h' = value_class q h.
Proof.
  intros (l & ->) h h' _ _ A B. unfold value_class. rewrite !(named_other_ns _ h _ A), !(named_other_ns _ h' _ B) by discriminate. reflexivity.
Qed.

Lemma values_before marked q t m : is_elem t = true -> (exists l, q = http_name l) ->
  in_order [ namespaces_pass [] driver_ns;
      always (schemaloc_pass [] driver_ns cybox_2_0_1_schemaloc_map);
      always (edit_where marked stamp_cybox_2_1) ] t = Ok m -> shaped (value_class q) value_shape t -> shaped (value_class q) value_shape m.
Proof.
  intros E Q H S.
  apply in_order_ok in H as (m1 & H1 & H). apply namespaces_ok in H1 as ->.
  change (Ok (edit_where marked stamp_cybox_2_1 (schemaloc_pass [] driver_ns cybox_2_0_1_schemaloc_map (ns_pass [] driver_ns [] t))) = Ok m) in H. injection H as <-.
  apply shaped_edit; [intros b y; destruct (marked b y); [apply value_class_same|]; reflexivity|].
  apply shaped_on_root; [intro h; destruct (attr_get _ _); [apply value_class_same|]; reflexivity|].
  apply shaped_ns; auto. apply driver_class, value_class_driver, Q.
Qed.

Lemma shaped_value_err q p t x : (forall b k, p b k = true -> named q k = true) -> shaped (value_class q) value_shape t ->
  rewrite_all p (value_of_child (object_name "URI" "Value")) t = Err x -> False.
Proof.
  intros Pq S E. apply rewrite_err in E as (b & y & I & Py & E). unfold value_of_child in E.
  destruct (filter _ (kids y)) as [|v l] eqn:F; [|discriminate]. assert (Hy : In y (nodes t)) by (apply nodes_in; eauto).
  assert (I1 : In 1 (map (fun k => value_class q (head k)) (kids y))).
  { apply S; auto. unfold value_class. rewrite named_node, (Pq _ _ Py). reflexivity. }
  apply in_map_iff in I1 as (k & Ek & Hk). unfold value_class in Ek. destruct (named q _); [discriminate|].
  destruct (named (object_name "URI" "Value") (Node (head k) [])) eqn:Nk; [|discriminate]. rewrite named_node in Nk.
  assert (X : In k (filter (named (object_name "URI" "Value")) (kids y))) by (apply filter_In; auto). rewrite F in X. exact X.
Qed.

Lemma any_inside_named q b k : any_inside [q] b k = true -> named q k = true.
Proof. unfold any_inside, named_in. cbn [existsb]. rewrite orb_false_r. intro H. apply andb_true_iff in H as [_ H]. exact H. Qed.

Lemma index_2_0_1 marked opts t : is_elem t = true -> values_present t -> cybox_2_0_1_step marked opts t <> Err IndexError.
Proof.
  intros E V. assert (S : forall n, In n ["DNT"; "Vary"] -> shaped (value_class (http_name n)) value_shape t).
  { intros n I. apply value_shape_of; [destruct I as [<-|[<-|[]]]; reflexivity|]. intros x Hx N. apply V; auto.
    unfold named_in. apply existsb_exists. exists (http_name n). split; auto. destruct I as [<-|[<-|[]]]; [left|right; left]; reflexivity. }
  pose proof (S "DNT" (or_introl eq_refl)) as S1. pose proof (S "Vary" (or_intror (or_introl eq_refl))) as S2. clear S V.
  change (cybox_2_0_1_step marked opts) with (in_order ([ namespaces_pass [] driver_ns;
      always (schemaloc_pass [] driver_ns cybox_2_0_1_schemaloc_map);
      always (edit_where marked stamp_cybox_2_1) ] ++ 
      [rewrite_all (any_inside [http_name "DNT"]) (value_of_child (object_name "URI" "Value"));
      rewrite_all (any_inside [http_name "Vary"]) (value_of_child (object_name "URI" "Value")) ] ++ after_values opts)%list).
  rewrite in_order_app. destruct (in_order [_; _; _] t) as [m|x] eqn:H; cbn [rbind].
  2:{ rewrite in_order_cons in H. destruct (namespaces_pass [] driver_ns t) as [m|y] eqn:Ns; cbn [rbind] in H; [discriminate H|].
      injection H as ->. apply raises_namespaces in Ns. intro X. injection X as ->. destruct Ns as [Ns|[]]. discriminate Ns. }
  apply (values_before marked _ t m E (ex_intro _ _ eq_refl) H) in S1. apply (values_before marked _ t m E (ex_intro _ _ eq_refl) H) in S2. clear H E t.
  rewrite in_order_app, in_order_cons. destruct (rewrite_all (any_inside [http_name "DNT"]) _ m) as [m'|x] eqn:H; cbn [rbind].
  2:{ destruct (shaped_value_err _ _ _ _ (any_inside_named _) S1 H). }
  apply (shaped_rewrite (value_class (http_name "Vary")) value_shape) in H; [|clear|exact S2].
  - rewrite in_order_cons. destruct (rewrite_all (any_inside [http_name "Vary"]) _ m') as [m2|x] eqn:H2; cbn [rbind].
    2:{ destruct (shaped_value_err _ _ _ _ (any_inside_named _) H H2). }
    rewrite in_order_nil. cbn [rbind]. intro X. apply raises_after in X. destruct X as [X|[X|[X|[]]]]; discriminate X.
  - intros b k z Pk Gk _. apply any_inside_named in Pk. unfold value_of_child in Gk. destruct (filter _ _) as [|v l]; [discriminate|]. injection Gk as <-.
    unfold named in Pk. destruct (h_kind (head k)) eqn:K; try discriminate. apply qn_eqb_eq in Pk. split.
    + apply value_class_same; auto.
    + apply shaped_node. split; [|intros w []]. unfold value_class, named. cbn [head h_kind h_tag]. rewrite Pk. intro X. discriminate X.
Qed.

(** *** Contributors *)

(** 0: Contributors; 1: other elements; 2: comments and the like. *)
Definition contributor_class (h : hdr) : nat :=
  if named (common "Contributors") (Node h []) then 0 else if is_elem (Node h []) then 1 else 2.
Definition contributor_shape (a : nat) (l : list nat) : Prop := a = 0 -> ~ In 2 l.
Definition contributors_shaped : tree -> Prop := shaped contributor_class contributor_shape.

Lemma contributor_class_same h h' : h_tag h' = h_tag h -> h_kind h' = h_kind h -> contributor_class h' = contributor_class h.
Proof. intros A B. unfold contributor_class, named, is_elem. cbn [head]. rewrite A, B. reflexivity. Qed.

Lemma contributor_class_two h : contributor_class h = 2 <-> is_elem (Node h []) = false.
Proof.
  unfold contributor_class. destruct (named _ _) eqn:N.
  - split; [discriminate|]. unfold named, is_elem in *. cbn [head] in *. destruct (h_kind h); discriminate.
  - destruct (is_elem _); split; intro; try discriminate; reflexivity.
Qed.

Lemma contributors_shape_of t : contributors_only t <-> contributors_shaped t.
Proof.
  split.
  - intros H x Hx E I. apply in_map_iff in I as (k & Ek & Hk). apply contributor_class_two in Ek.
    unfold contributor_class in E. rewrite named_node in E. destruct (named (common "Contributors") x) eqn:N; [|destruct (is_elem (Node (head x) [])); discriminate E].
    assert (X : is_elem k = true) by exact (H x k Hx N Hk). unfold is_elem in *. cbn [head] in Ek. rewrite X in Ek. discriminate.
  - intros H x k Hx N Hk. destruct (is_elem k) eqn:E; auto. exfalso. apply (H x Hx).
    + unfold contributor_class. rewrite named_node, N. reflexivity.
    + apply in_map_iff. exists k. split; auto. apply contributor_class_two. exact E.
Qed.

Lemma contributors_edit f t : (forall b y, contributor_class (f b y) = contributor_class (head y)) -> contributors_shaped t -> contributors_shaped (edit f [] t).
Proof. intros H S. apply shaped_edit; auto. Qed.

Lemma contributors_loc drop m loc t : contributors_shaped t -> contributors_shaped (schemaloc_pass drop m loc t).
Proof. apply shaped_on_root. intro h. destruct (attr_get _ _); [apply contributor_class_same|]; reflexivity. Qed.

Lemma contributors_vocab v t m : vocab_pass v t = Ok m -> contributors_shaped t -> contributors_shaped m.
Proof.
  intros E S. unfold vocab_pass in E. destruct (first_err type_of _); [discriminate|]. destruct (first_err (upgraded v) _); [discriminate|].
  injection E as <-. apply contributors_edit; auto. intros b y. destruct (outdated v (b, y)) eqn:O; auto. destruct (upgraded v (b, y)) as [h|] eqn:U; auto.
  destruct (upgraded_shape _ _ _ _ U) as (a & n & _ & _ & W). apply upgraded_with_same in W. destruct W as (W1 & W2 & _). apply contributor_class_same; congruence.
Qed.

Lemma contributors_vocabs l : forall t m, passes vocab_pass l t = Ok m -> contributors_shaped t -> contributors_shaped m.
Proof.
  induction l as [|v l IH]; intros t m E S; [injection E as <-; exact S|]. rewrite passes_cons in E. destruct (vocab_pass v t) as [t'|] eqn:V; [|discriminate].
  cbn [rbind] in E. exact (IH t' m E (contributors_vocab v t t' V S)).
Qed.

Lemma contributors_rename a b t m : rename a b t = Ok m -> a <> common "Contributors" -> b <> common "Contributors" -> contributors_shaped t -> contributors_shaped m.
Proof.
  intros E A B S. injection E as <-. apply contributors_edit; auto. intros c y. destruct (any_inside [a] c y) eqn:N; auto.
  apply any_inside_named in N. unfold named in N. destruct (h_kind (head y)) eqn:K; try discriminate. apply qn_eqb_eq in N.
  unfold contributor_class, named, is_elem. cbn [head h_kind set_tag h_tag]. rewrite K, N.
  rewrite (proj2 (qn_eqb_neq _ _) A), (proj2 (qn_eqb_neq _ _) B). reflexivity.
Qed.

Lemma contributors_childless p G t m : (forall b k z, p b k = true -> G k = Ok z -> kids z = [] /\ h_kind (head z) = h_kind (head k) /\ h_tag (head z) = h_tag (head k)) ->
  rewrite_all p G t = Ok m -> contributors_shaped t -> contributors_shaped m.
Proof.
  intros H. apply shaped_rewrite. intros b k [h ks] Pk Gk _. destruct (H b k _ Pk Gk) as (K & A & B). cbn [kids head] in *. subst ks.
  split; [apply contributor_class_same; auto|]. apply shaped_node. split; [intros _ []|intros k' []].
Qed.

Lemma any_inside_kind q b k : any_inside [q] b k = true -> h_kind (head k) = KElem.
Proof. intro H. apply any_inside_named in H. unfold named in H. destruct (h_kind (head k)); congruence. Qed.

Lemma contributors_unwrap a b c t : a <> common "Contributors" -> c <> common "Contributors" -> contributors_shaped t -> contributors_shaped (unwrap_pass a b c t).
Proof.
  intros A C. apply shaped_subst. intros d k l E S. destruct (inside d && named a k) eqn:N; [|discriminate]. apply andb_true_iff in N as [_ N].
  destruct (filter (named b) (kids k)) as [|x xs] eqn:F; [discriminate|]. injection E as <-. exists (renamed_to c x). split; auto.
  assert (Hx : In x (filter (named b) (kids k))) by (rewrite F; left; auto). apply filter_In in Hx as [Hx Nx].
  assert (Cx : contributor_class (set_tag c (head x)) = 1).
  { unfold contributor_class, named, is_elem in *. cbn [head h_kind set_tag h_tag]. destruct (h_kind (head x)); try discriminate.
    rewrite (proj2 (qn_eqb_neq _ _) C). reflexivity. }
  split.
  - cbn [renamed_to head]. rewrite Cx. unfold contributor_class, named, is_elem in *. cbn [head]. destruct (h_kind (head k)); try discriminate.
    apply qn_eqb_eq in N. rewrite N, (proj2 (qn_eqb_neq _ _) A). reflexivity.
  - unfold renamed_to. apply shaped_node. rewrite Cx. split; [intro X; discriminate X|]. intros y Hy.
    destruct k as [hk kk]. apply shaped_node in S as [_ S]. cbn [kids] in Hx. specialize (S x Hx). destruct x as [hx kx]. apply shaped_node in S as [_ S].
    exact (S y Hy).
Qed.

Lemma contributors_prune p t : contributors_shaped t -> contributors_shaped (prune p t).
Proof.
  apply shaped_prune. intros a l l' Sb H E I. apply (H E). clear - Sb I. induction Sb; [destruct I|destruct I as [<-|I]; [left|right]; auto|right; auto].
Qed.

Definition keeps_contributors (f : tree -> res tree) : Prop := forall t m, f t = Ok m -> contributors_shaped t -> contributors_shaped m.

Lemma keeps_contributors_nil : keeps_contributors (in_order []).
Proof. intros t m E S. rewrite in_order_nil in E. injection E as <-. exact S. Qed.

Lemma keeps_contributors_cons f l : keeps_contributors f -> keeps_contributors (in_order l) -> keeps_contributors (in_order (f :: l)).
Proof. intros A B t m H S. rewrite in_order_cons in H. destruct (f t) as [t'|] eqn:F; [|discriminate]. cbn [rbind] in H. exact (B t' m H (A t t' F S)). Qed.

Lemma keeps_contributors_when b f : keeps_contributors f -> keeps_contributors (when b f).
Proof. intros A t m H S. unfold when in H. destruct b; [exact (A t m H S)|]. injection H as <-. exact S. Qed.

Lemma keeps_contributors_always f : (forall t, contributors_shaped t -> contributors_shaped (f t)) -> keeps_contributors (always f).
Proof. intros A t m H S. injection H as <-. auto. Qed.

Lemma contributor_class_driver h h' : h_kind h = KElem -> h_kind h' = KElem ->
    q_ns (h_tag h) = Some "http://cybox.mitre.org/objects#WinDriverObject-2" -> q_ns (h_tag h') = Some "http://cybox.mitre.org/objects#WinDriverObject-3" ->
  contributor_class h' = contributor_class h.
Proof.
  intros K K' A B. unfold contributor_class. rewrite (named_other_ns _ h _ A), (named_other_ns _ h' _ B) by discriminate. unfold is_elem. cbn [head].
  rewrite K, K'. reflexivity.
Qed.

Lemma contributors_stamp marked t : contributors_shaped t -> contributors_shaped (edit_where marked stamp_cybox_2_1 t).
Proof. apply contributors_edit. intros b y. destruct (marked b y); [apply contributor_class_same|]; reflexivity. Qed.

Lemma keeps_contributors_2_0_1 marked opts t m : is_elem t = true -> cybox_2_0_1_step marked opts t = Ok m -> contributors_shaped t -> contributors_shaped m.
Proof.
  intros E H S. unfold cybox_2_0_1_step in H. apply in_order_ok in H as (m1 & H1 & H). apply namespaces_ok in H1 as ->.
  assert (S1 : contributors_shaped (ns_pass [] driver_ns [] t)) by (apply shaped_ns; auto; apply driver_class, contributor_class_driver).
  clear S E. revert H S1. generalize (ns_pass [] driver_ns [] t). intro t1.
  match goal with |- in_order ?l t1 = _ -> _ => enough (K : keeps_contributors (in_order l)) by exact (K t1 m) end. clear.
  apply keeps_contributors_cons; [apply keeps_contributors_always, contributors_loc|].
  apply keeps_contributors_cons; [apply keeps_contributors_always, contributors_stamp|].
  do 2 (apply keeps_contributors_cons; [intros t m; apply contributors_childless; intros b k z Pk Gk; apply any_inside_kind in Pk; unfold value_of_child in Gk;
    destruct (filter _ _); [discriminate|]; injection Gk as <-; cbn [kids head h_kind h_tag]; auto|]).
  apply keeps_contributors_cons; [intros t m; apply contributors_childless; intros b k z Pk Gk; apply any_inside_kind in Pk; injection Gk as <-; cbn [kids head h_kind h_tag]; auto|].
  do 4 (apply keeps_contributors_cons; [intros t m E; apply (contributors_rename _ _ t m E); discriminate|]).
  apply keeps_contributors_cons; [apply keeps_contributors_always; intro t; apply contributors_unwrap; discriminate|].
  apply keeps_contributors_cons; [apply keeps_contributors_when; intros t m; apply contributors_vocabs|].
  apply keeps_contributors_cons; [apply keeps_contributors_when, keeps_contributors_always; intro t; apply contributors_prune|].
  apply keeps_contributors_nil.
Qed.

Lemma attribute_1_0_1 opts t : is_elem t = true -> contributors_only t -> stix_1_0_1_step opts t <> Err AttributeError.
Proof.
  intros E C. apply contributors_shape_of in C. unfold stix_1_0_1_step. rewrite in_order_cons.
  destruct (cybox_2_0_1_step _ _ t) as [m|x] eqn:H; cbn [rbind].
  2:{ intro X. injection X as ->. apply raises_2_0_1 in H. destruct H as [H|[H|[H|[H|[]]]]]; discriminate H. }
  apply (keeps_contributors_2_0_1 _ _ _ _ E H) in C. clear E H. rewrite in_order_cons. cbn [always rbind]. rewrite in_order_cons. cbn [always rbind].
  apply (contributors_loc ["http://stix.mitre.org/extensions/AP#CAPEC2.6-1"; "http://stix.mitre.org/extensions/Malware#MAEC4.0-1"] [] stix_1_0_1_schemaloc_map) in C.
  apply (contributors_edit (fun anc x => if carries_version anc x then stamp_stix "2.1" "1.1" (head x) else head x)) in C;
    [|intros b y; destruct (carries_version b y); [apply contributor_class_same|]; reflexivity].
  change (edit (fun anc x => if carries_version anc x then stamp_stix "2.1" "1.1" (head x) else head x) []) with (edit_where carries_version (stamp_stix "2.1" "1.1")) in C.
  revert C. match goal with |- contributors_shaped ?a -> _ => generalize a end. clear. intros t C. rewrite in_order_cons.
  destruct (rewrite_all (any_inside [common "Contributors"]) _ t) as [m|x] eqn:H; cbn [rbind].
  - intro X. apply (raises_after_contributors opts) in X. destruct X as [X|[X|[X|[]]]]; discriminate X.
  - exfalso. apply rewrite_err in H as (b & y & I & P & H). apply any_inside_named in P. apply contributors_shape_of in C.
    unfold contributing_sources in H. rewrite (proj2 (forallb_forall _ _)) in H; [discriminate|]. intros k Hk. apply (C y k); auto. apply nodes_in. eauto.
Qed.

(** ** A step on a tolerable document *)

Definition root_prefixes (t : tree) : list string :=
  flat_map (fun p => match fst p with Some a => [a] | None => [] end) (h_decl (head t)).

Lemma root_prefixes_in t a : In a (root_prefixes t) <-> exists ns, In (Some a, ns) (h_decl (head t)).
Proof.
  unfold root_prefixes. rewrite in_flat_map. split.
  - intros ([[b|] ns] & I & H); [|destruct H]. destruct H as [<-|[]]. eauto.
  - intros (ns & I). exists (Some a, ns). split; [exact I|left; reflexivity].
Qed.

Lemma held_value t : distinct_attributes t -> types_readable t -> held q_value (root_prefixes t) t.
Proof. intros A B. split; [|intros a; apply root_prefixes_in]. intros x Hx. split; [apply A; exact Hx|]. intros v E. exact (B x v (conj Hx E)). Qed.

Lemma held_key t : distinct_attributes t -> prefixes_on_root t -> held (q_key (root_prefixes t)) (root_prefixes t) t.
Proof.
  intros A B. split; [|intros a; apply root_prefixes_in]. intros x Hx. split; [apply A; exact Hx|]. intros v a n E S. apply root_prefixes_in.
  exact (B x v a n (conj Hx E) S).
Qed.

Lemma held_type t : distinct_attributes t -> no_broken_reference t -> held q_type (root_prefixes t) t.
Proof.
  intros A B. split; [|intros a; apply root_prefixes_in]. intros x Hx. split; [apply A; exact Hx|]. intros v a n E S I.
  specialize (B x v a n (conj Hx E) S I). unfold has_attr in B. unfold attr_of. destruct (attr_get (lq "vocab_reference") _); [discriminate|reflexivity].
Qed.

Definition about_types (e : exn) : Prop := e = ValueError \/ e = KeyError \/ e = TypeError.

Lemma about_of e : about_types e -> of_types e.
Proof. intros [->|[->| ->]]; repeat split; discriminate. Qed.

Lemma held_of e t : about_types e -> distinct_attributes t -> tolerable e t -> held (q_of e (root_prefixes t)) (root_prefixes t) t.
Proof.
  intros [->|[->| ->]] D H; cbn [tolerable q_of] in *; [apply held_value|apply held_key|apply held_type]; auto; apply H.
Qed.

Lemma section_found h : broken_section h <-> h_cdata h && contains "]]>" (match h_text h with Some s => s | None => "" end) = true.
Proof.
  unfold broken_section. destruct (h_cdata h); cbn [andb]; [|split; [intros [X _]; discriminate|discriminate]].
  destruct (h_text h) as [s|].
  - split; [intros (_ & a & b & E); injection E as ->; apply occurs_contains; exists a, b; reflexivity|].
    intro H. apply contains_some in H as (a & b & ->). eauto.
  - split; [intros (_ & a & b & E); discriminate|discriminate].
Qed.

Lemma whole_moves m t : sections_whole t -> stuck m t = false.
Proof.
  tree_induction t. intro H. cbn [stuck]. apply orb_false_iff. split.
  - destruct (moves m (Node h ks)); [|reflexivity]. cbn [andb]. unfold breaks_section. cbn [kids head]. destruct ks; [|reflexivity].
    destruct (h_cdata h && _) eqn:E; [|reflexivity]. apply section_found in E. destruct (H _ (nodes_self _) E).
  - destruct (existsb _ ks) eqn:E; [|reflexivity]. apply existsb_exists in E as (k & Hk & E). apply andb_true_iff in E as [_ E].
    rewrite IH in E; [discriminate|exact Hk|]. intros x Hx. apply H. right. apply in_flat_map. eauto.
Qed.

Lemma tolerable_movable e m t : tolerable e t -> movable e m t.
Proof. intros H ->. apply whole_moves. apply H. Qed.

Lemma safe_at I J e f t : safe I e f J -> I t -> f t <> Err e.
Proof. intros S H E. specialize (S t H). rewrite E in S. apply S. reflexivity. Qed.

Lemma tolerated_2_0 p opts e t : distinct_attributes t -> tolerable e t -> cybox_2_0_step p opts t <> Err e.
Proof.
  intros D H E. pose proof (raises_2_0 _ _ _ _ E) as R.
  assert (A : about_types e) by (destruct R as [<-|[<-|[<-|[]]]]; unfold about_types; auto).
  revert E. eapply safe_at; [|exact (held_of e t A D H)]. apply types_2_0; [apply typing_of|intros; eapply q_upgraded; eauto|intros; eapply q_typed; eauto|intros; eapply q_outdated; eauto].
Qed.

Lemma tolerated_2_0_1 p opts e t : is_elem t = true -> distinct_attributes t -> tolerable e t -> cybox_2_0_1_step p opts t <> Err e.
Proof.
  intros El D H E. pose proof (raises_2_0_1 _ _ _ _ E) as R.
  assert (A : about_types e \/ e = IndexError) by (destruct R as [<-|[<-|[<-|[<-|[]]]]]; unfold about_types; auto).
  destruct A as [A| ->]; [|revert E; apply index_2_0_1; auto].
  revert E. eapply (safe_at (fun t0 => held (q_of e (root_prefixes t)) (root_prefixes t) t0 /\ movable e driver_ns t0)); [|exact (conj (held_of e t A D H) (tolerable_movable e driver_ns t H))].
  apply types_2_0_1; [apply typing_of|apply about_of, A|intros; eapply q_upgraded; eauto|intros; eapply q_typed; eauto|intros; eapply q_outdated; eauto].
Qed.

Lemma tolerated_1_0 opts e t : distinct_attributes t -> tolerable e t -> stix_1_0_step opts t <> Err e.
Proof.
  intros D H E. pose proof (raises_1_0 _ _ _ E) as R.
  assert (A : about_types e) by (destruct R as [<-|[<-|[<-|[]]]]; unfold about_types; auto).
  revert E. eapply safe_at; [|exact (held_of e t A D H)]. apply types_1_0; [apply typing_of|intros; eapply q_upgraded; eauto|intros; eapply q_typed; eauto|intros; eapply q_outdated; eauto].
Qed.

Lemma index_1_0_1 opts t : is_elem t = true -> values_present t -> stix_1_0_1_step opts t <> Err IndexError.
Proof.
  intros El V. unfold stix_1_0_1_step. rewrite in_order_cons. pose proof (index_2_0_1 (any_inside cybox_in_stix_1_0_1) opts t El V) as N.
  destruct (cybox_2_0_1_step _ opts t) as [m|x]; cbn [rbind]; [|intro E; injection E as ->; contradiction].
  rewrite in_order_cons. cbn [always rbind]. rewrite in_order_cons. cbn [always rbind]. rewrite in_order_cons.
  destruct (rewrite_all (any_inside [common "Contributors"]) _ _) as [m'|x] eqn:R; cbn [rbind].
  - intro X. apply (raises_after_contributors opts) in X. destruct X as [X|[X|[X|[]]]]; discriminate X.
  - intro E. injection E as ->. apply rewrite_err in R as (b & y & _ & _ & R). unfold contributing_sources in R. destruct (forallb _ _); discriminate R.
Qed.

Lemma tolerated_1_0_1 opts e t : is_elem t = true -> distinct_attributes t -> tolerable e t -> stix_1_0_1_step opts t <> Err e.
Proof.
  intros El D H E. pose proof (raises_1_0_1 _ _ _ E) as R.
  assert (A : about_types e \/ e = IndexError \/ e = AttributeError) by (destruct R as [<-|[<-|[<-|[<-|[<-|[]]]]]]; unfold about_types; auto).
  destruct A as [A|[-> | ->]]; [|revert E; apply index_1_0_1; auto|revert E; apply attribute_1_0_1; auto].
  revert E. eapply (safe_at (fun t0 => held (q_of e (root_prefixes t)) (root_prefixes t) t0 /\ movable e driver_ns t0)); [|exact (conj (held_of e t A D H) (tolerable_movable e driver_ns t H))].
  apply types_1_0_1; [apply typing_of|apply about_of, A|intros; eapply q_upgraded; eauto|intros; eapply q_typed; eauto|intros; eapply q_outdated; eauto].
Qed.

Lemma syntax_1_1 o opts t : distinct_attributes t -> sources_plain t -> stix_1_1_step o opts t <> Err XMLSyntaxError.
Proof.
  intros D S. unfold stix_1_1_step. match goal with |- in_order ?l t <> _ => change l with (firstn 5 l ++ skipn 5 l)%list end.
  rewrite in_order_app.
  assert (F : sourced_held (fun _ => True) [] t).
  { split; [|apply sources_all, S]. split; [intros x Hx; split; [apply D; exact Hx|exact Logic.I]|intros a []]. }
  pose proof (sources_first (fun _ => True) [] XMLSyntaxError typing_true o t F) as P. cbn [firstn].
  destruct (in_order _ t) as [m|x]; cbn [rbind]; [|congruence]. clear.
  intro E. assert (R : raises (in_order (skipn 5
    [ always (schemaloc_pass [] driver_ns cybox_2_0_1_schemaloc_map);
      always (schemaloc_pass [] [] stix_1_1_schemaloc_map);
      always (edit_where carries_version (stamp_stix "2.1.1" "1.1.1"));
      rewrite_all (child_in sourced (common "Source")) (structured_source o false);
      rewrite_all (child_in [indicator "Sighting"] (indicator "Source")) (structured_source o true);
      rewrite_all (child_in [indicator "Related_Campaigns"] (indicator "Related_Campaign"))
                  (wrap_renamed (indicator "Related_Campaign") (common "Campaign"));
      when (update_vocabularies opts) (vocab_pass availability_loss);
      when (remove_optionals opts)
        (optional_in_type "GenericTestMechanismType"
           "http://stix.mitre.org/extensions/TestMechanism#Generic-1") ])) [ValueError; KeyError]).
  { cbn [skipn]. apply raises_cons; [apply raises_rewrite; discriminate|].
    apply raises_cons; [apply raises_when, raises_strings_only; [do 8 right; left; reflexivity|discriminate]|].
    apply raises_cons; [apply raises_when, raises_optional|]. apply raises_nil. }
  apply R in E. destruct E as [E|[E|[]]]; discriminate E.
Qed.

Lemma tolerated_1_1 o opts e t : distinct_attributes t -> tolerable e t -> stix_1_1_step o opts t <> Err e.
Proof.
  intros D H E. pose proof (raises_1_1 _ _ _ _ E) as R.
  assert (A : (about_types e /\ sources_plain t) \/ e = XMLSyntaxError).
  { destruct R as [<-|[<-|[<-|[]]]]; [left|left|right; reflexivity]; (split; [unfold about_types; auto|apply H]). }
  destruct A as [[A S]| ->]; [|revert E; apply syntax_1_1; auto].
  revert E. eapply (safe_at (sourced_held (q_of e (root_prefixes t)) (root_prefixes t))); [|exact (conj (held_of e t A D H) (proj1 (sources_all t) S))].
  apply types_1_1; [apply typing_of|apply about_of, A|intros; eapply q_upgraded; eauto|intros; eapply q_typed; eauto|intros; eapply q_outdated; eauto].
Qed.

Lemma tolerated_1_1_1 opts e t : distinct_attributes t -> tolerable e t -> stix_1_1_1_step opts t <> Err e.
Proof.
  intros D H E. pose proof (raises_1_1_1 _ _ _ E) as R.
  assert (A : about_types e) by (destruct R as [<-|[<-|[]]]; unfold about_types; auto).
  revert E. eapply safe_at; [|exact (held_of e t A D H)]. apply types_1_1_1; [apply typing_of|intros; eapply q_upgraded; eauto|intros; eapply q_typed; eauto|intros; eapply q_outdated; eauto].
Qed.

Lemma stix_tolerated o opts v f e t : stix_step o opts v = Some f -> is_elem t = true -> distinct_attributes t -> tolerable e t -> f t <> Err e.
Proof.
  unfold stix_step, dict_get. intros H El D T.
  destruct (String.eqb v "1.0"); [injection H as <-; apply tolerated_1_0; auto|].
  destruct (String.eqb v "1.0.1"); [injection H as <-; apply tolerated_1_0_1; auto|].
  destruct (String.eqb v "1.1"); [injection H as <-; apply tolerated_1_1; auto|].
  destruct (String.eqb v "1.1.1"); [injection H as <-; apply tolerated_1_1_1; auto|].
  destruct (String.eqb v "1.2"); [injection H as <-|discriminate]. intro E.
  destruct (raises_1_2 t e E) as [<-|[]]. unfold stix_1_2_step in E. rewrite in_order_cons in E. unfold namespaces_pass in E.
  rewrite (whole_moves stix_1_2_ns_map t) in E by apply T. discriminate E.
Qed.

Lemma cybox_tolerated opts v f e t : cybox_step opts v = Some f -> is_elem t = true -> distinct_attributes t -> tolerable e t -> f t <> Err e.
Proof.
  unfold cybox_step, dict_get. intros H El D T.
  destruct (String.eqb v "2.0"); [injection H as <-; apply tolerated_2_0; auto|].
  destruct (String.eqb v "2.0.1"); [injection H as <-|discriminate]. apply tolerated_2_0_1; auto.
Qed.

(** ** A check of a tolerable document *)

Lemma types_tolerated e t c : about_types e -> distinct_attributes t -> tolerable e t -> In c (visits [] t) -> typed c = true -> type_of c <> Err e.
Proof. intros A D H I T. exact (q_typed e (root_prefixes t) t c (held_of e t A D H) I T). Qed.

Lemma offenders_tolerated r e t : distinct_attributes t -> tolerable e t -> offenders r t <> Err e.
Proof.
  intros D H E. destruct r as [p|n ns|p]; try discriminate E. cbn [offenders] in E. destruct (first_err type_of _) as [x|] eqn:F; [|discriminate].
  injection E as ->. apply first_err_elem in F as (c & I & F). apply filter_In in I as [I T]. pose proof (type_errs c e T F) as K.
  refine (types_tolerated e t c _ D H I T F). destruct K as [<-|[<-|[]]]; unfold about_types; auto.
Qed.

Lemma untranslatable_tolerated l e t : distinct_attributes t -> tolerable e t -> untranslatable l t <> Err e.
Proof.
  intros D H. induction l as [|r l IH]; [discriminate|]. cbn [untranslatable]. pose proof (offenders_tolerated r e t D H) as R.
  destruct (offenders r t) as [a|x]; cbn [rbind]; [|congruence]. destruct (untranslatable l t); cbn [rbind]; congruence.
Qed.

Lemma version_is_err expected found i x : (exists v, strict_version expected = Some v) -> version_is expected found i = Err x ->
  documented x \/ x = ValueError /\ forall v pre, ~ version_number found v pre.
Proof.
  intros (v & E) H. unfold version_is, is_version_equal in H. rewrite E in H. destruct (strict_version found) as [w|] eqn:F; cbn [rbind] in H.
  - destruct (match sver_compare v w with Eq => true | _ => false end); [discriminate|]. injection H as <-. left. constructor.
  - injection H as <-. right. split; auto. apply strict_version_none. exact F.
Qed.

Definition safe_check (c : tree -> res unit) : Prop := forall t x, distinct_attributes t -> c t = Err x -> documented x \/ ~ tolerable x t.

Lemma selected_in p t c : In c (selected p t) -> In (snd c) (nodes t) /\ p (fst c) (snd c) = true.
Proof. unfold selected. intro H. apply filter_In in H as [I P]. split; auto. destruct c as [b y]. apply nodes_in. eauto. Qed.

Lemma given_some o s : given o = Some s -> o = Some s /\ s <> "".
Proof. unfold given. destruct o as [[|c w]|]; try discriminate. intro H. injection H as <-. split; [reflexivity|discriminate]. Qed.

Lemma check_stix_version expected : (exists v, strict_version expected = Some v) -> safe_check (stix_version_check expected).
Proof.
  intros V t x _ E. unfold stix_version_check in E. destruct (selected _ t) as [|c l] eqn:S; [discriminate|].
  destruct (given _) as [found|] eqn:G; [|injection E as <-; left; constructor]. apply version_is_err in E as [E|[-> N]]; auto. right.
  apply given_some in G as [G Ne]. intros (_ & R & _).
  assert (Hc : In c (selected (anywhere [stix "STIX_Package"]) t)) by (rewrite S; left; reflexivity). apply selected_in in Hc as [Hc Nm].
  unfold anywhere, named_in in Nm. cbn [existsb] in Nm. rewrite orb_false_r in Nm.
  destruct (R (snd c) found Hc (or_introl (conj Nm G))) as [X|(v & pre & X)]; [contradiction|exact (N v pre X)].
Qed.

Lemma cybox_declared_not_empty x s : cybox_declared x = Some s -> s <> "".
Proof.
  unfold cybox_declared. destruct (given _) as [a|] eqn:A; [|discriminate]. apply given_some in A as [_ A]. destruct a as [|c a]; [contradiction|].
  destruct (given _); [|discriminate]. destruct (given _); intro H; injection H as <-; discriminate.
Qed.

Lemma check_cybox_version expected marked : (exists v, strict_version expected = Some v) -> safe_check (cybox_version_check expected marked).
Proof.
  intros V t x _ E. unfold cybox_version_check in E. destruct (first_err _ _) as [y|] eqn:F; [|discriminate]. injection E as ->.
  apply first_err_elem in F as (c & I & F). apply selected_in in I as [I _]. cbv beta in F; unfold SpecCheck.cybox_version_of in F.
  destruct (cybox_declared (snd c)) as [found|] eqn:G; [|injection F as <-; left; constructor].
  apply version_is_err in F as [F|[-> N]]; auto. right. intros (_ & R & _).
  destruct (R (snd c) found I (or_intror G)) as [X|(v & pre & X)]; [exact (cybox_declared_not_empty _ _ G X)|exact (N v pre X)].
Qed.

Lemma check_rules rules : safe_check (nothing_untranslatable rules).
Proof.
  intros t x D E. unfold nothing_untranslatable in E. pose proof (fun H => untranslatable_tolerated rules x t D H) as U.
  destruct (untranslatable rules t) as [[|i l]|y]; cbn [rbind] in E; [discriminate|injection E as <-; left; constructor|].
  injection E as ->. right. intro H. exact (U H eq_refl).
Qed.

Lemma check_clean rules dups : safe_check (nothing_to_clean rules dups).
Proof.
  intros t x D E. unfold nothing_to_clean in E. pose proof (fun H => untranslatable_tolerated rules x t D H) as U.
  destruct (untranslatable rules t) as [l|y]; cbn [rbind] in E.
  - left. destruct l; [destruct (dups t); [discriminate|]|]; injection E as <-; constructor.
  - injection E as ->. right. intro H. exact (U H eq_refl).
Qed.

Lemma check_asked b c : safe_check c -> safe_check (if_asked b c).
Proof. intros H t x D E. destruct b; [exact (H t x D E)|discriminate E]. Qed.

Lemma in_turn_cons f l t : in_turn (f :: l) t = rbind (f t) (fun _ => in_turn l t).
Proof.
  unfold in_turn. cbn [fold_left rbind]. destruct (f t) as [[]|x]; cbn [rbind]; [reflexivity|].
  induction l as [|g l IH]; [reflexivity|exact IH].
Qed.

Lemma check_turn l : Forall safe_check l -> safe_check (in_turn l).
Proof.
  induction 1 as [|f l F Fl IH]; intros t x D E; [discriminate E|]. rewrite in_turn_cons in E. destruct (f t) as [u|y] eqn:Ft; cbn [rbind] in E; [exact (IH t x D E)|].
  injection E as ->. exact (F t x D Ft).
Qed.

Lemma stix_check_safe o opts v c : stix_check o opts v = Some c -> safe_check c.
Proof.
  unfold stix_check, dict_get. intro H.
  destruct (String.eqb v "1.0"); [injection H as <-|
  destruct (String.eqb v "1.0.1"); [injection H as <-|
  destruct (String.eqb v "1.1"); [injection H as <-|
  destruct (String.eqb v "1.1.1"); [injection H as <-|
  destruct (String.eqb v "1.2"); [injection H as <-|discriminate]]]]].
  - apply check_turn. apply Forall_cons; [apply check_asked, check_stix_version; eexists; vm_compute; reflexivity|]. apply Forall_cons; [apply check_asked, check_cybox_version; eexists; vm_compute; reflexivity|].
    apply Forall_cons; [apply check_rules|]. apply Forall_nil.
  - apply check_turn. apply Forall_cons; [apply check_asked, check_stix_version; eexists; vm_compute; reflexivity|]. apply Forall_cons; [apply check_asked, check_cybox_version; eexists; vm_compute; reflexivity|].
    apply Forall_cons; [apply check_clean|]. apply Forall_nil.
  - apply check_asked, check_stix_version; eexists; vm_compute; reflexivity.
  - apply check_asked, check_stix_version; eexists; vm_compute; reflexivity.
  - apply check_asked, check_stix_version; eexists; vm_compute; reflexivity.
Qed.

Lemma cybox_check_safe opts v c : cybox_check opts v = Some c -> safe_check c.
Proof.
  unfold cybox_check, dict_get. intro H.
  destruct (String.eqb v "2.0"); [injection H as <-|destruct (String.eqb v "2.0.1"); [injection H as <-|discriminate]].
  - apply check_asked, check_cybox_version; eexists; vm_compute; reflexivity.
  - apply check_turn. apply Forall_cons; [apply check_asked, check_cybox_version; eexists; vm_compute; reflexivity|].
    apply Forall_cons; [apply check_clean|]. apply Forall_nil.
Qed.

Lemma stix_dirt_safe o v D t x : stix_dirt o v = Some D -> distinct_attributes t -> D t = Err x ->
  x = NotImplementedError /\ v = "1.2" \/ ~ tolerable x t.
Proof.
  unfold stix_dirt, dict_get. intros H Dt E.
  assert (K : forall rules (k : list nat -> res dirt), (forall l, exists d, k l = Ok d) -> rbind (untranslatable rules t) k = Err x -> ~ tolerable x t).
  { intros rules k Hk R T. pose proof (untranslatable_tolerated rules x t Dt T) as U. destruct (untranslatable rules t) as [l|y]; cbn [rbind] in R; [|congruence].
    destruct (Hk l) as (d & Ed). rewrite Ed in R. discriminate. }
  destruct (String.eqb v "1.0"); [apply some_inj in H; subst D; right; refine (K stix_1_0_rules _ _ E); eauto|].
  destruct (String.eqb v "1.0.1"); [apply some_inj in H; subst D; right; refine (K (stix_1_0_1_rules o) _ _ E); eauto|].
  destruct (String.eqb v "1.1"); [injection H as <-; discriminate E|].
  destruct (String.eqb v "1.1.1"); [injection H as <-; discriminate E|].
  destruct (String.eqb_spec v "1.2"); [injection H as <-; injection E as <-; auto|discriminate].
Qed.

Lemma cybox_dirt_safe v D t x : cybox_dirt v = Some D -> distinct_attributes t -> D t = Err x -> ~ tolerable x t.
Proof.
  unfold cybox_dirt, dict_get. intros H Dt E T.
  destruct (String.eqb v "2.0"); [injection H as <-; discriminate E|].
  destruct (String.eqb v "2.0.1"); [apply some_inj in H; subst D|discriminate]. pose proof (untranslatable_tolerated cybox_2_0_1_rules x t Dt T) as U.
  destruct (untranslatable _ t) as [l|y]; cbn [rbind] in E; [discriminate|congruence].
Qed.

(** ** Identities do not matter *)

Lemma named_erase q t : named q (erase t) = named q t.
Proof. destruct t. reflexivity. Qed.

Lemma named_in_erase qs t : named_in qs (erase t) = named_in qs t.
Proof. induction qs as [|q qs IH]; [reflexivity|]. unfold named_in in *. cbn [existsb]. rewrite named_erase, IH. reflexivity. Qed.

Lemma in_nodes_erase t x : In x (nodes (erase t)) <-> exists y, In y (nodes t) /\ x = erase y.
Proof. rewrite Vocab.nodes_erase, in_map_iff. split; intros (y & A & B); exists y; auto. Qed.

Lemma erase_attr t : h_attr (head (erase t)) = h_attr (head t).
Proof. destruct t. reflexivity. Qed.

Lemma erase_decl t : h_decl (head (erase t)) = h_decl (head t).
Proof. destruct t. reflexivity. Qed.

Lemma erase_text t : h_text (head (erase t)) = h_text (head t).
Proof. destruct t. reflexivity. Qed.

Lemma erase_kids t : kids (erase t) = map erase (kids t).
Proof. destruct t. reflexivity. Qed.

Lemma has_type_erase t x v : has_type t x v -> has_type (erase t) (erase x) v.
Proof. intros [I E]. split; [apply in_nodes_erase; eauto|]. rewrite erase_attr. exact E. Qed.

Lemma erase_has_type t x v : has_type (erase t) x v -> exists y, has_type t y v /\ x = erase y.
Proof. intros [I E]. apply in_nodes_erase in I as (y & I & ->). exists y. split; [split; auto|reflexivity]. rewrite erase_attr in E. exact E. Qed.

Lemma types_readable_erase t : types_readable (erase t) <-> types_readable t.
Proof.
  split; intros H x v E; [exact (H _ v (has_type_erase t x v E))|]. apply erase_has_type in E as (y & E & _). exact (H y v E).
Qed.

Lemma prefixes_erase t : prefixes_on_root (erase t) <-> prefixes_on_root t.
Proof.
  unfold prefixes_on_root. rewrite erase_decl. split; intros H x v a n E; [exact (H _ v a n (has_type_erase t x v E))|].
  apply erase_has_type in E as (y & E & _). exact (H y v a n E).
Qed.

Lemma broken_erase t : no_broken_reference (erase t) <-> no_broken_reference t.
Proof.
  split; intros H x v a n E S I.
  - specialize (H _ v a n (has_type_erase t x v E) S I). unfold has_attr in *. rewrite erase_attr in H. exact H.
  - apply erase_has_type in E as (y & E & ->). specialize (H y v a n E S I). unfold has_attr in *. rewrite erase_attr. exact H.
Qed.

Lemma values_erase t : values_present (erase t) <-> values_present t.
Proof.
  split; intros H x I N.
  - destruct (H (erase x)) as (k & Hk & Nk); [apply in_nodes_erase; eauto|rewrite named_in_erase; exact N|].
    rewrite erase_kids in Hk. apply in_map_iff in Hk as (k' & <- & Hk). rewrite named_erase in Nk. eauto.
  - apply in_nodes_erase in I as (y & I & ->). rewrite named_in_erase in N. destruct (H y I N) as (k & Hk & Nk).
    exists (erase k). rewrite erase_kids, named_erase. split; auto. apply in_map. exact Hk.
Qed.

Lemma contributors_erase t : contributors_only (erase t) <-> contributors_only t.
Proof.
  split.
  - intros H x k I N Hk. rewrite <- elem_erase. apply (H (erase x)); [apply in_nodes_erase; eauto|rewrite named_erase; exact N|].
    rewrite erase_kids. apply in_map. exact Hk.
  - intros H x k I N Hk. apply in_nodes_erase in I as (y & I & ->). rewrite named_erase in N. rewrite erase_kids in Hk.
    apply in_map_iff in Hk as (k' & <- & Hk). rewrite elem_erase. exact (H y k' I N Hk).
Qed.

Lemma sources_erase t : sources_plain (erase t) <-> sources_plain t.
Proof.
  split.
  - intros H x I N s E. apply (H (erase x)); [apply in_nodes_erase; eauto|rewrite named_in_erase; exact N|rewrite erase_text; exact E].
  - intros H x I N s E. apply in_nodes_erase in I as (y & I & ->). rewrite named_in_erase in N. rewrite erase_text in E. exact (H y I N s E).
Qed.

Lemma cybox_declared_erase t : cybox_declared (erase t) = cybox_declared t.
Proof. unfold cybox_declared. rewrite erase_attr. reflexivity. Qed.

Lemma sections_erase t : sections_whole (erase t) <-> sections_whole t.
Proof.
  split.
  - intros H x I E. apply (H (erase x)); [apply in_nodes_erase; eauto|]. destruct x. exact E.
  - intros H x I E. apply in_nodes_erase in I as (y & I & ->). apply (H y I). destruct y. exact E.
Qed.

Lemma versions_erase t : versions_readable (erase t) <-> versions_readable t.
Proof.
  split.
  - intros H x s I E. apply (H (erase x)); [apply in_nodes_erase; eauto|]. rewrite named_erase, erase_attr, cybox_declared_erase. exact E.
  - intros H x s I E. apply in_nodes_erase in I as (y & I & ->). rewrite named_erase, erase_attr, cybox_declared_erase in E. exact (H y s I E).
Qed.

Lemma tolerable_erase e t : tolerable e (erase t) <-> tolerable e t.
Proof.
  destruct e; cbn [tolerable]; try tauto.
  - rewrite prefixes_erase, sources_erase. tauto.
  - rewrite types_readable_erase, versions_erase, sources_erase, sections_erase. tauto.
  - apply values_erase.
  - apply broken_erase.
  - apply contributors_erase.
  - apply sources_erase.
Qed.

Lemma distinct_erase t : distinct_attributes (erase t) <-> distinct_attributes t.
Proof.
  split.
  - intros H x I. rewrite <- erase_attr. apply H. apply in_nodes_erase. eauto.
  - intros H x I. apply in_nodes_erase in I as (y & I & ->). rewrite erase_attr. auto.
Qed.

Lemma tolerable_numbered e n t : tolerable e (numbered n t) <-> tolerable e t.
Proof. rewrite <- tolerable_erase, numbered_erase, tolerable_erase. tauto. Qed.

Lemma distinct_numbered n t : distinct_attributes (numbered n t) <-> distinct_attributes t.
Proof. rewrite <- distinct_erase, numbered_erase, distinct_erase. tauto. Qed.

(** ** One step *)

Lemma single_fault c D (f : tree -> res tree) new_id force g t x :
  safe_check c -> distinct_attributes t ->
  (forall t1, fit t t1 -> tolerable x t1 -> f t1 <> Err x) ->
  single c D f new_id force g t = Err x ->
  documented x \/ force = true /\ D t = Err x \/
  exists t1, ~ tolerable x t1 /\ (t1 = erase t \/ force = true /\ exists dt, D t = Ok dt /\ t1 = erase (cleaned new_id g dt t)).
Proof.
  intros C Dt F. unfold single. destruct (c t) as [u|y] eqn:E.
  - assert (Fe : tolerable x (erase t) -> f (erase t) <> Err x).
    { apply F. split; [|apply elem_erase]. intros Q [B _] H. apply all_erase; auto. }
    destruct (f (erase t)) as [e|z] eqn:Ef; cbn [rbind]; [discriminate|]. intro H. injection H as ->.
    right. right. exists (erase t). split; [intro H; exact (Fe H eq_refl)|auto].
  - destruct (force && forceable y) eqn:Fo.
    + apply andb_true_iff in Fo as [-> _]. destruct (D t) as [dt|z] eqn:Ed; cbn [rbind]; [|intro H; injection H as ->; auto].
      assert (Fe : tolerable x (erase (cleaned new_id g dt t)) -> f (erase (cleaned new_id g dt t)) <> Err x).
      { apply F. split; [intros Q R H; apply robust_cleaned; auto|apply cleaned_elem]. }
      destruct (f (erase (cleaned new_id g dt t))) as [e|z] eqn:Ef; cbn [rbind]; [discriminate|]. intro H. injection H as ->.
      right. right. exists (erase (cleaned new_id g dt t)). split; [intro H; exact (Fe H eq_refl)|]. right. split; auto. exists dt. auto.
    + intro H. injection H as ->. destruct (C t x Dt E) as [K|K]; auto. right. right. exists (erase t). rewrite tolerable_erase. auto.
Qed.

Lemma fit_distinct_plain t t1 : fit t t1 -> distinct_attributes t -> distinct_attributes t1.
Proof. intros [H _] D. exact (H _ robust_distinct D). Qed.

Lemma stix_fault o opts v up d force s t x s' :
  dict_get v (STIX_UPDATERS o) = Some up -> wf_state s -> denotes s d t -> is_elem t = true -> distinct_attributes t ->
  updater_update o up d opts force s = (Err x, s') ->
  documented x \/ (x = NotImplementedError /\ v = "1.2" /\ force = true) \/
  exists t1, worked_on o up d opts force s t t1 /\ ~ tolerable x t1.
Proof.
  intros U W Dn El Dt E. pose proof (stix_step_performed o opts v up d force s t U W Dn) as P.
  destruct (stix_described o (or_default o opts) v up U) as (c & D & f & Ec & Ed & Ef & _). unfold stix_single in P. rewrite Ec, Ed, Ef in P.
  destruct (single _ _ _ _ _ _ _) as [oc|y] eqn:S in P; [destruct P as (r2 & s2 & P & _); rewrite E in P; discriminate|].
  destruct P as (s2 & P). rewrite E in P. injection P as <- <-.
  assert (Dn' : distinct_attributes (numbered (next s) t)) by (apply distinct_numbered; exact Dt).
  apply single_fault in S; [|exact (stix_check_safe _ _ _ _ Ec)|exact Dn'|].
  - destruct S as [S|[[-> S]|(t1 & N & Wk)]]; auto.
    + destruct (stix_dirt_safe o v D _ x Ed Dn' S) as [[K K']|K]; auto. right. right. exists (erase t). split; [left; reflexivity|].
      rewrite tolerable_erase. rewrite tolerable_numbered in K. exact K.
    + right. right. exists t1. split; auto. destruct Wk as [->|(-> & dt & Hd & ->)]; [left; apply numbered_erase|right; split; auto].
      pose proof (stix_clean_does o v up opts D d s t U Ed W Dn) as P. cbv beta zeta in P. rewrite Hd in P.
      destruct P as (k & s1 & Ck & _ & Dk & _). exists k, s1. auto.
  - intros t1 Fit T. apply fit_numbered in Fit. apply (stix_tolerated _ _ _ _ _ _ Ef); [rewrite (proj2 Fit); exact El|exact (fit_distinct_plain _ _ Fit Dt)|exact T].
Qed.

Lemma cybox_fault o opts v up d force s t x s' :
  dict_get v (CYBOX_UPDATERS o) = Some up -> wf_state s -> denotes s d t -> is_elem t = true -> distinct_attributes t ->
  updater_update o up d opts force s = (Err x, s') ->
  documented x \/ exists t1, worked_on o up d opts force s t t1 /\ ~ tolerable x t1.
Proof.
  intros U W Dn El Dt E. pose proof (cybox_step_performed o opts v up d force s t U W Dn) as P.
  destruct (cybox_described o (or_default o opts) v up U) as (c & D & f & Ec & Ed & Ef & _). unfold cybox_single in P. rewrite Ec, Ed, Ef in P.
  destruct (single _ _ _ _ _ _ _) as [oc|y] eqn:S in P; [destruct P as (r2 & s2 & P & _); rewrite E in P; discriminate|].
  destruct P as (s2 & P). rewrite E in P. injection P as <- <-.
  assert (Dn' : distinct_attributes (numbered (next s) t)) by (apply distinct_numbered; exact Dt).
  apply single_fault in S; [|exact (cybox_check_safe _ _ _ Ec)|exact Dn'|].
  - destruct S as [S|[[-> S]|(t1 & N & Wk)]]; auto.
    + pose proof (cybox_dirt_safe v D _ x Ed Dn' S) as K. right. exists (erase t). split; [left; reflexivity|].
      rewrite tolerable_erase. rewrite tolerable_numbered in K. exact K.
    + right. exists t1. split; auto. destruct Wk as [->|(-> & dt & Hd & ->)]; [left; apply numbered_erase|right; split; auto].
      pose proof (cybox_clean_does o v up opts D d s t U Ed W Dn) as P. cbv beta zeta in P. rewrite Hd in P.
      destruct P as (k & s1 & Ck & _ & Dk & _). exists k, s1. auto.
  - intros t1 Fit T. apply fit_numbered in Fit. apply (cybox_tolerated _ _ _ _ _ Ef); [rewrite (proj2 Fit); exact El|exact (fit_distinct_plain _ _ Fit Dt)|exact T].
Qed.

(** ** A value with a reference that cannot be stored makes a step fail *)

Lemma retyped_unbroken v vs b x h' : incl (tuple_references v) vs -> retyped vs b x h' -> ~ broken_value v b x.
Proof.
  intros I [R _] [(w & Hw & O) A]. destruct (R w (I w Hw) O) as (_ & X & _). unfold has_attr in A. fold (attr_of (lq "vocab_reference") (head x)) in A.
  assert (T : exists s, v_reference w = PTuple s).
  { unfold tuple_references in Hw. cbn [dict_get] in Hw.
    repeat match type of Hw with context [String.eqb ?a ?b] => destruct (String.eqb a b) end;
    repeat (destruct Hw as [<-|Hw]; [eexists; reflexivity|]); destruct Hw. }
  destruct T as [s T]. rewrite T in X. destruct (attr_of (lq "vocab_reference") (head x)); [exact X|discriminate].
Qed.

Lemma labelled_pos t : ~ In 0 (ids (labelled t)).
Proof. intro H. unfold labelled, numbered in H. rewrite renum_ids in H. apply in_seq in H. lia. Qed.

Lemma carried_unbroken v vs gone t e : incl (tuple_references v) vs -> NoDup (ids t) -> ~ In 0 (ids t) -> carried gone t e ->
  stems_at (vocabulary_value v vs) t e ->
  forall b x, In (b, x) (visits [] t) -> (forall z, In z (x :: b) -> gone (head z) = false) -> ~ broken_value v b x.
Proof.
  intros I N Z [_ C] St b x Hx G. destruct (C b x Hx G) as (b' & x' & Hx' & Ex & _).
  destruct (St x') as (b2 & y & Hy & Ey & V); [apply nodes_in; eauto| |].
  - rewrite Ex. intro E0. apply Z. rewrite <- E0. eapply visits_tid_in; eauto.
  - destruct (visits_unique t [] b2 y b x N Hy Hx) as [-> ->]; [congruence|]. destruct V as [V _]. eapply retyped_unbroken; eauto.
Qed.

Lemma stix_unbroken o opts v up d force s t r s' :
  dict_get v (STIX_UPDATERS o) = Some up -> wf_state s -> denotes s d t -> is_elem t = true -> distinct_attributes t ->
  (v = "1.0.1" -> declares_nothing [common "Contributors"; object_name "WinMailslot" "Handle"] t) ->
  update_vocabularies (or_default o opts) = true -> updater_update o up d opts force s = (Ok r, s') ->
  exists t1, worked_on o up d opts force s t t1 /\
  forall b x, In (b, x) (visits [] (labelled t1)) -> (forall z, In z (x :: b) -> stix_gone (or_default o opts) v (head z) = false) ->
  ~ broken_value v b x.
Proof.
  intros U W Dn El DA DN Vo E. destruct (string_dec v "1.2") as [->|V12].
  - destruct (stix_carried o opts "1.2" up d force s t r s' U W Dn E) as (t1 & e & Wk & _ & _). exists t1. split; auto.
    intros b x _ _ [(w & [] & _) _].
  - destruct (stix_vocabularies_updated o opts v up d force s t r s' U V12 W Dn El DA DN E) as (t1 & e & Wk & _ & C & St). exists t1. split; auto.
    rewrite Vo in St. eapply carried_unbroken; eauto.
    + unfold STIX_UPDATERS in U. by_version U; try contradiction; intros w Hw; vm_compute in Hw; vm_compute; tauto.
    + apply labelled_NoDup.
    + apply labelled_pos.
Qed.

Lemma cybox_unbroken o opts v up d force s t r s' :
  dict_get v (CYBOX_UPDATERS o) = Some up -> wf_state s -> denotes s d t -> is_elem t = true -> distinct_attributes t ->
  (v = "2.0.1" -> declares_nothing [object_name "WinMailslot" "Handle"] t) ->
  update_vocabularies (or_default o opts) = true -> updater_update o up d opts force s = (Ok r, s') ->
  exists t1, worked_on o up d opts force s t t1 /\
  forall b x, In (b, x) (visits [] (labelled t1)) -> (forall z, In z (x :: b) -> cybox_gone (or_default o opts) v (head z) = false) ->
  ~ broken_value v b x.
Proof.
  intros U W Dn El DA DN Vo E.
  destruct (cybox_vocabularies_updated o opts v up d force s t r s' U W Dn El DA DN E) as (t1 & e & Wk & _ & C & St). exists t1. split; auto.
  rewrite Vo in St. eapply carried_unbroken; eauto.
  - unfold CYBOX_UPDATERS in U. by_version U; intros w Hw; vm_compute in Hw; vm_compute; tauto.
  - apply labelled_NoDup.
  - apply labelled_pos.
Qed.
