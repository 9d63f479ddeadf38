(** * The result of a step is accepted by the next one. *)

From Coq Require Import String Ascii List Bool Arith NArith Lia.
From Verif Require Import Str Xml XPath Utils Base Tables Cybox Stix Ramrod Spec SpecDoc SpecPass SpecStep
  SpecCheck SpecClean SpecUpdate SpecReport SpecTrace SpecChain Lib Frame Api Versions NoFail Refine RefineBase RefineTrans RefineLists
  RefineSteps RefineCheck RefineClean Relabel RefineUpdate Natural Updates Reports Samples PropsApi UpdateFacts Trace SpecField Fields
  Carried Follow Vocab Worked Marks Root Located Declared Cleaned.
Import ListNotations.
Local Open Scope string_scope.

Definition marked (qs : list qname) (P : hdr -> Prop) (h : hdr) : Prop := one_of qs h = true -> P h.

Lemma one_of_same qs h h' : h_tag h' = h_tag h -> h_kind h' = h_kind h -> one_of qs h' = one_of qs h.
Proof. intros T K. unfold one_of, named_in, named. cbn [head]. rewrite T, K. reflexivity. Qed.

Lemma one_of_in qs h : one_of qs h = true -> In (h_tag h) qs.
Proof.
  unfold one_of, named_in, named. cbn [head]. intro E. apply existsb_exists in E as (q & Hq & E). destruct (h_kind h); try discriminate.
  apply qn_eqb_eq in E. congruence.
Qed.

(** What a mark must be untouched by. *)
Definition lasts (P : hdr -> Prop) : Prop :=
  (forall h v, P h -> P (hset_attr TAG_SCHEMALOCATION v h)) /\
  (forall h, P h -> P (convert_text h)) /\
  (forall v a h h', upgraded_with v a h = Ok h' -> P h -> P h').

Section Kept.
Variable qs : list qname.
Variable P : hdr -> Prop.
Hypothesis L : lasts P.

Lemma marked_same h h' : h_tag h' = h_tag h -> h_kind h' = h_kind h -> (P h -> P h') -> marked qs P h -> marked qs P h'.
Proof. intros T K I M O. rewrite (one_of_same qs h h' T K) in O. auto. Qed.

Lemma marked_loc drop m loc : invariant (marked qs P) (always (schemaloc_pass drop m loc)).
Proof.
  apply invariant_on_root. intros h H. destruct (attr_get _ _); auto. eapply marked_same; [..|exact H]; try reflexivity.
  apply L.
Qed.

Lemma marked_lists a b : invariant (marked qs P) (always (lists_pass a b)).
Proof.
  apply invariant_edit. intros c y H. destruct (is_elem y); auto. generalize (properties_above a b c). induction n as [|n IH]; auto.
  cbn [repeat_edit]. eapply marked_same; [..|exact IH]; [| |apply L].
  - unfold convert_text. destruct (h_text _) as [s|]; auto. destruct (String.eqb s ""); auto.
  - unfold convert_text. destruct (h_text _) as [s|]; auto. destruct (String.eqb s ""); auto.
Qed.

Lemma marked_vocab v : invariant (marked qs P) (vocab_pass v).
Proof.
  apply invariant_vocab. intros b y h Hy U. destruct (upgraded_shape _ _ _ _ U) as (a & n & _ & _ & W).
  pose proof (upgraded_with_same _ _ _ _ W) as (T & K & _). eapply marked_same; eauto. eapply L; eauto.
Qed.

Lemma marked_vocabs b l : invariant (marked qs P) (when b (passes vocab_pass l)).
Proof. apply invariant_when, invariant_passes. intros. apply marked_vocab. Qed.

Lemma marked_off (h : hdr) : one_of qs h = false -> marked qs P h.
Proof. intros E O. congruence. Qed.

Lemma marked_edit p g : (forall h, h_tag (g h) = h_tag h /\ h_kind (g h) = h_kind h /\ (P h -> P (g h))) ->
  invariant (marked qs P) (always (edit_where p g)).
Proof. intro H. apply invariant_edit_where. intros h M. destruct (H h) as (T & K & I). eapply marked_same; eauto. Qed.

Lemma off_tag q h : ~ In q qs -> h_tag h = q -> one_of qs h = false.
Proof. intros N T. destruct (one_of qs h) eqn:O; auto. elim N. rewrite <- T. apply one_of_in. exact O. Qed.

Lemma marked_child_value q u : ~ In q qs -> invariant (marked qs P) (rewrite_all (any_inside [q]) (value_of_child u)).
Proof.
  intro N. apply invariant_rewrite. intros b k e Pk E A. apply any_inside_one in Pk as [T _].
  unfold value_of_child in E. destruct (filter _ _); [discriminate|]. injection E as <-. intros x [<-|[]].
  apply marked_off, (off_tag q); auto.
Qed.

Lemma marked_as_string q : ~ In q qs -> invariant (marked qs P) (rewrite_all (any_inside [q]) as_string).
Proof.
  intro N. apply invariant_rewrite. intros b k e Pk E A. apply any_inside_one in Pk as [T _]. injection E as <-. intros x [<-|[]].
  apply marked_off, (off_tag q); auto.
Qed.

Lemma marked_rename old new : ~ In new qs -> invariant (marked qs P) (rename old new).
Proof. intro N. apply invariant_rename. intros h _ _. apply marked_off, (off_tag new); auto. Qed.

Lemma marked_renamed new k : ~ In new qs -> all (marked qs P) k -> all (marked qs P) (renamed_to new k).
Proof.
  intros N A x [<-|Hx]; [apply marked_off, (off_tag new); auto|]. apply A. destruct k as [h ks]. right. exact Hx.
Qed.

Lemma marked_element q ks : ~ In q qs -> (forall k, In k ks -> all (marked qs P) k) -> all (marked qs P) (element q ks).
Proof.
  intros N H x [<-|Hx]; [apply marked_off, (off_tag q); auto|]. apply in_flat_map in Hx as (k & Hk & Hx). exact (H k Hk x Hx).
Qed.

Lemma marked_unwrap a b c : ~ In c qs -> invariant (marked qs P) (always (unwrap_pass a b c)).
Proof.
  intros N t e E A. injection E as <-. apply invariant_subst; auto. intros d k l z _ E Hz Ak.
  destruct (inside d && named _ k); [|discriminate]. destruct (filter _ (kids k)) as [|x xs] eqn:Fl; [discriminate|].
  injection E as <-. destruct Hz as [<-|[]]. apply marked_renamed; auto.
  assert (Hx : In x (kids k)). { assert (H : In x (filter (named b) (kids k))) by (rewrite Fl; left; auto). apply filter_In in H. tauto. }
  intros y Hy. apply Ak. apply (nodes_kid k x); auto.
Qed.

Lemma marked_optional p : invariant (marked qs P) (always (optional_pass p)).
Proof. intros t e E A. injection E as <-. apply invariant_prune. exact A. Qed.

Lemma kid_all Q k c : all Q k -> In c (kids k) -> all Q c.
Proof. intros A Hc y Hy. apply A. apply (nodes_kid k c); auto. Qed.

Lemma marked_contributing p u : ~ In (qn u "Contributing_Sources") qs -> ~ In (qn u "Source") qs -> ~ In (qn u "Identity") qs ->
  invariant (marked qs P) (rewrite_all p (contributing_sources u)).
Proof.
  intros N1 N2 N3. apply invariant_rewrite. intros b k e _ E A. unfold contributing_sources in E.
  destruct (forallb _ _); [|discriminate]. injection E as <-. apply marked_element; auto. intros x Hx.
  apply in_map_iff in Hx as (c & <- & Hc). apply marked_element; auto. intros y [<-|[]]. apply marked_renamed; auto.
  eapply kid_all; eauto.
Qed.

Lemma marked_wrap p q : ~ In q qs -> invariant (marked qs P) (rewrite_all p (wrap q)).
Proof. intro N. apply invariant_rewrite. intros b k e _ E A. injection E as <-. apply marked_element; auto. intros y [<-|[]]. exact A. Qed.

Lemma marked_driver :
  forallb (fun q => negb (ostr_eqb (q_ns q) (Some "http://cybox.mitre.org/objects#WinDriverObject-3"))) qs = true ->
  invariant (marked qs P) (namespaces_pass [] driver_ns).
Proof. intro H. apply invariant_ns. intros b y M _ O. rewrite driver_free in O by auto. discriminate. Qed.

(** An edit puts the mark on. *)
Lemma marked_stamp p g : (forall anc x, one_of qs (head x) = true -> p anc x = true) ->
  (forall h, h_tag (g h) = h_tag h) -> (forall h, one_of qs h = true -> P (g h)) ->
  (forall h, h_kind (g h) = h_kind h) ->
  forall t e, always (edit_where p g) t = Ok e -> all (marked qs P) e.
Proof.
  intros Hp Ht Hg Hk t e E. injection E as <-. unfold edit_where. intros x Hx. destruct (nodes_edit _ t [] x Hx) as (b & y & I & Ey).
  intro O. rewrite Ey in *. destruct (p b y) eqn:Py.
  - apply Hg. rewrite <- (one_of_same qs (head y) (g (head y))); auto.
  - rewrite (Hp b y O) in Py. discriminate.
Qed.

End Kept.

Lemma all_impl (P Q : hdr -> Prop) t : (forall h, P h -> Q h) -> all P t -> all Q t.
Proof. intros H A x Hx. apply H, A, Hx. Qed.

Ltac off := let H := fresh in intro H; simpl in H; repeat destruct H as [H|H]; try discriminate H; try contradiction.

(** ** Package versions *)

Definition PKG : list qname := [stix "STIX_Package"].
Definition versioned (w : string) (h : hdr) : Prop := attr_of (lq "version") h = Some w.

Lemma versioned_lasts w : lasts (versioned w).
Proof.
  unfold lasts, versioned. repeat split; intros.
  - rewrite attr_of_set; auto. discriminate.
  - rewrite attr_of_convert; auto.
  - rewrite (attr_of_upgraded _ _ _ _ _ H); auto. off.
Qed.

Lemma package_stamped i w t e : always (edit_where carries_version (stamp_stix i w)) t = Ok e -> all (marked PKG (versioned w)) e.
Proof.
  apply marked_stamp; try reflexivity.
  - intros anc x O. unfold carries_version. replace (named (stix "STIX_Package") x) with true; auto.
    unfold one_of, named_in in O. unfold PKG in O. cbn [existsb] in O. rewrite orb_false_r in O. symmetry. destruct x. exact O.
  - intros h O. apply one_of_in in O as [T|[]]. unfold versioned, stamp_stix. rewrite attr_of_set_same, <- T. reflexivity.
Qed.

Lemma packages_1_0 opts t e : stix_1_0_step opts t = Ok e -> all (marked PKG (versioned "1.0.1")) e.
Proof.
  intro E. unfold stix_1_0_step in E. do 2 (apply in_order_ok in E as (? & _ & E)). apply in_order_ok in E as (m & E1 & E).
  apply package_stamped in E1. refine ((_ : invariant _ _) _ _ E E1).
  apply invariant_cons; [apply marked_vocabs, versioned_lasts|apply invariant_nil].
Qed.

Lemma packages_1_0_1 opts t e : stix_1_0_1_step opts t = Ok e -> all (marked PKG (versioned "1.1")) e.
Proof.
  intro E. unfold stix_1_0_1_step in E. do 2 (apply in_order_ok in E as (? & _ & E)). apply in_order_ok in E as (m & E1 & E).
  apply package_stamped in E1. refine ((_ : invariant _ _) _ _ E E1).
  apply invariant_cons; [apply marked_contributing; off|].
  apply invariant_cons; [apply marked_wrap; off|].
  apply invariant_cons; [apply marked_vocabs, versioned_lasts|].
  apply invariant_cons; [apply invariant_when, marked_optional|apply invariant_nil].
Qed.

Lemma packages_1_1_1 opts t e : stix_1_1_1_step opts t = Ok e -> all (marked PKG (versioned "1.2")) e.
Proof.
  intro E. unfold stix_1_1_1_step in E. apply in_order_ok in E as (? & _ & E). apply in_order_ok in E as (m & E1 & E).
  apply package_stamped in E1. refine ((_ : invariant _ _) _ _ E E1).
  apply invariant_cons; [apply invariant_when, marked_vocab, versioned_lasts|apply invariant_nil].
Qed.

(** ** CybOX versions *)

Definition brings (v : string) (h : hdr) : Prop := same_version (declared_by h) v.

Lemma brings_same v h h' : cybox_version_of h' = cybox_version_of h -> brings v h -> brings v h'.
Proof. intros E. unfold brings. rewrite (declared_version _ _ E). auto. Qed.

Lemma brings_set v k w h : ~ In k cybox_version_attributes -> brings v h -> brings v (hset_attr k w h).
Proof. intro N. apply brings_same. apply version_of_set. exact N. Qed.

Lemma brings_lasts v : lasts (brings v).
Proof.
  unfold lasts. repeat split; intros.
  - apply brings_set; auto. off.
  - eapply brings_same; [apply version_of_convert|auto].
  - eapply brings_same; [eapply version_of_upgraded; eauto|auto].
Qed.

Lemma brings_2_0_1 h : brings "2.0.1" (stamp_cybox_2_0_1 h).
Proof.
  unfold brings. pose proof (stamp_2_0_1_version h) as V. rewrite (declared_is _ _ _ _ V). cbn.
  exists "2.0.1", (2, 0, 1)%N, None. split; auto. split; apply number_2_0_1.
Qed.

(** The elements [qs] are stamped, the elements [rest] declare the version
    before. *)
Lemma cybox_2_0_brings qs rest opts t e : cybox_2_0_step (anywhere qs) opts t = Ok e ->
  all (marked rest (brings "2.0.1")) t -> all (marked (qs ++ rest) (brings "2.0.1")) e.
Proof.
  intros E A. unfold cybox_2_0_step in E. apply in_order_ok in E as (m & E1 & E). apply in_order_ok in E as (m2 & E2 & E).
  apply (marked_loc rest _ (brings_lasts "2.0.1") _ _ _ _ _ E1) in A.
  refine ((_ : invariant _ _) _ _ E _).
  - apply invariant_cons; [apply marked_lists, brings_lasts|].
    apply invariant_cons; [apply invariant_when, marked_vocab, brings_lasts|apply invariant_nil].
  - injection E2 as <-. unfold edit_where. intros x Hx O. destruct (nodes_edit _ m [] x Hx) as (b & y & I & Ey). rewrite Ey in *.
    destruct (anywhere qs b y) eqn:Ay; [apply brings_2_0_1|]. apply A; [apply nodes_in; eauto|].
    unfold one_of, named_in in O. rewrite existsb_app in O. apply orb_true_iff in O as [O|O]; auto.
    unfold anywhere, named_in in Ay. unfold named in O, Ay. cbn [head] in O. congruence.
Qed.

Lemma stix_1_0_brings opts t e : stix_1_0_step opts t = Ok e -> all (marked forgotten (brings "2.0.1")) t ->
  all (marked cybox_in_stix_1_0_1 (brings "2.0.1")) e.
Proof.
  intros E A. unfold stix_1_0_step in E. apply in_order_ok in E as (m & E1 & E).
  apply (cybox_2_0_brings _ forgotten _ _ _ E1) in A. refine ((_ : invariant _ _) _ _ E A).
  apply invariant_cons; [apply marked_loc, brings_lasts|].
  apply invariant_cons.
  { apply marked_edit. intro h. split; [reflexivity|]. split; [reflexivity|]. apply brings_set. off. }
  apply invariant_cons; [apply marked_vocabs, brings_lasts|apply invariant_nil].
Qed.

(** ** From headers to documents *)

Lemma all_content (Q : hdr -> Prop) n t e : (forall h, Q (set_id 0 h) <-> Q h) -> erase t = e -> all Q e -> all Q (numbered n t).
Proof. intros B <- A. apply all_numbered; auto. apply (all_erase Q t B). exact A. Qed.

Lemma every_marked P qs T : all (marked qs P) T -> every (anywhere qs) T (fun x => P (head x)).
Proof. intros A anc x I N. apply A; [apply nodes_in; eauto|]. destruct x as [h ks]. exact N. Qed.

Lemma marked_every P qs T : every (anywhere qs) T (fun x => P (head x)) -> all (marked qs P) T.
Proof. intros A x Hx O. apply nodes_in in Hx as (anc & I). apply (A anc x I). destruct x as [h ks]. exact O. Qed.

Lemma first_is_one p T x : first_of p T x -> exists anc, In (anc, x) (visits [] T) /\ p anc x = true.
Proof.
  intros (anc & rest & E). exists anc. assert (H : In (anc, x) (selected p T)) by (rewrite E; left; auto).
  apply filter_In in H. exact H.
Qed.

Lemma versioned_same w x v n : versioned w (head x) -> given (Some w) = Some w -> version_number w n None -> version_number v n None ->
  same_version (stix_declared x) v.
Proof.
  intros V G N1 N2. unfold same_version, stix_declared. unfold versioned, attr_of in V. rewrite V, G. eauto 6.
Qed.

Lemma numbers v : In v ["1.0.1"; "1.1"; "1.1.1"; "1.2"] -> given (Some v) = Some v /\ exists n, version_number v n None.
Proof.
  intros [<-|[<-|[<-|[<-|[]]]]]; split; try reflexivity; eexists; [apply number_1_0_1|apply number_1_1| |apply number_1_2].
  apply (version_3 "1" "1" "1" "" "" 1 1 1 None (num_digit 1 ltac:(lia)) (num_digit 1 ltac:(lia)) (num_digit 1 ltac:(lia)) pre_none le_none).
Qed.

Lemma packages_ok w T : In w ["1.0.1"; "1.1"; "1.1.1"; "1.2"] -> all (marked PKG (versioned w)) T ->
  forall x, first_of (anywhere [stix "STIX_Package"]) T x -> same_version (stix_declared x) w.
Proof.
  intros Hw A x F. destruct (first_is_one _ _ _ F) as (anc & I & N). destruct (numbers w Hw) as (G & n & V).
  eapply versioned_same; eauto. exact (every_marked _ _ _ A anc x I N).
Qed.

(** When the root is a package it is the first one. *)
Lemma root_package_ok w T : In w ["1.0.1"; "1.1"; "1.1.1"; "1.2"] -> called (stix "STIX_Package") T -> versioned w (head T) ->
  forall x, first_of (anywhere [stix "STIX_Package"]) T x -> same_version (stix_declared x) w.
Proof.
  intros Hw C V x (anc & rest & E). destruct (numbers w Hw) as (G & n & N). replace x with T; [eapply versioned_same; eauto|].
  apply named_called in C. destruct T as [h ks]. unfold selected in E. cbn [visits filter] in E.
  unfold anywhere at 1, named_in in E. cbn [fst snd existsb] in E. rewrite C in E. cbn [orb] in E. congruence.
Qed.

Lemma versioned_blind w h : versioned w (set_id 0 h) <-> versioned w h.
Proof. reflexivity. Qed.

Lemma marked_blind qs P : (forall h, P (set_id 0 h) <-> P h) -> forall h, marked qs P (set_id 0 h) <-> marked qs P h.
Proof. intros B h. unfold marked. rewrite (one_of_same qs h (set_id 0 h)) by reflexivity. rewrite (B h). reflexivity. Qed.

Lemma brings_blind v h : brings v (set_id 0 h) <-> brings v h.
Proof. reflexivity. Qed.

Lemma robust_brings qs v : robust (marked qs (brings v)).
Proof.
  split; [apply marked_blind, brings_blind|]. intros w h. apply marked_same; try reflexivity. apply brings_set. off.
Qed.

(** The step from [v] leads to a document the step from [w] takes. *)
Lemma stix_step_next o opts v f w t e : stix_step o opts v = Some f -> dict_get v stix_next = Some w ->
  (v = "1.1" -> called (stix "STIX_Package") t) -> (v = "1.0" -> all (marked forgotten (brings "2.0.1")) t) ->
  f t = Ok e -> w <> "1.2.1" -> forall k, stix_versions_ok w (numbered k e).
Proof.
  intros Ef Nx Pk Fo Fe Nw k. unfold stix_step in Ef. by_version Ef; apply some_inj in Nx; subst w.
  - split.
    + apply packages_ok; [simpl; auto|]. apply all_numbered; [apply marked_blind, versioned_blind|eapply packages_1_0; eauto].
    + intros cv p Em. apply some_inj in Em. injection Em as <- <-.
      pose proof (stix_1_0_brings _ _ _ Fe (Fo eq_refl)) as A.
      apply (all_numbered _ k _ (marked_blind _ _ (brings_blind _))) in A.
      intros anc x I N. apply andb_true_iff in N as [_ N]. pose proof (every_marked _ _ _ A anc x I N) as B. destruct x as [h ks]. exact B.
  - split; [|discriminate].
    apply packages_ok; [simpl; auto|]. apply all_numbered; [apply marked_blind, versioned_blind|eapply packages_1_0_1; eauto].
  - split; [|discriminate]. specialize (Pk eq_refl). destruct (numbered_root k e) as [N1 N2].
    apply root_package_ok; [simpl; auto| |].
    + unfold called. rewrite N1. eapply (stix_root_name o opts "1.1"); eauto; [reflexivity|discriminate].
    + unfold versioned, attr_of. rewrite N2. eapply (stix_root_version o opts "1.1"); eauto; reflexivity.
  - split; [|discriminate].
    apply packages_ok; [simpl; auto|]. apply all_numbered; [apply marked_blind, versioned_blind|eapply packages_1_1_1; eauto].
  - congruence.
Qed.

Lemma declares_marked qs v t : declare_cybox qs v t -> all (marked qs (brings v)) t.
Proof. intro H. apply marked_every. intros anc x I N. specialize (H anc x I N). destruct x as [h ks]. exact H. Qed.

Lemma stix_updated o opts v up f d force s t r s' :
  dict_get v (STIX_UPDATERS o) = Some up -> stix_step o (or_default o opts) v = Some f ->
  wf_state s -> denotes s d t -> updater_update o up d opts force s = (Ok r, s') ->
  exists t1 e, fit t t1 /\ hname (head t1) = hname (head t) /\ f t1 = Ok e /\ document s' (r_document r) e.
Proof.
  intros U F W Dn E. pose proof (stix_step_performed o opts v up d force s t U W Dn) as P.
  unfold stix_single in P. destruct (stix_check _ _ _) as [c|]; [|destruct P as (? & P); rewrite E in P; discriminate].
  destruct (stix_dirt _ _) as [D|]; [|destruct P as (? & P); rewrite E in P; discriminate]. rewrite F in P.
  destruct (single _ _ _ _ _ _ _) as [oc|x] eqn:S in P; [|destruct P as (s2 & P); rewrite E in P; discriminate].
  destruct P as (r2 & s2 & P & _ & Doc & _). rewrite E in P. injection P as <- <-.
  destruct (single_worked _ _ _ _ _ _ _ _ S) as (t1 & F1 & Fit & Wk). exists t1, (new_document oc).
  split; [eapply fit_numbered; eauto|]. split; [|auto].
  destruct (numbered_root (next s) t) as [N1 _]. destruct Wk as [->|(_ & dt & _ & ->)].
  - destruct (erase_root (numbered (next s) t)) as [E1 _]. rewrite E1, N1. reflexivity.
  - rewrite cleaned_root, N1. reflexivity.
Qed.

Lemma stix_next_accepts o opts v up d force s t r s' w up' :
  dict_get v (STIX_UPDATERS o) = Some up -> dict_get v stix_next = Some w -> dict_get w (STIX_UPDATERS o) = Some up' ->
  wf_state s -> denotes s d t ->
  (v = "1.1" -> named (stix "STIX_Package") t = true) ->
  (v = "1.0" -> declare_cybox forgotten "2.0.1" t) ->
  updater_update o up d opts force s = (Ok r, s') ->
  exists e, document s' (r_document r) e /\ versions_accepted o up' e.
Proof.
  intros U Nx U' W Dn Pk Fo E. destruct (stix_described o (or_default o opts) v up U) as (c & D & f & _ & _ & Ef & _).
  destruct (stix_updated o opts v up f d force s t r s' U Ef W Dn E) as (t1 & e & Fit & Nm & Fe & Doc).
  exists e. split; auto. intros d2 opts2 force2 s2 t2 W2 D2 E2. eapply stix_accepted; eauto. right.
  rewrite numbered_content, E2. eapply stix_step_next; eauto.
  - intro V. unfold called. rewrite Nm. apply named_called. auto.
  - intro V. apply Fit; [apply robust_brings|]. apply declares_marked. auto.
  - intros ->. discriminate U'.
Qed.

Lemma cybox_next_accepts o opts v up d force s t r s' w up' :
  dict_get v (CYBOX_UPDATERS o) = Some up -> dict_get v cybox_next = Some w -> dict_get w (CYBOX_UPDATERS o) = Some up' ->
  wf_state s -> denotes s d t -> updater_update o up d opts force s = (Ok r, s') ->
  exists e, document s' (r_document r) e /\ versions_accepted o up' e.
Proof.
  intros U Nx U' W Dn E. destruct (cybox_described o (or_default o opts) v up U) as (c & D & f & _ & _ & Ef & _).
  destruct (cybox_step_worked o opts v up f d force s t r s' U Ef W Dn E) as (t1 & e & _ & Fit & Fe & Doc).
  exists (erase e). split; auto. unfold cybox_step in Ef. by_version Ef; apply some_inj in Nx; subst w; [|discriminate U'].
  intros d2 opts2 force2 s2 t2 W2 D2 E2. eapply cybox_accepted; eauto. right.
  assert (A : all (marked ([cybox "Observables"] ++ []) (brings "2.0.1")) e).
  { eapply cybox_2_0_brings; eauto. intros x _ O. discriminate O. }
  assert (A2 : all (marked [cybox "Observables"] (brings "2.0.1")) (numbered (next s2) t2)).
  { eapply all_content; [apply marked_blind, brings_blind|exact E2|]. apply all_erase; [apply marked_blind, brings_blind|]. exact A. }
  intros anc x I N. pose proof (every_marked _ _ _ A2 anc x I N) as B. destruct x as [h ks]. exact B.
Qed.

(** ** A whole update *)

Lemma single_documented c D (f : tree -> res tree) new_id force g T x :
  (forall t y, f (erase t) = Err y -> ~ documented y) -> (forall y, D T = Err y -> ~ documented y) ->
  single c D f new_id force g T = Err x -> documented x -> c T = Err x.
Proof.
  intros Hf HD E Q. unfold single in E. destruct (c T) as [u|y].
  - destruct (f (erase T)) as [e|y] eqn:F; [discriminate|]. injection E as <-. elim (Hf _ _ F Q).
  - destruct (force && forceable y); [|congruence]. destruct (D T) as [dt|z] eqn:Ed; cbn [rbind] in E.
    + destruct (f (erase _)) as [e|z] eqn:F in E; [discriminate|]. injection E as <-. elim (Hf _ _ F Q).
    + injection E as <-. elim (HD _ eq_refl Q).
Qed.

Lemma complaint_documented x : version_complaint x -> documented x /\ forall a b, x <> UpdateError a b.
Proof. intros [->|(i & a & b & ->)]; split; try constructor; discriminate. Qed.

Lemma stix_single_complaint o opts force v up g T x : dict_get v (STIX_UPDATERS o) = Some up -> stix_versions_ok v T ->
  stix_single o opts force v g T = Err x -> ~ version_complaint x.
Proof.
  intros U V E Q. apply complaint_documented in Q as [Q N]. destruct (stix_described o opts v up U) as (c & D & f & Ec & Ed & Ef & X).
  unfold stix_single in E. rewrite Ec, Ed, Ef in E. apply single_documented in E; auto.
  - rewrite (stix_check_content o opts v c _ Ec (or_intror V)) in E. destruct (stix_content_error _ _ _ _ E) as [(a & b & ->)|F]; [|auto].
    eapply N. reflexivity.
  - intros t y Fy. eapply step_errors; eauto.
  - intros y Dy. eapply stix_dirt_errors; eauto.
Qed.

Lemma cybox_single_complaint o opts force v up g T x : dict_get v (CYBOX_UPDATERS o) = Some up -> cybox_versions_ok v T ->
  cybox_single opts force v g T = Err x -> ~ version_complaint x.
Proof.
  intros U V E Q. apply complaint_documented in Q as [Q N]. destruct (cybox_described o opts v up U) as (c & D & f & Ec & Ed & Ef & X).
  unfold cybox_single in E. rewrite Ec, Ed, Ef in E. apply single_documented in E; auto.
  - rewrite (cybox_check_content opts v c _ Ec (or_intror V)) in E. destruct (cybox_content_error _ _ _ E) as [(a & b & ->)|F]; [|auto].
    eapply N. reflexivity.
  - intros t y Fy. eapply step_errors; eauto.
  - intros y Dy. eapply cybox_dirt_errors; eauto.
Qed.

Lemma chain_err one v vs g t x : chain one (v :: vs) g t = Err x ->
  one v g (numbered 0 t) = Err x \/
  exists oc, one v g (numbered 0 t) = Ok oc /\ chain one vs (g + replacements oc) (new_document oc) = Err x.
Proof.
  cbn [chain]. destruct (one v g (numbered 0 t)) as [oc|y]; cbn [rbind]; [|intro E; left; congruence].
  destruct (chain one vs (g + replacements oc) (new_document oc)) as [[[e l] ds]|y] eqn:C; cbn [rbind]; [discriminate|]. intro E. right. exists oc. split; [reflexivity|]. congruence.
Qed.

Definition consecutive (nx : dict string) (vs : list string) : Prop :=
  forall p v w q, vs = (p ++ v :: w :: q)%list -> dict_get v nx = Some w.

Lemma consecutive_tail nx v vs : consecutive nx (v :: vs) -> consecutive nx vs.
Proof. intros C p a b q E. apply (C (v :: p) a b q). rewrite E. reflexivity. Qed.

Lemma stix_chain_complaint o opts force vs : forall t g x,
  consecutive stix_next vs -> (forall v, In v vs -> exists up, dict_get v (STIX_UPDATERS o) = Some up) ->
  called (stix "STIX_Package") t -> (forall v vs', vs = v :: vs' -> stix_versions_ok v (numbered 0 t)) ->
  (forall vs', vs = "1.0" :: vs' -> all (marked forgotten (brings "2.0.1")) t) ->
  chain (stix_single o opts force) vs g t = Err x -> ~ version_complaint x.
Proof.
  induction vs as [|v vs IH]; intros t g x Co Kn C V Fo E; [discriminate|]. destruct (Kn v (or_introl eq_refl)) as (up & U).
  apply chain_err in E as [E|(oc & E1 & E)]; [eapply stix_single_complaint; eauto|].
  destruct vs as [|w vs]; [discriminate E|]. destruct (Kn w (or_intror (or_introl eq_refl))) as (up' & U').
  pose proof (Co [] v w vs eq_refl) as Nx. unfold stix_single in E1. destruct (stix_check o opts v); [|discriminate].
  destruct (stix_dirt o v); [|discriminate]. destruct (stix_step o opts v) as [f|] eqn:F; [|discriminate].
  destruct (single_root _ _ _ _ _ _ _ _ _ E1) as (t0 & F0 & H0 & _).
  destruct (single_worked _ _ _ _ _ _ _ _ E1) as (t1 & F1 & Fit & Wk). apply fit_numbered in Fit.
  assert (H1 : hname (head t1) = hname (head t)).
  { destruct (numbered_root 0 t) as [N1 _]. destruct Wk as [->|(_ & dt & _ & ->)].
    - destruct (erase_root (numbered 0 t)) as [Er _]. rewrite Er, N1. reflexivity.
    - rewrite cleaned_root, N1. reflexivity. }
  assert (C1 : called (stix "STIX_Package") t1) by (unfold called; rewrite H1; exact C).
  assert (Nw : w <> "1.2.1") by (intros ->; discriminate U').
  eapply (IH (new_document oc)); [| | | | |exact E].
  - eapply consecutive_tail; eauto.
  - intros v' Hv. apply Kn. right. exact Hv.
  - eapply stix_root_name; [exact F| |exact C1|exact F1]. intros ->. apply Nw. apply some_inj in Nx. auto.
  - intros v' vs' Ev. injection Ev as <- <-. eapply stix_step_next; eauto. intros ->. apply Fit; [apply robust_brings|]. eapply Fo. reflexivity.
  - intros vs' Ev. injection Ev as -> ->. unfold stix_next in Nx. by_version Nx; discriminate.
Qed.

Lemma cybox_chain_complaint o opts force vs : forall t g x,
  consecutive cybox_next vs -> (forall v, In v vs -> exists up, dict_get v (CYBOX_UPDATERS o) = Some up) ->
  (forall v vs', vs = v :: vs' -> cybox_versions_ok v (numbered 0 t)) ->
  chain (cybox_single opts force) vs g t = Err x -> ~ version_complaint x.
Proof.
  induction vs as [|v vs IH]; intros t g x Co Kn V E; [discriminate|]. destruct (Kn v (or_introl eq_refl)) as (up & U).
  apply chain_err in E as [E|(oc & E1 & E)]; [eapply cybox_single_complaint; eauto|].
  destruct vs as [|w vs]; [discriminate E|]. destruct (Kn w (or_intror (or_introl eq_refl))) as (up' & U').
  pose proof (Co [] v w vs eq_refl) as Nx. unfold cybox_single in E1. destruct (cybox_check opts v); [|discriminate].
  destruct (cybox_dirt v); [|discriminate]. destruct (cybox_step opts v) as [f|] eqn:F; [|discriminate].
  destruct (single_worked _ _ _ _ _ _ _ _ E1) as (t1 & F1 & _ & _).
  eapply (IH (new_document oc)); [| | |exact E].
  - eapply consecutive_tail; eauto.
  - intros v' Hv. apply Kn. right. exact Hv.
  - intros v' vs' Ev. injection Ev as <- <-. unfold cybox_step in F. by_version F; apply some_inj in Nx; subst w; [|discriminate U'].
    assert (A : all (marked ([cybox "Observables"] ++ []) (brings "2.0.1")) (new_document oc)).
    { eapply cybox_2_0_brings; eauto. intros y _ O. discriminate O. }
    apply (all_numbered _ 0 _ (marked_blind _ _ (brings_blind _))) in A.
    intros anc y I N. pose proof (every_marked _ _ _ A anc y I N) as B. destruct y as [h ks]. exact B.
Qed.

Lemma shift_complaint n x : version_complaint (shift_exn n x) -> version_complaint x.
Proof.
  intros [E|(i & a & b & E)]; destruct x; try discriminate E; [left; reflexivity|right; eauto].
Qed.

Lemma last_stix p q : STIX_VERSIONS = (p ++ "1.2.1" :: q)%list -> q = [].
Proof.
  intro E. destruct p as [|a0 [|a1 [|a2 [|a3 [|a4 [|a5 p]]]]]]; simpl in E; injection E; intros; subst; try discriminate; auto.
  destruct p; discriminate.
Qed.

Lemma last_cybox p q : CYBOX_VERSIONS = (p ++ "2.1" :: q)%list -> q = [].
Proof.
  intro E. destruct p as [|a0 [|a1 [|a2 p]]]; simpl in E; injection E; intros; subst; try discriminate; auto.
  destruct p; discriminate.
Qed.

Lemma stix_update_complaint o d from to opts force s t a vs : wf_state s -> denotes s d t -> named (stix "STIX_Package") t = true ->
  stix_start from t = Some a -> between STIX_VERSIONS a (match given to with Some b => b | None => "1.2.1" end) vs ->
  stix_versions_ok a (numbered 0 t) -> (a = "1.0" -> declare_cybox forgotten "2.0.1" t) ->
  forall x s', stix_update o d from to opts force s = (Err x, s') -> ~ version_complaint x.
Proof.
  intros W D Nm Ea B V Fo x s' E Q. pose proof (stix_update_runs o d from to opts force s t a vs W D Ea B) as R. unfold runs_chain in R.
  destruct (chain _ _ _ _) as [[[e l] ds]|y] eqn:Ch.
  - destruct R as (? & ? & ? & R & _). rewrite E in R. discriminate.
  - destruct R as (n & s2 & R). rewrite E in R. injection R as -> ->. apply shift_complaint in Q. revert Q.
    destruct B as (l1 & l2 & l3 & EB & Evs). set (b := match given to with Some b => b | None => _ end) in *. eapply stix_chain_complaint; [| | | | |exact Ch].
    + intros p u w q Ev. apply (stix_adjacent (l1 ++ p) u w (q ++ b :: l3)%list). rewrite EB, Ev. rewrite <- !app_assoc. reflexivity.
    + intros u Hu. assert (I : In u STIX_VERSIONS) by (rewrite EB; apply in_app_iff; right; apply in_app_iff; auto).
      assert (N : u <> "1.2.1").
      { intros ->. apply in_split in Hu as (u1 & u2 & Eu). rewrite Eu in EB. rewrite <- !app_assoc in EB. cbn [app] in EB.
        rewrite app_assoc in EB. apply last_stix in EB. destruct u2; discriminate. }
      simpl in I. destruct I as [<-|[<-|[<-|[<-|[<-|[<-|[]]]]]]]; try congruence; eexists; reflexivity.
    + unfold called. rewrite (proj1 (erase_root t)). apply named_called. exact Nm.
    + intros u vs' Ev. rewrite Evs in Ev. injection Ev as <- <-. rewrite <- numbered_content. exact V.
    + intros vs' Ev. rewrite Evs in Ev. injection Ev as -> <-. apply all_erase; [apply marked_blind, brings_blind|].
      apply declares_marked. auto.
Qed.

Lemma cybox_adjacent p x y q : CYBOX_VERSIONS = (p ++ x :: y :: q)%list -> dict_get x cybox_next = Some y.
Proof.
  intro E. destruct p as [|a0 [|a1 [|a2 p]]]; simpl in E; injection E; intros; subst; try reflexivity; try discriminate.
  destruct p; discriminate.
Qed.

Lemma cybox_update_complaint o d from to opts force s t a vs : wf_state s -> denotes s d t ->
  cybox_start from t = Some a -> between CYBOX_VERSIONS a (match given to with Some b => b | None => "2.1" end) vs ->
  cybox_versions_ok a (numbered 0 t) ->
  forall x s', cybox_update o d from to opts force s = (Err x, s') -> ~ version_complaint x.
Proof.
  intros W D Ea B V x s' E Q. pose proof (cybox_update_runs o d from to opts force s t a vs W D Ea B) as R. unfold runs_chain in R.
  destruct (chain _ _ _ _) as [[[e l] ds]|y] eqn:Ch.
  - destruct R as (? & ? & ? & R & _). rewrite E in R. discriminate.
  - destruct R as (n & s2 & R). rewrite E in R. injection R as -> ->. apply shift_complaint in Q. revert Q.
    destruct B as (l1 & l2 & l3 & EB & Evs). set (b := match given to with Some b => b | None => _ end) in *. eapply (cybox_chain_complaint o); [| | |exact Ch].
    + intros p u w q Ev. apply (cybox_adjacent (l1 ++ p) u w (q ++ b :: l3)%list). rewrite EB, Ev. rewrite <- !app_assoc. reflexivity.
    + intros u Hu. assert (I : In u CYBOX_VERSIONS) by (rewrite EB; apply in_app_iff; right; apply in_app_iff; auto).
      assert (N : u <> "2.1").
      { intros ->. apply in_split in Hu as (u1 & u2 & Eu). rewrite Eu in EB. rewrite <- !app_assoc in EB. cbn [app] in EB.
        rewrite app_assoc in EB. apply last_cybox in EB. destruct u2; discriminate. }
      simpl in I. destruct I as [<-|[<-|[<-|[]]]]; try congruence; eexists; reflexivity.
    + intros u vs' Ev. rewrite Evs in Ev. injection Ev as <- <-. rewrite <- numbered_content. exact V.
Qed.

(** ** Cases *)

(** A 1.0 package whose course of action holds CybOX 2.0 parameters. *)
Definition pkg_parameters (cv : list (qname * string)) : tree :=
  package "1.0"
    [el (stix "Observables") [] [(lq "cybox_major_version", "2"); (lq "cybox_minor_version", "0")] None [];
     el (qn STIX_NS "Course_Of_Action") [] [(lq "id", "ex:c1"); (lq "version", "1.0")] None
       [el (coa "Parameter_Observables") [] cv None []]].

Definition cybox_2_0_attrs : list (qname * string) := [(lq "cybox_major_version", "2"); (lq "cybox_minor_version", "0")].
Definition cybox_2_0_1_attrs : list (qname * string) := (cybox_2_0_attrs ++ [(lq "cybox_update_version", "1")])%list.

Lemma stix_1_0_not_accepted : ~ (forall o opts up up' d force s t r s',
  dict_get "1.0" (STIX_UPDATERS o) = Some up -> dict_get "1.0.1" (STIX_UPDATERS o) = Some up' ->
  wf_state s -> denotes s d t -> updater_update o up d opts force s = (Ok r, s') ->
  exists e, document s' (r_document r) e /\ versions_accepted o up' e).
Proof.
  intro H.
  destruct (updater_update o0 (STIX_1_0_Updater o0) (DFile (Some (pkg_parameters cybox_2_0_attrs))) None false (memory [])) as [[r|x] s'] eqn:E;
    [|vm_compute in E; discriminate].
  destruct (H o0 None (STIX_1_0_Updater o0) (STIX_1_0_1_Updater o0) (DFile (Some (pkg_parameters cybox_2_0_attrs))) false (memory [])
    (pkg_parameters cybox_2_0_attrs) r s' eq_refl eq_refl (memory_wf _) eq_refl E) as (e & De & A).
  destruct De as (T & HT & Ti & Ee). vm_compute in E. injection E as <- <-. cbn [heap In r_document] in HT, Ti.
  repeat (destruct HT as [HT|HT]; [subst T; try (vm_compute in Ti; discriminate)|]); [|destruct HT].
  destruct (A (DFile (Some e)) None false (memory []) e (memory_wf _) eq_refl) as [_ A2].
  { rewrite <- Ee. apply erase_idem. }
  subst e. vm_compute in A2. eapply A2. reflexivity.
Qed.

Definition pkg_1_0_params := pkg_parameters cybox_2_0_1_attrs.

Lemma params_versions cv : stix_versions_ok "1.0" (numbered 0 (pkg_parameters cv)).
Proof.
  split.
  - intros x F. apply first_only in F as (c & E & <-). vm_compute in E. injection E as <-.
    exists "1.0", (1, 0, 0)%N, None. split; [reflexivity|]. split; apply number_1_0.
  - intros v p Em. apply some_inj in Em. injection Em as <- <-. apply every_selected.
    match goal with |- Forall _ ?l => let l' := eval vm_compute in l in change l with l' end.
    repeat constructor. exists "2.0", (2, 0, 0)%N, None. split; [reflexivity|]. split; apply number_2_0.
Qed.

Lemma stix_update_complains : ~ (forall o d from to opts force s t a vs, wf_state s -> denotes s d t -> named (stix "STIX_Package") t = true ->
  stix_start from t = Some a -> between STIX_VERSIONS a (match given to with Some b => b | None => "1.2.1" end) vs ->
  stix_versions_ok a (numbered 0 t) ->
  forall x s', stix_update o d from to opts force s = (Err x, s') -> ~ version_complaint x).
Proof.
  intro H.
  destruct (stix_update o0 (DFile (Some (pkg_parameters cybox_2_0_attrs))) None (Some "1.1") None false (memory [])) as [[r|x] s'] eqn:E;
    [vm_compute in E; discriminate|].
  apply (H o0 (DFile (Some (pkg_parameters cybox_2_0_attrs))) None (Some "1.1") None false (memory []) (pkg_parameters cybox_2_0_attrs) "1.0"
    ["1.0"; "1.0.1"] (memory_wf _) eq_refl eq_refl eq_refl) with (x := x) (s' := s').
  - exists [], ["1.0.1"], ["1.1.1"; "1.2"; "1.2.1"]. split; reflexivity.
  - apply params_versions.
  - exact E.
  - vm_compute in E. injection E as <- _. right. eauto.
Qed.

Lemma accepted_case :
  (exists r s', updater_update o0 (STIX_1_0_Updater o0) (DFile (Some pkg_1_0_params)) None false (memory []) = (Ok r, s')) /\
  declare_cybox forgotten "2.0.1" pkg_1_0_params /\
  (exists r s', updater_update o0 (STIX_1_1_Updater o0) (DFile (Some (package "1.1" []))) None false (memory []) = (Ok r, s')) /\
  (exists r s', updater_update o0 Cybox_2_0_Updater (DFile (Some obs_2_0)) None false (memory []) = (Ok r, s')) /\
  stix_versions_ok "1.0" (numbered 0 pkg_1_0_params) /\
  between STIX_VERSIONS "1.0" "1.1" ["1.0"; "1.0.1"] /\
  (exists r s', stix_update o0 (DFile (Some pkg_1_0_params)) None (Some "1.1") None false (memory []) = (Ok r, s')) /\
  cybox_versions_ok "2.0" (numbered 0 obs_2_0) /\ between CYBOX_VERSIONS "2.0" "2.1" ["2.0"; "2.0.1"].
Proof.
  split; [eexists _, _; vm_compute; reflexivity|]. split.
  { apply every_selected.
    match goal with |- Forall _ ?l => let l' := eval vm_compute in l in change l with l' end.
    repeat constructor. exists "2.0.1", (2, 0, 1)%N, None. split; [reflexivity|]. split; apply number_2_0_1. }
  split; [eexists _, _; vm_compute; reflexivity|]. split; [eexists _, _; vm_compute; reflexivity|]. split; [apply params_versions|].
  split; [exists [], ["1.0.1"], ["1.1.1"; "1.2"; "1.2.1"]; split; reflexivity|].
  split; [eexists _, _; vm_compute; reflexivity|]. split.
  { apply every_selected. match goal with |- Forall _ ?l => let l' := eval vm_compute in l in change l with l' end.
    repeat constructor. exists "2.0", (2, 0, 0)%N, None. split; [reflexivity|]. split; apply number_2_0. }
  exists [], ["2.0.1"], []. split; reflexivity.
Qed.
