(** * CybOX versions through a whole step. *)

From Coq Require Import String Ascii List Bool Arith Lia.
From Verif Require Import Str Xml XPath Utils Base Tables Spec SpecDoc SpecPass SpecStep
  SpecCheck SpecClean SpecUpdate SpecTrace Lib Refine RefineBase RefineTrans RefineLists RefineSteps Relabel Cybox Stix RefineUpdate Natural Updates Reports UpdateFacts Trace SpecField Fields Carried Follow Vocab Worked.
Import ListNotations.
Local Open Scope string_scope.

Definition minfo (qs : list qname) (h : hdr) : bool * list (option string) := (one_of qs h, cybox_version_of h).

Lemma minfo_same qs h h' : h_tag h' = h_tag h -> h_kind h' = h_kind h -> cybox_version_of h' = cybox_version_of h -> minfo qs h' = minfo qs h.
Proof. intros T K V. unfold minfo, one_of, named_in, named. cbn [head]. rewrite T, K, V. reflexivity. Qed.

Lemma version_of_set k v h : ~ In k cybox_version_attributes -> cybox_version_of (hset_attr k v h) = cybox_version_of h.
Proof. intro N. unfold cybox_version_of. rewrite !attr_of_set; auto; intros <-; apply N; simpl; auto. Qed.

Definition sound (t : tree) : Prop := all (fun h => NoDup (map fst (h_attr h))) t.

Lemma attr_update_NoDup l : forall e, NoDup (map fst e) -> NoDup (map fst (attr_update e l)).
Proof. induction l as [|[k v] l IH]; intros e N; auto. apply IH. apply attr_set_NoDup. exact N. Qed.

Lemma attr_del_same k l : NoDup (map fst l) -> attr_get k (attr_del k l) = None.
Proof.
  induction l as [|[k' v] l IH]; intro N; auto. inversion N as [|? ? N1 N2]; subst. simpl. destruct (qn_eqb k k') eqn:E.
  - apply qn_eqb_eq in E. subst k'. clear -N1. induction l as [|[k2 v2] l IH]; auto. simpl.
    destruct (qn_eqb k k2) eqn:E; [apply qn_eqb_eq in E; subst; contradiction N1; left; auto|]. apply IH. intro I. apply N1. right. auto.
  - simpl. rewrite E. auto.
Qed.

Lemma stamp_2_0_1_version h : cybox_version_of (stamp_cybox_2_0_1 h) = [Some "2"; Some "0"; Some "1"].
Proof.
  unfold cybox_version_of, stamp_cybox_2_0_1. rewrite attr_of_set_same. rewrite (attr_of_set (lq "cybox_minor_version")) by discriminate.
  rewrite attr_of_set_same. rewrite !(attr_of_set (lq "cybox_major_version")) by discriminate. rewrite attr_of_set_same. reflexivity.
Qed.

Lemma stamp_2_1_version h : NoDup (map fst (h_attr h)) -> cybox_version_of (stamp_cybox_2_1 h) = [Some "2"; Some "1"; None].
Proof.
  intro N. unfold cybox_version_of, stamp_cybox_2_1.
  rewrite (attr_of_del (lq "cybox_major_version")), (attr_of_del (lq "cybox_minor_version")) by discriminate.
  rewrite attr_of_set_same, (attr_of_set (lq "cybox_major_version")), attr_of_set_same by discriminate.
  do 3 f_equal. unfold attr_of, hdel_attr, hset_attr, set_attrs. cbn [h_attr]. f_equal. apply attr_del_same. do 2 apply attr_set_NoDup. exact N.
Qed.

Definition mark_of (only_inside : bool) (qs : list qname) : list tree -> tree -> bool :=
  if only_inside then any_inside qs else anywhere qs.

Lemma stamped_at b qs g new t m e : traced (scopes []) (same (minfo qs)) [] t [] m -> sound m ->
  keeps_id g -> (forall h, NoDup (map fst (h_attr h)) -> cybox_version_of (g h) = new) ->
  stems (fun h h' => cybox_version_of h' = cybox_version_of h) (edit_where (mark_of b qs) g m) e ->
  stems_at (cybox_marked (mark_of b qs) new) t e.
Proof.
  intros T1 So K G S x' Hx Nz. destruct (S x' Hx Nz) as (y & Hy & Ey & Vy). unfold edit_where in Hy.
  destruct (nodes_edit _ m [] y Hy) as (b1 & y1 & I1 & E1).
  assert (K1 : tid y1 = tid y). { unfold tid at 2. rewrite E1. destruct (mark_of b qs b1 y1); [symmetry; apply K|reflexivity]. }
  destruct (T1 b1 y1 I1) as (b0 & y0 & I0 & E0 & S0 & _ & N0); [rewrite K1, Ey; exact Nz|]. exists b0, y0. split; auto. split; [congruence|].
  unfold cybox_marked. unfold same, minfo in N0.
  pose proof (f_equal fst N0) as M. pose proof (f_equal snd N0) as V. cbn [fst snd] in M, V.
  assert (Mk : mark_of b qs b1 y1 = mark_of b qs b0 y0).
  { destruct S0 as [S0 _]. unfold mark_of, any_inside, anywhere. destruct b; [rewrite S0; f_equal|]; exact M. }
  rewrite Vy, E1, Mk. destruct (mark_of b qs b0 y0); [|exact V]. apply G. apply So. apply nodes_in. eauto.
Qed.

(** ** The passes keep it *)

Lemma version_of_convert h : cybox_version_of (convert_text h) = cybox_version_of h.
Proof. unfold cybox_version_of. rewrite !attr_of_convert. reflexivity. Qed.

Lemma version_of_upgraded v alias h h' : upgraded_with v alias h = Ok h' -> cybox_version_of h' = cybox_version_of h.
Proof.
  intro U. unfold cybox_version_of. rewrite !(attr_of_upgraded _ _ _ _ _ U); auto; simpl; intros [E|[E|[E|[]]]]; discriminate E.
Qed.

Lemma keeps_version_vocab v : keeps cybox_version_of (vocab_pass v).
Proof. apply keeps_vocab. intros. eapply version_of_upgraded; eauto. Qed.

Lemma keeps_version_loc drop m loc : keeps cybox_version_of (always (schemaloc_pass drop m loc)).
Proof. apply keeps_loc. intros v h. apply version_of_set. simpl. intros [E|[E|[E|[]]]]; discriminate E. Qed.

Lemma keeps_version_stix p i w : keeps cybox_version_of (always (edit_where p (stamp_stix i w))).
Proof.
  apply keeps_edit_where; [intro; reflexivity|]. intros anc t _. unfold stamp_stix. apply version_of_set.
  simpl. intros [E|[E|[E|[]]]]; discriminate E.
Qed.

Ltac keeps_version :=
  repeat first
    [ apply keeps_nil | apply keeps_cons | apply keeps_version_loc | apply keeps_version_vocab | apply keeps_version_stix
    | apply keeps_lists; exact version_of_convert | apply keeps_child_value | apply keeps_as_string | apply keeps_wrap | apply keeps_source
    | apply keeps_rename; reflexivity | apply keeps_unwrap; reflexivity | apply keeps_optional | apply keeps_optional_in_type
    | apply keeps_when | apply keeps_passes; repeat (apply Forall_cons || apply Forall_nil)
    | apply keeps_wrap_renamed; reflexivity | apply keeps_contributing; reflexivity ].

Lemma follows_loc_minfo qs drop m loc t : follows (minfo qs) [] (always (schemaloc_pass drop m loc)) t.
Proof.
  apply follows_loc. intros v h. apply minfo_same; auto. apply version_of_set. simpl. intros [E|[E|[E|[]]]]; discriminate E.
Qed.

Lemma sound_loc drop m loc : invariant (fun h => NoDup (map fst (h_attr h))) (always (schemaloc_pass drop m loc)).
Proof. apply invariant_on_root. intros h H. destruct (attr_get _ _); auto. unfold hset_attr, set_attrs. cbn [h_attr]. apply attr_set_NoDup. exact H. Qed.

Lemma sound_driver : invariant (fun h => NoDup (map fst (h_attr h))) (namespaces_pass [] driver_ns).
Proof.
  apply invariant_ns. intros b y _ H. unfold rebuilt. cbn [h_attr].
  apply attr_update_NoDup. constructor.
Qed.

Lemma follows_driver_minfo qs t : 
  forallb (fun q => negb (ostr_eqb (q_ns q) (Some "http://cybox.mitre.org/objects#WinDriverObject-2"))) qs = true ->
  forallb (fun q => negb (ostr_eqb (q_ns q) (Some "http://cybox.mitre.org/objects#WinDriverObject-3"))) qs = true ->
  sound t -> follows (minfo qs) [] (namespaces_pass [] driver_ns) t.
Proof.
  intros H2 H3 So. apply follows_ns; [intros n []|]. intros b y I _ M.
  assert (D : NoDup (map fst (h_attr (head y)))) by (apply So, nodes_in; eauto).
  unfold minfo. f_equal.
  - rewrite driver_free by auto. symmetry. unfold one_of, named_in, named. cbn [head].
    apply driver_moves in M. destruct (h_kind (head y)); try (clear; induction qs; auto; fail).
    pose proof (free_ns qs _ (q_local (h_tag (head y))) H2) as X. unfold qn_eqb in *. cbn [q_ns q_local] in X. rewrite M. exact X.
  - unfold cybox_version_of. rewrite !attr_of_rebuilt by exact D. reflexivity.
Qed.

Lemma cybox_2_0_marked b qs opts t e : cybox_2_0_step (mark_of b qs) opts t = Ok e -> sound t ->
  stems_at (cybox_marked (mark_of b qs) [Some "2"; Some "0"; Some "1"]) t e.
Proof.
  intros E So. unfold cybox_2_0_step in E. apply in_order_ok in E as (m & E1 & E). apply in_order_ok in E as (m2 & E2 & E).
  injection E2 as <-. eapply (stamped_at b qs stamp_cybox_2_0_1).
  - exact (follows_loc_minfo qs _ _ _ t m E1).
  - exact (sound_loc _ _ _ t m E1 So).
  - intro h. reflexivity.
  - intros h _. apply stamp_2_0_1_version.
  - refine ((_ : keeps cybox_version_of _) _ _ E). keeps_version.
Qed.

Lemma cybox_2_0_1_marked b qs opts t e :
  forallb (fun q => negb (ostr_eqb (q_ns q) (Some "http://cybox.mitre.org/objects#WinDriverObject-2"))) qs = true ->
  forallb (fun q => negb (ostr_eqb (q_ns q) (Some "http://cybox.mitre.org/objects#WinDriverObject-3"))) qs = true ->
  cybox_2_0_1_step (mark_of b qs) opts t = Ok e -> sound t ->
  stems_at (cybox_marked (mark_of b qs) [Some "2"; Some "1"; None]) t e.
Proof.
  intros H2 H3 E So. unfold cybox_2_0_1_step in E. apply in_order_ok in E as (m & E1 & E). apply in_order_ok in E as (m1 & E2 & E).
  apply in_order_ok in E as (m2 & E3 & E). injection E3 as <-. eapply (stamped_at b qs stamp_cybox_2_1).
  - eapply traced_same_trans; [exact (follows_driver_minfo qs t H2 H3 So m E1)|exact (follows_loc_minfo qs _ _ _ m m1 E2)].
  - eapply sound_loc; eauto. eapply sound_driver; eauto.
  - intro h. reflexivity.
  - intros h. apply stamp_2_1_version.
  - refine ((_ : keeps cybox_version_of _) _ _ E). keeps_version.
Qed.

Lemma stems_at_keeps {X} (pi : hdr -> X) (R : list tree -> tree -> X -> Prop) t m e :
  stems_at (fun anc x h' => R anc x (pi h')) t m -> stems (fun h h' => pi h' = pi h) m e -> stems_at (fun anc x h' => R anc x (pi h')) t e.
Proof.
  intros S S' x' Hx Nz. destruct (S' x' Hx Nz) as (y & Hy & Ey & P). destruct (S y Hy) as (a & x & I & E & R1); [congruence|].
  exists a, x. split; auto. split; [congruence|]. rewrite P. exact R1.
Qed.

Lemma stix_step_marked o opts v f mark new t e : stix_step o opts v = Some f -> cybox_marks v = Some (mark, new) -> sound t ->
  f t = Ok e -> stems_at (cybox_marked mark new) t e.
Proof.
  intros H M So E. unfold stix_step in H. by_version H; try discriminate M; apply some_inj in M; injection M as <- <-.
  - unfold stix_1_0_step in E. apply in_order_ok in E as (m & E1 & E).
    apply (stems_at_keeps cybox_version_of (fun anc x c => c = _) t m e).
    + exact (cybox_2_0_marked false _ opts t m E1 So).
    + refine ((_ : keeps cybox_version_of _) _ _ E). keeps_version.
  - unfold stix_1_0_1_step in E. apply in_order_ok in E as (m & E1 & E).
    apply (stems_at_keeps cybox_version_of (fun anc x c => c = _) t m e).
    + exact (cybox_2_0_1_marked true cybox_in_stix_1_0_1 opts t m eq_refl eq_refl E1 So).
    + refine ((_ : keeps cybox_version_of _) _ _ E). keeps_version.
Qed.

Lemma cybox_step_marked opts v f mark new t e : cybox_step opts v = Some f -> cybox_marks v = Some (mark, new) -> sound t ->
  f t = Ok e -> stems_at (cybox_marked mark new) t e.
Proof.
  intros H M So E. unfold cybox_step in H. by_version H; apply some_inj in M; injection M as <- <-.
  - exact (cybox_2_0_marked false _ opts t e E So).
  - exact (cybox_2_0_1_marked false [cybox "Observables"] opts t e eq_refl eq_refl E So).
Qed.

(** ** By updater *)

Lemma stix_cybox_versions o opts v up mark new d force s t r s' :
  dict_get v (STIX_UPDATERS o) = Some up -> cybox_marks v = Some (mark, new) -> wf_state s -> denotes s d t -> distinct_attributes t ->
  updater_update o up d opts force s = (Ok r, s') ->
  exists t1 e, worked_on o up d opts force s t t1 /\ document s' (r_document r) (erase e) /\
    carried (stix_gone (or_default o opts) v) (labelled t1) e /\ stems_at (cybox_marked mark new) (labelled t1) e.
Proof.
  intros U M W Dn DA E. on_step U W Dn E f Ef t1 e Wk Fit Fe Doc. exists t1, e. split; auto. split; auto.
  split; [eapply stix_step_carries; eauto|eapply stix_step_marked; eauto]. exact (fit_distinct _ _ Fit DA).
Qed.

Lemma cybox_cybox_versions o opts v up mark new d force s t r s' :
  dict_get v (CYBOX_UPDATERS o) = Some up -> cybox_marks v = Some (mark, new) -> wf_state s -> denotes s d t -> distinct_attributes t ->
  updater_update o up d opts force s = (Ok r, s') ->
  exists t1 e, worked_on o up d opts force s t t1 /\ document s' (r_document r) (erase e) /\
    carried (cybox_gone (or_default o opts) v) (labelled t1) e /\ stems_at (cybox_marked mark new) (labelled t1) e.
Proof.
  intros U M W Dn DA E. on_step U W Dn E f Ef t1 e Wk Fit Fe Doc. exists t1, e. split; auto. split; auto.
  split; [eapply cybox_step_carries; eauto|eapply cybox_step_marked; eauto]. exact (fit_distinct _ _ Fit DA).
Qed.

(** ** The step from STIX 1.2 versions the root only *)

Lemma labels_in e x : In x (nodes e) -> tid x <> 0 -> In (tid x) (labels e).
Proof. intros Hx Nz. apply filter_In. split; [apply nodes_ids; eauto|]. apply negb_true_iff, Nat.eqb_neq. exact Nz. Qed.

Lemma labelled_root t : tid (labelled t) = 1.
Proof.
  unfold labelled, numbered, tid. destruct t as [h ks]. pose proof (renum_ids (Node h ks) 1) as R.
  destruct (fst (renum 1 (Node h ks))) as [h' ks'] eqn:E. cbn [head]. cbn [ids] in R. rewrite size_ids in R. cbn [ids length seq] in R. congruence.
Qed.

Lemma stix_1_2_root t1 e : distinct_attributes (labelled t1) -> stix_1_2_step (labelled t1) = Ok e ->
  carried (fun _ => false) (labelled t1) e -> stems root_brought (labelled t1) e.
Proof.
  intros DA E [Sl _]. unfold stix_1_2_step in E. apply in_order_ok in E as (m & E1 & E). apply in_order_ok in E as (m1 & E2 & E).
  apply in_order_ok in E as (m2 & E3 & E). rewrite in_order_nil in E. injection E as <-. injection E3 as <-.
  assert (K : stems (fun h h' => attr_of (lq "version") h' = attr_of (lq "version") h) (labelled t1) m1).
  { eapply keeps_eq.
    - exact (keepsd_ns_attr _ _ _ (labelled t1) m DA E1).
    - refine ((_ : keeps (attr_of (lq "version")) _) _ _ E2). apply keeps_loc_attr. discriminate. }
  assert (R : tid m1 = 1).
  { injection E2 as <-. apply namespaces_ok in E1 as ->. rewrite <- (labelled_root t1). unfold schemaloc_pass, on_root.
    destruct (labelled t1) as [h ks]. cbn [ns_pass]. unfold tid. cbn [head]. destruct (attr_get _ _), (moves _ _); reflexivity. }
  intros x Hx Nz. assert (NL : NoDup (labels (on_root (hset_attr (lq "version") "1.2.1") m1))).
  { eapply sublist_NoDup; [exact Sl|]. apply NoDup_filter. apply labelled_NoDup. }
  destruct m1 as [h1 ks1]. change (h_id h1 = 1) in R. unfold on_root in *. cbn [head kids] in *.
  destruct Hx as [<-|Hx].
  - destruct (K (Node h1 ks1) (nodes_self _)) as (y & Hy & Ey & _); [exact Nz|].
    exists y. split; auto. split; [exact Ey|]. unfold root_brought. replace (h_id (head y)) with 1 by (symmetry; etransitivity; [exact Ey|exact R]).
    apply attr_of_set_same.
  - destruct (K x) as (y & Hy & Ey & A); [right; exact Hx|exact Nz|]. exists y. split; auto. split; auto. unfold root_brought.
    replace (Nat.eqb (h_id (head y)) 1) with false; [exact A|]. symmetry. apply Nat.eqb_neq. intro X.
    assert (X1 : tid x = 1) by (rewrite <- Ey; exact X).
    clear -NL Hx X1 R. unfold labels in NL. cbn [ids filter hset_attr set_attrs h_id] in NL. rewrite R in NL. cbn in NL.
    inversion NL as [|? ? N _]; subst. apply N. apply filter_In. split; [|reflexivity]. apply in_flat_map in Hx as (k & Hk & Hx).
    apply in_flat_map. exists k. split; auto. apply nodes_ids. eauto.
Qed.

Lemma stix_1_2_versions o opts up d force s t r s' :
  dict_get "1.2" (STIX_UPDATERS o) = Some up -> wf_state s -> denotes s d t -> distinct_attributes t ->
  updater_update o up d opts force s = (Ok r, s') ->
  exists t1 e, worked_on o up d opts force s t t1 /\ document s' (r_document r) (erase e) /\
    carried (fun _ => false) (labelled t1) e /\ stems root_brought (labelled t1) e.
Proof.
  intros U W Dn DA E. on_step U W Dn E f Ef t1 e Wk Fit Fe Doc. exists t1, e. split; auto. split; auto.
  assert (C := stix_step_carries _ _ _ _ _ _ Ef Fe).
  assert (C' : carried (fun _ => false) (labelled t1) e) by (destruct C as [C1 C2]; split; auto).
  split; auto. apply stix_1_2_root; auto; [exact (fit_distinct _ _ Fit DA)|]. apply some_inj in Ef. subst f. exact Fe.
Qed.
