(** * Documents of another version are refused. *)

From Coq Require Import String Ascii List Bool Arith NArith Lia.
From Verif Require Import Str Xml XPath Utils Base Tables Cybox Stix Ramrod Spec SpecDoc SpecPass SpecStep
  SpecCheck SpecClean SpecUpdate SpecReport SpecTrace SpecChain Lib Frame Api Versions NoFail Refine RefineBase RefineTrans RefineLists
  RefineSteps RefineCheck RefineClean Relabel RefineUpdate Natural Updates Reports Samples PropsApi UpdateFacts Trace SpecField Fields
  Carried Follow Vocab Worked Marks Root Located Declared Cleaned Chained SpecIds Refs.
Import ListNotations.
Local Open Scope string_scope.

Lemma version_is_ok v w i : version_is v w i = Ok tt -> same_version (Some w) v.
Proof.
  unfold version_is. destruct (is_version_equal v w) as [[|]|] eqn:E; try discriminate. intros _.
  apply version_equality_full in E as (n & p & H1 & H2). exists w, n, p. auto.
Qed.

Lemma version_is_err v w i x : version_is v w i = Err x -> about_version x.
Proof.
  unfold version_is. destruct (is_version_equal v w) as [[|]|y] eqn:E; cbn [rbind]; try discriminate.
  - intro H. injection H as <-. left. right. eauto.
  - intro H. injection H as <-. right. unfold is_version_equal in E.
    destruct (strict_version v), (strict_version w); congruence.
Qed.

Lemma stix_version_decided v T : stix_version_check v T = Ok tt /\
    (forall x, first_of (anywhere [stix "STIX_Package"]) T x -> same_version (stix_declared x) v)
  \/ exists x, stix_version_check v T = Err x /\ about_version x.
Proof.
  unfold stix_version_check, first_of. destruct (selected _ T) as [|[a y] l] eqn:E.
  - left. split; auto. intros x (? & ? & X). discriminate.
  - unfold stix_declared. cbn [snd]. destruct (given (attr_get (lq "version") (h_attr (head y)))) as [w|] eqn:G.
    + destruct (version_is v w (tid y)) as [[]|x] eqn:V.
      * left. split; auto. intros x (a' & l' & X). injection X as <- <- <-. rewrite G. eapply version_is_ok; eauto.
      * right. exists x. split; auto. eapply version_is_err; eauto.
    + right. eexists. split; [reflexivity|]. left. left. reflexivity.
Qed.

Lemma cybox_version_decided v p T : cybox_version_check v p T = Ok tt /\ every p T (fun x => same_version (cybox_declared x) v)
  \/ exists x, cybox_version_check v p T = Err x /\ about_version x.
Proof.
  unfold cybox_version_check.
  assert (H : forall l, first_err (fun c => SpecCheck.cybox_version_of v (snd c)) l = None /\
                (forall c, In c l -> same_version (cybox_declared (snd c)) v)
              \/ exists x, first_err (fun c => SpecCheck.cybox_version_of v (snd c)) l = Some x /\ about_version x).
  { induction l as [|c l IH]; [left; split; auto; intros c []|]. cbn [first_err]. unfold SpecCheck.cybox_version_of at 1 3.
    destruct (cybox_declared (snd c)) as [w|] eqn:D.
    - destruct (version_is v w (tid (snd c))) as [[]|x] eqn:V.
      + destruct IH as [[E A]|X]; [left|right; exact X]. split; auto. intros c' [<-|I]; auto. rewrite D. eapply version_is_ok; eauto.
      + right. exists x. split; auto. eapply version_is_err; eauto.
    - right. eexists. split; [reflexivity|]. left. left. reflexivity. }
  destruct (H (selected p T)) as [[E A]|(x & E & A)]; rewrite E.
  - left. split; auto. intros anc x I P. apply (A (anc, x)). apply filter_In. auto.
  - right. eauto.
Qed.

Lemma stix_decided o v up opts d s t :
  dict_get v (STIX_UPDATERS o) = Some up -> check_versions (or_default o opts) = true -> wf_state s -> denotes s d t ->
  stix_versions_ok v (numbered (next s) t) \/
  exists x, fst (updater_update o up d opts false s) = Err x /\ about_version x.
Proof.
  intros H V W Dn. destruct (stix_described o (or_default o opts) v up H) as (c & D & f & Ec & Ed & Ef & X).
  destruct (stix_version_decided v (numbered (next s) t)) as [[E A]|(x & E & A)].
  - destruct (embedded v) as [[cv p]|] eqn:Em.
    + destruct (cybox_version_decided cv p (numbered (next s) t)) as [[_ B]|(x & F & B)].
      * left. split; auto. intros cv' p' Em'. rewrite Em in Em'. injection Em' as <- <-. exact B.
      * right. exists x. split; auto. eapply refused_fst; eauto. eapply stix_check_embedded; eauto.
    + left. split; auto. intros cv p Em'. rewrite Em in Em'. discriminate.
  - right. exists x. split; auto. eapply refused_fst; eauto. eapply stix_check_first_version; eauto.
Qed.

Lemma cybox_decided o v up opts d s t :
  dict_get v (CYBOX_UPDATERS o) = Some up -> check_versions (or_default o opts) = true -> wf_state s -> denotes s d t ->
  cybox_versions_ok v (numbered (next s) t) \/
  exists x, fst (updater_update o up d opts false s) = Err x /\ about_version x.
Proof.
  intros H V W Dn. destruct (cybox_described o (or_default o opts) v up H) as (c & D & f & Ec & Ed & Ef & X).
  destruct (cybox_version_decided v (anywhere [cybox "Observables"]) (numbered (next s) t)) as [[E A]|(x & E & A)]; [left; exact A|].
  right. exists x. split; auto. eapply refused_fst; eauto. eapply cybox_check_first_version; eauto.
Qed.

(** ** What the step from STIX 1.0 leaves as it is *)

Definition reflected (Q : hdr -> Prop) (f : tree -> res tree) : Prop := forall t e, f t = Ok e -> all Q e -> all Q t.

Lemma reflected_edit (Q : hdr -> Prop) f : (forall b y, Q (f b y) -> Q (head y)) -> forall t anc, all Q (edit f anc t) -> all Q t.
Proof.
  intro H. intro t. tree_induction t. intros anc A x Hx. cbn [nodes] in Hx. destruct Hx as [<-|Hx].
  - apply (H anc (Node h ks)). apply (A _ (or_introl eq_refl)).
  - apply in_flat_map in Hx as (k & Hk & Hx). refine (IH k Hk (Node h ks :: anc) _ x Hx).
    intros z Hz. apply A. right. apply in_flat_map. exists (edit f (Node h ks :: anc) k). split; auto.
    apply in_map_iff. eauto.
Qed.

Lemma reflected_nil Q : reflected Q (in_order []).
Proof. intros t e E. injection E as <-. auto. Qed.

Lemma reflected_cons Q f l : reflected Q f -> reflected Q (in_order l) -> reflected Q (in_order (f :: l)).
Proof. intros F L t e E A. apply in_order_ok in E as (m & E1 & E2). eauto. Qed.

Lemma reflected_when Q b f : reflected Q f -> reflected Q (when b f).
Proof. intros F t e E. destruct b; [eauto|]. injection E as <-. auto. Qed.

Lemma reflected_where (Q : hdr -> Prop) p g : (forall b y, p b y = true -> Q (g (head y)) -> Q (head y)) -> reflected Q (always (edit_where p g)).
Proof. intros H t e E. injection E as <-. unfold edit_where. apply reflected_edit. intros b y. destruct (p b y) eqn:P; eauto. Qed.

(** The mark [P] on the elements [qs] depends on nothing else than [key]. *)
Section Back.
Variable qs : list qname.
Variable v : string.
Let Q := marked qs (brings v).

Lemma back_same h h' : h_tag h' = h_tag h -> h_kind h' = h_kind h -> cybox_version_of h' = cybox_version_of h -> Q h' -> Q h.
Proof.
  intros T K C M O. eapply brings_same; [symmetry; exact C|]. apply M. rewrite (one_of_same qs h h' T K). exact O.
Qed.

Lemma back_loc drop m loc : reflected Q (always (schemaloc_pass drop m loc)).
Proof.
  intros t e E A x Hx. injection E as <-. destruct t as [h ks]. destruct Hx as [<-|Hx].
  - specialize (A _ (or_introl eq_refl)). cbn [head kids] in *. destruct (attr_get TAG_SCHEMALOCATION (h_attr h)); auto.
    eapply back_same; [..|exact A]; try reflexivity. apply version_of_set. off.
  - apply A. right. exact Hx.
Qed.

Lemma back_lists a b : reflected Q (always (lists_pass a b)).
Proof.
  intros t e E. injection E as <-. unfold lists_pass. apply reflected_edit. intros c y. destruct (is_elem y); auto.
  generalize (properties_above a b c). induction n as [|n IH]; auto. cbn [repeat_edit]. intro H. apply IH. eapply back_same; [..|exact H].
  - unfold convert_text. destruct (h_text _) as [s|]; auto. destruct (String.eqb s ""); auto.
  - unfold convert_text. destruct (h_text _) as [s|]; auto. destruct (String.eqb s ""); auto.
  - apply version_of_convert.
Qed.

Lemma back_vocab w : reflected Q (vocab_pass w).
Proof.
  intros t e E. unfold vocab_pass in E. destruct (first_err type_of _); [discriminate|].
  destruct (first_err (upgraded w) _); [discriminate|]. injection E as <-. apply reflected_edit. intros b y.
  destruct (outdated w (b, y)); auto. destruct (upgraded w (b, y)) as [h|] eqn:U; auto.
  destruct (upgraded_shape _ _ _ _ U) as (a & n & _ & _ & W). pose proof (upgraded_with_same _ _ _ _ W) as (T & K & _).
  apply back_same; auto. eapply version_of_upgraded; eauto.
Qed.

Lemma back_vocabs b l : reflected Q (when b (passes vocab_pass l)).
Proof.
  apply reflected_when. induction l as [|x l IH]; intros t e E.
  - injection E as <-. auto.
  - rewrite passes_cons in E. destruct (vocab_pass x t) as [m|] eqn:E1; [|discriminate]. intro A. eapply back_vocab; eauto.
Qed.
End Back.

Lemma stix_1_0_back opts : reflected (marked forgotten (brings "2.0.1")) (stix_1_0_step opts).
Proof.
  unfold stix_1_0_step. apply reflected_cons.
  - unfold cybox_2_0_step. apply reflected_cons; [apply back_loc|]. apply reflected_cons.
    + apply reflected_where. intros b [h ks] N _ O. exfalso. apply one_of_in in O.
      assert (I : In (h_tag h) cybox_in_stix_1_0) by (apply one_of_in; exact N).
      cbn [head] in O. destruct O as [O|[O|[]]]; rewrite <- O in I; destruct I as [I|[I|[I|[]]]]; discriminate I.
    + apply reflected_cons; [apply back_lists|]. apply reflected_cons; [apply reflected_when, back_vocab|apply reflected_nil].
  - apply reflected_cons; [apply back_loc|]. apply reflected_cons.
    + apply reflected_where. intros b y _. apply back_same; try reflexivity. apply version_of_set. off.
    + apply reflected_cons; [apply back_vocabs|apply reflected_nil].
Qed.

Lemma marked_declares qs v t : all (marked qs (brings v)) t -> declare_cybox qs v t.
Proof. intros A anc x I N. pose proof (every_marked _ _ _ A anc x I N) as B. destruct x as [h ks]. exact B. Qed.

Lemma top_visit T x : In ([], x) (visits [] T) -> x = T.
Proof.
  destruct T as [h ks]. cbn [visits]. intros [E|H]; [congruence|]. apply in_flat_map in H as (k & _ & H).
  destruct (visits_anc_app _ _ _ _ H) as (b & E). destruct b; discriminate.
Qed.

Lemma inside_marked qs qs' P T : incl qs qs' -> one_of qs (head T) = false ->
  every (any_inside qs') T (fun x => P (head x)) -> all (marked qs P) T.
Proof.
  intros I N E x Hx O. apply nodes_in in Hx as (anc & V). destruct anc as [|p anc].
  - apply top_visit in V. subst x. congruence.
  - apply (E (p :: anc) x V). unfold any_inside. cbn [inside andb].
    unfold one_of, named_in in *. apply existsb_exists in O as (q & Hq & O). apply existsb_exists. exists q. split; auto.
Qed.

Lemma stix_1_0_root opts t e : stix_1_0_step opts t = Ok e -> hname (head e) = hname (head t).
Proof.
  intro E. refine ((_ : root_keeps hname _) _ _ E). unfold stix_1_0_step.
  apply root_cons; [apply root_name_2_0|]. roots; [apply root_loc|apply root_edit_where]; reflexivity.
Qed.

Lemma one_of_hname qs h h' : hname h = hname h' -> one_of qs h = one_of qs h'.
Proof. intro E. unfold hname in E. injection E as K T. apply one_of_same; auto. Qed.

Lemma stix_1_0_next o opts up up' d force s t r s' :
  dict_get "1.0" (STIX_UPDATERS o) = Some up -> dict_get "1.0.1" (STIX_UPDATERS o) = Some up' ->
  wf_state s -> denotes s d t -> updater_update o up d opts force s = (Ok r, s') ->
  exists t1 e, worked_on o up d opts force s t t1 /\ document s' (r_document r) e /\
    (declare_cybox forgotten "2.0.1" t1 -> versions_accepted o up' e) /\
    (named_in forgotten t1 = false -> ~ declare_cybox forgotten "2.0.1" t1 -> versions_refused o up' e).
Proof.
  intros U U' W Dn E. on_step U W Dn E f Ef t1 e Wk Fit Fe Doc. exists t1, (erase e). split; auto. split; auto.
  assert (B : forall Q, (forall h, Q (set_id 0 h) <-> Q h) -> all Q t1 <-> all Q (labelled t1)).
  { intros Q H. unfold labelled. split; intro A; [apply all_numbered; auto|].
    apply (all_erase Q t1 H). rewrite <- (numbered_erase 1 t1). apply (all_erase Q _ H). exact A. }
  pose proof (marked_blind forgotten _ (brings_blind "2.0.1")) as K. split.
  - intro DC. apply declares_marked in DC. apply (B _ K) in DC.
    intros d2 opts2 force2 s2 t2 W2 D2 E2. eapply stix_accepted; eauto. right. rewrite numbered_content, E2.
    assert (F : stix_versions_ok "1.0.1" (numbered (next s2) e)).
    { eapply (stix_step_next o _ "1.0"); eauto; try reflexivity; intro; discriminate. }
    rewrite numbered_content in F. exact F.
  - intros Rt ND d2 opts2 s2 t2 W2 D2 E2 V. destruct (stix_decided o "1.0.1" up' opts2 d2 s2 t2 U' V W2 D2) as [[_ S]|X]; auto.
    elim ND. specialize (S _ _ eq_refl). apply marked_declares. apply (B _ K). change (f (labelled t1) = Ok e) in Fe.
    apply some_inj in Ef. subst f. refine (stix_1_0_back _ _ _ Fe _).
    apply (all_erase _ e K). rewrite <- E2. apply (all_erase _ t2 K).
    apply (all_erase _ t2 K). rewrite <- (numbered_erase (next s2) t2). apply (all_erase _ _ K).
    apply (inside_marked _ cybox_in_stix_1_0_1).
    + intros q [<-|[<-|[]]]; simpl; tauto.
    + rewrite (one_of_hname _ _ (head t1)); [destruct t1; exact Rt|].
      destruct (numbered_root (next s2) t2) as [N1 _]. rewrite N1. destruct (erase_root t2) as [N2 _]. rewrite <- N2, E2.
      destruct (erase_root e) as [N3 _]. rewrite N3, (stix_1_0_root _ _ _ Fe). apply numbered_root.
    + intros anc x I N. specialize (S anc x I N). destruct x as [h ks]. exact S.
Qed.

(** ** From STIX 1.1, whatever the root *)

Definition unmarked : hdr -> Prop := known (lq "x") (fun _ => True).

Lemma unmarked_clear t : all unmarked t <-> sources_without_markup t.
Proof.
  rewrite clear_all. split; intros A x Hx.
  - apply (A x Hx).
  - split; auto.
Qed.

Lemma structured_both P o b p : (forall anc y, p anc y = true -> named_in [common "Source"; indicator "Source"] y = true) ->
  invariant (fun h => marked PKG P h /\ unmarked h) (rewrite_all p (structured_source o b)).
Proof.
  intro N. apply invariant_rewrite. intros a x e Px E A. apply N in Px. unfold structured_source in E.
  assert (C : clear_text (match h_text (head x) with Some s => s | None => "None" end)).
  { destruct (h_text (head x)) as [s|] eqn:Es; [|split; reflexivity]. destruct (A x (nodes_self x)) as [_ [_ B]]. apply B; auto. }
  unfold parse_source in E. rewrite (clear_no_markup _ C) in E. destruct (chardata _) as [name|]; [|discriminate]. injection E as <-.
  intros y Hy. split.
  - destruct b; destruct Hy as [<-|[<-|[<-|[]]]]; intro O; discriminate O.
  - revert y Hy. destruct b; apply known_source_tree; intros ? [].
Qed.

Lemma both (P Q : hdr -> Prop) f : invariant P f -> invariant Q f -> invariant (fun h => P h /\ Q h) f.
Proof.
  intros A B t e E C x Hx. split.
  - refine (A t e E _ x Hx). intros y Hy. apply C. auto.
  - refine (B t e E _ x Hx). intros y Hy. apply C. auto.
Qed.

Lemma packages_1_1 o opts t e : stix_1_1_step o opts t = Ok e -> sources_without_markup t -> all (marked PKG (versioned "1.1.1")) e.
Proof.
  intros E S. apply unmarked_clear in S. unfold stix_1_1_step in E.
  assert (K : ~ In (lq "x") set_by_steps) by off.
  apply in_order_ok in E as (a & E1 & E). apply (known_loc _ _ K _ _ _ _ _ E1) in S.
  apply in_order_ok in E as (b & E2 & E). apply (known_loc _ _ K _ _ _ _ _ E2) in S.
  apply in_order_ok in E as (c & E3 & E). pose proof (package_stamped _ _ _ _ E3) as M.
  apply (known_stix_stamp _ _ K _ _ _ _ _ E3) in S.
  assert (A : all (fun h => marked PKG (versioned "1.1.1") h /\ unmarked h) c) by (intros x Hx; split; [exact (M x Hx)|exact (S x Hx)]).
  enough (I : invariant (fun h => marked PKG (versioned "1.1.1") h /\ unmarked h) _) by (intros x Hx; apply (I _ _ E A x Hx)).
  apply invariant_cons; [apply structured_both; intros ? ? X; eapply Faults.child_in_source; [|exact X]; simpl; tauto|].
  apply invariant_cons; [apply structured_both; intros ? ? X; eapply Faults.child_in_source; [|exact X]; simpl; tauto|].
  apply invariant_cons.
  { apply both; [|apply known_wrap_renamed; auto; reflexivity].
    apply invariant_rewrite. intros z x y _ Ey Ax. injection Ey as <-. apply marked_element; [off|]. intros w [<-|[]].
    apply marked_renamed; auto. off. }
  apply invariant_cons; [apply invariant_when, both; [apply marked_vocab, versioned_lasts|apply known_vocab; auto; vm_compute; reflexivity]|].
  apply invariant_cons; [|apply invariant_nil]. apply invariant_when, both; [|apply known_optional_in].
  intros x y Ey Ax. unfold optional_in_type in Ey. destruct (first_err _ _); [discriminate|]. injection Ey as <-.
  apply invariant_prune. exact Ax.
Qed.

Lemma stix_1_1_next o opts up up' d force s t r s' :
  dict_get "1.1" (STIX_UPDATERS o) = Some up -> dict_get "1.1.1" (STIX_UPDATERS o) = Some up' ->
  wf_state s -> denotes s d t -> sources_without_markup t -> updater_update o up d opts force s = (Ok r, s') ->
  exists e, document s' (r_document r) e /\ versions_accepted o up' e.
Proof.
  intros U U' W Dn S E. destruct (stix_described o (or_default o opts) "1.1" up U) as (c & D & f & _ & _ & Ef & _).
  destruct (stix_updated o opts "1.1" up f d force s t r s' U Ef W Dn E) as (t1 & e & Fit & _ & Fe & Doc).
  apply some_inj in Ef. subst f. exists e. split; auto. intros d2 opts2 force2 s2 t2 W2 D2 E2. eapply stix_accepted; eauto. right.
  rewrite numbered_content, E2. split; [|discriminate]. apply packages_ok; [simpl; auto|].
  apply all_numbered; [apply marked_blind, versioned_blind|]. eapply packages_1_1; eauto.
  apply unmarked_clear. apply Fit; [apply robust_known; off|]. apply unmarked_clear. exact S.
Qed.

(** A source text that brings a package along. *)
Definition packed : string := "<stix:STIX_Package xmlns:stix=""http://stix.mitre.org/stix-1"" version=""9.9""/>".
Definition unpacks : oracle :=
  Oracle (o_datetime o0)
    (fun s => if String.eqb s (sightings_source_xml packed)
              then Some (el (qn INDICATOR_NS "Source") [(Some "indicator", INDICATOR_NS)] [] None
                           [el (qn COMMON_NS "Identity") [(Some "stixCommon", COMMON_NS)] [] None
                              [el (qn COMMON_NS "Name") [] [] None
                                 [el (stix "STIX_Package") [(Some "stix", STIX_NS)] [(lq "version", "9.9")] None []]]])
              else None)
    (o_uuid o0).
Definition unpacked : tree :=
  indicator_elem [el (qn INDICATOR_NS "Sighting") [] [] None [el (qn INDICATOR_NS "Source") [] [] (Some packed) []]].

Lemma stix_1_1_not_accepted : ~ (forall o opts up up' d force s t r s',
  dict_get "1.1" (STIX_UPDATERS o) = Some up -> dict_get "1.1.1" (STIX_UPDATERS o) = Some up' ->
  wf_state s -> denotes s d t -> updater_update o up d opts force s = (Ok r, s') ->
  exists e, document s' (r_document r) e /\ versions_accepted o up' e).
Proof.
  intro H.
  destruct (updater_update unpacks (STIX_1_1_Updater unpacks) (DFile (Some unpacked)) None false (memory [])) as [[r|x] s'] eqn:E;
    [|vm_compute in E; discriminate].
  destruct (H unpacks None (STIX_1_1_Updater unpacks) STIX_1_1_1_Updater (DFile (Some unpacked)) false (memory [])
    unpacked r s' eq_refl eq_refl (memory_wf _) eq_refl E) as (e & De & A).
  destruct De as (T & HT & Ti & Ee). vm_compute in E. injection E as <- <-. cbn [heap In r_document] in HT, Ti.
  repeat (destruct HT as [HT|HT]; [subst T; try (vm_compute in Ti; discriminate)|]); [|destruct HT].
  destruct (A (DFile (Some e)) None false (memory []) e (memory_wf _) eq_refl) as [_ A2].
  { rewrite <- Ee. apply erase_idem. }
  subst e. vm_compute in A2. eapply A2. reflexivity.
Qed.
