(** * Translations, optional fields and namespaces compute the passes of
    [SpecPass]. *)

From Coq Require Import String Ascii List Bool Arith Lia Permutation.
From Verif Require Import Str Xml XPath Utils Base Spec SpecDoc SpecPass Lib Api Scripts Refine RefineBase.
Import ListNotations.
Local Open Scope string_scope.

(** ** Translations *)

(** Paths that never select the root. *)
Definition below (l : list ralt) : bool :=
  forallb (fun a => match a with
                    | RChildAxis _ => true
                    | RDesc false _ _ => true
                    | RDesc _ _ (Some _) => true
                    | _ => false
                    end) l.

Lemma below_root l t : below l = true -> match_path l ([], t) = false.
Proof.
  intro B. unfold match_path. apply not_true_is_false. intro H.
  apply existsb_exists in H as (a & Ha & H). unfold below in B. rewrite forallb_forall in B.
  specialize (B a Ha). destruct a as [|r|[|] r [r2|]]; simpl in *; discriminate.
Qed.

(** Paths that select elements only. *)
Definition elems_only (l : list ralt) : bool :=
  forallb (fun a => match a with RSelf => false | _ => true end) l.

Lemma match_step_elem r t : match_step r t = true -> is_elem t = true.
Proof. unfold match_step. intro H. apply andb_true_iff in H as [H _]. apply andb_true_iff in H. tauto. Qed.

Lemma elems_only_ok l c : elems_only l = true -> match_path l c = true -> is_elem (snd c) = true.
Proof.
  intros B H. unfold match_path in H. apply existsb_exists in H as (a & Ha & H).
  unfold elems_only in B. rewrite forallb_forall in B. specialize (B a Ha). destruct c as [anc t]. simpl in *.
  destruct a as [|r|b r [r2|]]; simpl in *; try discriminate.
  - destruct anc as [|p [|q anc]]; try discriminate. eapply match_step_elem; eauto.
  - destruct anc; try discriminate. apply andb_true_iff in H as [_ H]. eapply match_step_elem; eauto.
  - apply andb_true_iff in H as [_ H]. eapply match_step_elem; eauto.
Qed.

Lemma translate_computes o ns f l G :
  xcompile ns (t_xnode f) = Some l -> pure_alts l = true -> below l = true ->
  (forall T, rewrites (translate_node o ns (t_kind f)) G T (match_path l)) ->
  computes (translate o ns f) (rewrite_all (pathf l) G).
Proof.
  intros C P B R s T W HT. unfold translate. rewrite bind_run, (xpath_root s T _ _ l) by auto.
  apply rewrite_computes; auto.
  - apply match_path_natural.
  - apply below_root; auto.
Qed.

(** The value taken from inside. *)
Lemma tdefault_rewrites o ns xv lv copy over T p :
  xcompile ns xv = Some lv -> forallb alt_abs lv = false -> existsb alt_abs lv = false ->
  rewrites (translate_node o ns (TDefault xv None copy over)) (take_value (match_path lv) copy over) T p.
Proof.
  intros C A1 A2 F n0 g0 m s a x Hx _ K Rx.
  destruct (tk_at _ _ _ _ _ _ K a x Hx) as (a' & (X & HX & Hx') & _ & _). rewrite Rx in Hx'.
  pose proof (tk_wf _ _ _ _ _ _ K) as W.
  assert (V : filter (match_path lv) (visits [] (erase x)) = map econtent (select (match_path lv) x)).
  { symmetry. rewrite (select_erase _ (pathf lv)) by apply match_path_natural. reflexivity. }
  unfold take_value. rewrite V. simpl translate_node. unfold translate_default.
  rewrite !bind_run. rewrite (get_hdr_in s X a' x) by auto. rewrite bind_run.
  rewrite (xpath_read s X a' x xv ns lv) by auto. unfold select_ids.
  destruct (select (match_path lv) x) as [|[b y] l] eqn:Es; simpl map; cbv iota.
  - exists s. reflexivity.
  - assert (Hy : In (b, y) (visits [] x)).
    { assert (Q : In (b, y) (select (match_path lv) x)) by (rewrite Es; left; auto).
      apply filter_In in Q. tauto. }
    assert (Hy' : In (b ++ a', y)%list (visits [] X)).
    { apply (visits_trans X [] a' x); auto. rewrite (visits_anc x a'). apply in_map_iff. exists (b, y). auto. }
    cbn [map snd]. rewrite bind_run, (get_hdr_in s X (b ++ a')%list y) by auto.
    eexists. eexists. split; [reflexivity|]. split.
    + constructor; simpl; auto.
      * constructor; [intros []|constructor].
      * intros i [<-|[]]. lia.
    + simpl. rewrite !erase_head. reflexivity.
Qed.

(** Copies. *)
Lemma builds_retag s h ks s1 f : keeps_id f -> builds s [Node h ks] s1 -> builds s [Node (f h) ks] s1.
Proof.
  intros K B. assert (E : hids [Node (f h) ks] = hids [Node h ks]) by (simpl; rewrite K; auto).
  constructor; try apply B; rewrite E; apply B.
Qed.

Lemma copy_elem_builds s X a x tag : wf_state s -> In X (heap s) -> In (a, x) (visits [] X) ->
  is_elem x = true ->
  exists d s1, copy_xml_element (tid x) tag s = (Ok d, s1) /\ builds s [d] s1 /\
    erase d = match tag with Some q => renamed_to q (erase x) | None => erase x end.
Proof.
  intros W HX Hx He. unfold copy_xml_element. rewrite bind_run, (deref_in s X a x) by auto. simpl snd.
  rewrite bind_run. destruct (copy_builds x s) as (t' & s1 & Ec & B & Ee & _). rewrite Ec.
  assert (He' : is_elem t' = true) by (rewrite <- is_elem_erase, Ee, is_elem_erase; auto).
  rewrite He'. destruct t' as [h ks]. eexists. exists s1. split; [reflexivity|]. split.
  - apply builds_retag; auto. apply keeps_set_tag.
  - destruct x as [hx kx]. pose proof (f_equal head Ee) as E1. pose proof (f_equal kids Ee) as E2. simpl head in E1. simpl kids in E2.
    assert (Et : h_tag h = h_tag hx) by (apply (f_equal h_tag) in E1; exact E1).
    destruct tag as [q|]; unfold renamed_to; simpl; rewrite E2; f_equal.
    + change (set_id 0 (set_tag q h)) with (set_tag q (set_id 0 h)). rewrite E1. reflexivity.
    + change (set_id 0 (set_tag (h_tag h) h)) with (set_tag (h_tag h) (set_id 0 h)). rewrite E1, Et.
      destruct hx; reflexivity.
Qed.

Lemma copy_elem_fails s X a x tag : wf_state s -> In X (heap s) -> In (a, x) (visits [] X) ->
  is_elem x = false ->
  exists s1, copy_xml_element (tid x) (Some tag) s = (Err AttributeError, s1).
Proof.
  intros W HX Hx He. unfold copy_xml_element. rewrite bind_run, (deref_in s X a x) by auto. simpl snd.
  rewrite bind_run. destruct (copy_builds x s) as (t' & s1 & Ec & B & Ee & _). rewrite Ec.
  assert (He' : is_elem t' = false) by (rewrite <- is_elem_erase, Ee, is_elem_erase; auto).
  rewrite He'. exists s1. reflexivity.
Qed.

Lemma wrap_builds s X a x wrapper tag : wf_state s -> In X (heap s) -> In (a, x) (visits [] X) ->
  is_elem x = true ->
  exists d s1, translate_wrap wrapper tag (tid x) s = (Ok d, s1) /\ builds s [d] s1 /\
    erase d = element wrapper [match tag with Some q => renamed_to q (erase x) | None => erase x end].
Proof.
  intros W HX Hx He. unfold translate_wrap. rewrite bind_run.
  destruct (copy_elem_builds s X a x tag W HX Hx He) as (d & s1 & E & B & Ed). rewrite E.
  destruct (new_elem_builds wrapper None [d] s s1 B) as (t & s2 & E2 & B2 & Et). rewrite E2.
  exists t, s2. split; auto. split; auto. subst t. simpl. rewrite Ed. reflexivity.
Qed.

Lemma wrap_rewrites o ns wrapper T p : (forall c, p c = true -> is_elem (snd c) = true) ->
  rewrites (translate_node o ns (TExploitTargets wrapper)) (wrap wrapper) T p.
Proof.
  intros HE F n0 g0 m s a x Hx Px K Rx. specialize (HE _ Px). simpl in HE.
  destruct (tk_at _ _ _ _ _ _ K a x Hx) as (a' & (X & HX & Hx') & _ & _). rewrite Rx in Hx'.
  destruct (wrap_builds s X a' x wrapper None (tk_wf _ _ _ _ _ _ K) HX Hx' HE) as (d & s1 & E & B & Ed).
  simpl. exists d, s1. rewrite bind_run, E. auto.
Qed.

Lemma wrap_renamed_rewrites o ns wrapper q T p : (forall c, p c = true -> is_elem (snd c) = true) ->
  rewrites (translate_node o ns (TRelatedCampaign wrapper q)) (wrap_renamed wrapper q) T p.
Proof.
  intros HE F n0 g0 m s a x Hx Px K Rx. specialize (HE _ Px). simpl in HE.
  destruct (tk_at _ _ _ _ _ _ K a x Hx) as (a' & (X & HX & Hx') & _ & _). rewrite Rx in Hx'.
  destruct (wrap_builds s X a' x wrapper (Some q) (tk_wf _ _ _ _ _ _ K) HX Hx' HE) as (d & s1 & E & B & Ed).
  simpl. exists d, s1. rewrite bind_run, E. auto.
Qed.

Lemma builds_wf s new s1 : wf_state s -> builds s new s1 -> wf_state s1.
Proof.
  intros [W1 W2] B. split; rewrite (bd_heap _ _ _ B); auto. intros i Hi. specialize (W2 i Hi).
  pose proof (bd_next _ _ _ B). lia.
Qed.

Lemma contributors_rewrites o ns c T p :
  rewrites (translate_node o ns (TContributors c)) (contributing_sources c) T p.
Proof.
  intros F n0 g0 m s a x Hx Px K Rx.
  destruct (tk_at _ _ _ _ _ _ K a x Hx) as (a' & (X & HX & Hx') & _ & _). rewrite Rx in Hx'.
  pose proof (tk_wf _ _ _ _ _ _ K) as W.
  assert (HK : forall k, In k (kids x) -> In (x :: a', k) (visits [] X)).
  { intros k Hk. apply (visits_trans X [] a' x); auto. destruct x as [hx kx]. simpl. right.
    apply in_flat_map. exists k. split; auto. apply visits_self. }
  assert (L : forall l s0, incl l (kids x) -> wf_state s0 -> heap s0 = heap s ->
    if forallb is_elem l then
      exists ds s1, map_m (fun k =>
               dup <- copy_xml_element (tid k) (Some (qn c "Identity")) ;;
               new_elem (qn c "Source") None [dup]) l s0 = (Ok ds, s1) /\ builds s0 ds s1 /\
        map erase ds = map (fun k => element (qn c "Source") [renamed_to (qn c "Identity") (erase k)]) l
    else exists s1, map_m (fun k =>
               dup <- copy_xml_element (tid k) (Some (qn c "Identity")) ;;
               new_elem (qn c "Source") None [dup]) l s0 = (Err AttributeError, s1)).
  { induction l as [|k l IH]; intros s0 Hl W0 Hh; simpl.
    - exists [], s0. split; auto. split; auto. apply builds_nil.
    - assert (HX0 : In X (heap s0)) by (rewrite Hh; auto).
      assert (Hk : In (x :: a', k) (visits [] X)) by (apply HK; apply Hl; left; auto).
      destruct (is_elem k) eqn:Ek; simpl.
      + destruct (wrap_builds s0 X (x :: a') k (qn c "Source") (Some (qn c "Identity")) W0 HX0 Hk Ek)
          as (d & s1 & E & B & Ed). unfold translate_wrap in E.
        rewrite bind_run, E.
        assert (W1 : wf_state s1) by (eapply builds_wf; eauto).
        specialize (IH s1 (fun z Hz => Hl z (or_intror Hz)) W1).
        rewrite (bd_heap _ _ _ B) in IH. specialize (IH Hh).
        destruct (forallb is_elem l).
        * destruct IH as (ds & s2 & E2 & B2 & Eds). exists (d :: ds), s2. rewrite bind_run, E2.
          split; auto. split; [apply (builds_app s0 [d] s1 ds s2); auto|]. simpl. rewrite Ed, Eds. reflexivity.
        * destruct IH as (s2 & E2). exists s2. rewrite bind_run, E2. reflexivity.
      + destruct (copy_elem_fails s0 X (x :: a') k (qn c "Identity") W0 HX0 Hk Ek) as (s1 & E).
        exists s1. rewrite !bind_run, E. reflexivity. }
  unfold contributing_sources. simpl translate_node. unfold translate_contributors.
  specialize (L (kids x) s (incl_refl _) W eq_refl).
  rewrite erase_kids, forallb_map.
  rewrite (forallb_ext _ is_elem) by (intros k _; apply is_elem_erase).
  destruct (forallb is_elem (kids x)).
  - destruct L as (ds & s1 & E & B & Ed).
    destruct (new_elem_builds (qn c "Contributing_Sources") None ds s s1 B) as (t & s2 & E2 & B2 & Et).
    exists t, s2. split; [|split; auto].
    + rewrite !bind_run, (deref_in s X a' x) by auto. simpl snd. rewrite bind_run, E, E2. reflexivity.
    + subst t. simpl. rewrite Ed, map_map. reflexivity.
  - destruct L as (s1 & E). exists s1.
    rewrite !bind_run, (deref_in s X a' x) by auto. simpl snd. rewrite bind_run, E. reflexivity.
Qed.

Lemma source_rewrites o ns (sighting : bool) T p :
  rewrites (translate_node o ns (if sighting then TSightingsSource else TCommonSource))
    (structured_source o sighting) T p.
Proof.
  intros F n0 g0 m s a x Hx Px K Rx.
  destruct (tk_at _ _ _ _ _ _ K a x Hx) as (a' & (X & HX & Hx') & _ & _). rewrite Rx in Hx'.
  pose proof (tk_wf _ _ _ _ _ _ K) as W.
  assert (E : translate_node o ns (if sighting then TSightingsSource else TCommonSource) (tid x) s =
    (new <- translate_source o sighting (tid x) ;; replace_xml_element (tid x) new) s).
  { destruct sighting; reflexivity. }
  rewrite E. unfold structured_source, translate_source. rewrite erase_head. simpl h_text.
  rewrite !bind_run, (get_hdr_in s X a' x) by auto. unfold format_text.
  destruct (parse_source o sighting _) as [t|].
  - destruct (copy_builds t s) as (t' & s1 & Ec & B & Ee & _). exists t', s1. rewrite Ec. auto.
  - exists s. reflexivity.
Qed.

(** Renaming. *)
Lemma renamed_computes o ns f l q :
  xcompile ns (t_xnode f) = Some l -> pure_alts l = true -> t_kind f = TRenamed q ->
  computes (translate o ns f) (fun t => Ok (edit_where (pathf l) (set_tag q) t)).
Proof.
  intros C P E. unfold translate. rewrite E. apply edit_computes; auto.
  - apply modify_edits. apply keeps_set_tag.
  - apply keeps_set_tag.
Qed.

(** ** Unwrapping a node: the wrapper is replaced by (a copy of) its child *)

Definition child_of_id (i : nat) (c : ctx) : bool :=
  match fst c with q :: _ => Nat.eqb (tid q) i | [] => false end.

Lemma child_of_id_in i t anc c : In c (tl (visits anc t)) -> child_of_id i c = true -> In i (ids t).
Proof.
  intros H E. destruct c as [a x]. unfold child_of_id in E. simpl in E. destruct a as [|q a]; [discriminate|].
  apply Nat.eqb_eq in E. subst i. destruct t as [h ks]. cbn [visits tl] in H.
  apply in_flat_map in H as (k & Hk & H).
  assert (H' : In (q :: a, x) (visits anc (Node h ks))) by (simpl; right; apply in_flat_map; eauto).
  destruct (list_eq_dec Nat.eq_dec (map tid (q :: a)) (map tid anc)) as [Q|Q].
  - exfalso. destruct (visits_anc_app _ _ _ _ H) as (b & Eb). rewrite Eb in Q.
    rewrite map_app in Q. simpl in Q. apply (f_equal (@length nat)) in Q.
    rewrite app_length in Q. simpl in Q. lia.
  - assert (N : q :: a <> anc) by (intro; subst; auto).
    destruct (visits_parent _ _ _ _ _ H' N) as [_ V]. eapply visits_tid_in; eauto.
Qed.

Lemma filter_none {A} (f : A -> bool) l : (forall x, In x l -> f x = false) -> filter f l = [].
Proof.
  induction l as [|x l IH]; intro H; simpl; auto. rewrite (H x) by (left; auto).
  apply IH. intros; apply H; right; auto.
Qed.

Lemma filter_flat_map {A B} (f : B -> bool) (g : A -> list B) l :
  filter f (flat_map g l) = flat_map (fun x => filter f (g x)) l.
Proof. induction l; simpl; auto. rewrite filter_app, IHl. auto. Qed.

Lemma children_visits t : forall anc b A, NoDup (ids t) -> In (b, A) (visits anc t) ->
  filter (child_of_id (tid A)) (tl (visits anc t)) = map (fun k => (A :: b, k)) (kids A).
Proof.
  tree_induction t. intros anc b A N H. cbn [visits tl]. rewrite filter_flat_map.
  simpl in N. inversion N as [|? ? N1 N2]; subst.
  assert (V : forall k, visits (Node h ks :: anc) k = (Node h ks :: anc, k) :: tl (visits (Node h ks :: anc) k)).
  { intro k. destruct k; reflexivity. }
  simpl in H. destruct H as [H|H].
  - injection H as <- <-. simpl kids. rewrite <- flat_map_single. apply flat_map_ext_in. intros k Hk.
    rewrite V. simpl. unfold tid at 1. simpl. unfold child_of_id at 1. simpl. unfold tid at 1. simpl.
    rewrite Nat.eqb_refl. f_equal. apply filter_none. intros c Hc.
    apply not_true_is_false. intro E. apply (child_of_id_in _ _ _ _ Hc) in E. apply N1. apply in_flat_map; eauto.
  - apply in_flat_map in H as (k0 & Hk0 & H).
    apply in_split in Hk0 as (l1 & l2 & El).
    assert (Hi : In (tid A) (ids k0)) by (eapply visits_tid_in; eauto).
    assert (Nt : h_id h <> tid A).
    { intro E. apply N1. rewrite E. apply in_flat_map. exists k0. split; auto. rewrite El. apply in_app_iff; right; left; auto. }
    assert (Z : forall l, (forall k, In k l -> In k ks /\ ~ In (tid A) (ids k)) ->
       flat_map (fun x => filter (child_of_id (tid A)) (visits (Node h ks :: anc) x)) l = []).
    { induction l as [|k l IHl]; intro Hl; simpl; auto. rewrite IHl by (intros; apply Hl; right; auto).
      rewrite app_nil_r. apply filter_none. intros c Hc. rewrite V in Hc. destruct Hc as [<-|Hc].
      - unfold child_of_id. simpl. apply Nat.eqb_neq. exact Nt.
      - apply not_true_is_false. intro E. apply (child_of_id_in _ _ _ _ Hc) in E.
        destruct (Hl k (or_introl eq_refl)) as [_ Q]. auto. }
    assert (Ds : ~ In (tid A) (flat_map ids l1) /\ ~ In (tid A) (flat_map ids l2)).
    { rewrite El, flat_map_app in N2. simpl in N2. apply NoDup_app in N2 as (_ & M2 & M3).
      apply NoDup_app in M2 as (_ & _ & M4). split; intro Q.
      - apply (M3 _ Q). apply in_app_iff; left; auto.
      - eapply M4; eauto. }
    destruct Ds as [D1 D2].
    rewrite El. rewrite flat_map_app. simpl flat_map.
    rewrite <- El.
    rewrite (Z l1), (Z l2).
    + simpl. rewrite app_nil_r. rewrite V. simpl. unfold child_of_id at 1. simpl.
      unfold tid at 1. simpl. destruct (Nat.eqb_spec (h_id h) (tid A)); [contradiction|].
      apply IH; auto.
      * rewrite El. apply in_app_iff; right; left; auto.
      * eapply NoDup_flat_map_in; eauto. rewrite El. apply in_app_iff; right; left; auto.
    + intros k Hk. split; [rewrite El; apply in_app_iff; right; right; auto|].
      intro Q. apply D2. apply in_flat_map; eauto.
    + intros k Hk. split; [rewrite El; apply in_app_iff; left; auto|].
      intro Q. apply D1. apply in_flat_map; eauto.
Qed.

Definition unwrap_sel (outer inner : qname) (c : ctx) : bool :=
  match fst c with
  | q :: anc => inside anc && named outer q && named inner (snd c)
  | [] => false
  end.

Lemma named_erase q t : named q (erase t) = named q t.
Proof. destruct t; reflexivity. Qed.

Lemma inside_erase anc : inside (map erase anc) = inside anc.
Proof. destruct anc; reflexivity. Qed.

Lemma filter_and {A} (f g : A -> bool) l : filter (fun x => f x && g x) l = filter g (filter f l).
Proof. symmetry. apply filter_filter. Qed.

Lemma unwrap_loop s0 T o ns outer inner new : wf_state s0 -> In T (heap s0) ->
  exists T' s', for_each (select_ids (unwrap_sel outer inner) T) (translate_node o ns (TMailslot new)) s0 = (Ok tt, s') /\
    steps T s0 T' s' /\ gen s' = gen s0 /\ tid T' = tid T /\
    erase T' = unwrap_pass outer inner new (erase T).
Proof.
  intros W HT. pose proof (wf_NoDup s0 T W HT) as N.
  pose proof (visits_keys_NoDup T [] N) as NK.
  set (sel := unwrap_sel outer inner).
  set (want := fun l1 i => match filter (fun c => child_of_id i c && sel c) l1 with
                           | [] => None
                           | c :: _ => Some [renamed_to new (erase (snd c))]
                           end).
  assert (L : forall l2 l1 m s, visits [] T = (l1 ++ l2)%list ->
    tracks (others T s0) (next s0) (gen s0) T m s ->
    (forall i, option_map (map erase) (m i) = want l1 i) ->
    exists m s', for_each (keys (filter sel l2)) (translate_node o ns (TMailslot new)) s = (Ok tt, s') /\
      tracks (others T s0) (next s0) (gen s0) T m s' /\
      (forall i, option_map (map erase) (m i) = want (visits [] T) i)).
  { induction l2 as [|[a x] l2 IH]; intros l1 m s E K M.
    - simpl. exists m, s. split; auto. split; auto. rewrite app_nil_r in E. rewrite E. auto.
    - assert (Hin : In (a, x) (visits [] T)) by (rewrite E; apply in_app_iff; right; left; auto).
      simpl filter. destruct (sel (a, x)) eqn:S.
      + destruct a as [|A b]; [discriminate S|].
        assert (S2 : inside b = true /\ named outer A = true /\ named inner x = true).
        { unfold sel, unwrap_sel in S. simpl in S. apply andb_true_iff in S as [S S3].
          apply andb_true_iff in S as [S1 S2]. auto. }
        destruct S2 as (Sb & SA & Sx).
        destruct (visits_parent T [] A b x Hin ltac:(discriminate)) as [HxA HA].
        (* nothing below x, nor x itself, has been replaced *)
        assert (NB : forall y c, In (c, y) (visits (A :: b) x) -> m (tid y) = None).
        { intros y c Hy. pose proof (M (tid y)) as My. unfold want in My.
          destruct (filter _ l1) as [|d r] eqn:Ef; [destruct (m (tid y)); [discriminate|auto]|].
          exfalso. assert (Hd : In d (filter (fun c => child_of_id (tid y) c && sel c) l1)) by (rewrite Ef; left; auto).
          apply filter_In in Hd as [Hd1 Hd2]. apply andb_true_iff in Hd2 as [Hd2 _].
          destruct d as [[|q e] z]; [discriminate Hd2|]. unfold child_of_id in Hd2. simpl in Hd2.
          apply Nat.eqb_eq in Hd2.
          assert (Hd : In (q :: e, z) (visits [] T)) by (rewrite E; apply in_app_iff; left; auto).
          destruct (visits_parent T [] q e z Hd ltac:(discriminate)) as [Hz Hq].
          assert (Hy' : In (c, y) (visits [] T)) by exact (visits_trans T [] _ _ _ _ Hin Hy).
          destruct (visits_unique T [] e q c y N Hq Hy' Hd2) as [-> ->].
          (* z is a child of y, hence below x: it comes after *)
          assert (Hz' : In (y :: c, z) (tl (visits (A :: b) x))).
          { destruct (visits_strict _ _ _ _ Hy) as [Q|(c0 & Q)].
            - injection Q as -> ->. destruct x as [hx kx]. simpl. simpl in Hz.
              apply in_flat_map. exists z. split; auto. apply visits_self.
            - destruct x as [hx kx]. cbn [visits tl]. simpl in Hy. destruct Hy as [Hy|Hy].
              + exfalso. injection Hy as Hy _. rewrite Q in Hy. apply (f_equal (@length tree)) in Hy.
                rewrite app_length in Hy. simpl in Hy. lia.
              + apply in_flat_map in Hy as (k & Hk & Hy). apply in_flat_map. exists k. split; auto.
                apply (visits_trans k _ c y); auto. destruct y as [hy ky]. simpl. right.
                apply in_flat_map. exists z. split; auto. apply visits_self. }
          destruct (visits_below_after T l1 (A :: b) x l2 (y :: c) z N E Hz') as [Q _].
          apply Q. apply in_map_iff. exists (y :: c, z). auto. }
        assert (Rx : rwm m x = x).
        { apply rwm_id. intros i Hi. rewrite <- (tl_visits_ids (A :: b) x) in Hi.
          apply in_map_iff in Hi as ([c y] & Ei & Hy). simpl in Ei. subst i. apply (NB y c).
          destruct x; simpl in *; auto. }
        assert (Mx : m (tid x) = None) by (apply (NB x (A :: b)); apply visits_self).
        destruct (tk_at _ _ _ _ _ _ K _ x Hin) as (a' & (X & HX & Hx') & _ & R2).
        destruct (R2 A b eq_refl Mx) as (a2 & Ea). subst a'. rewrite Rx in Hx'. clear R2.
        pose proof (tk_wf _ _ _ _ _ _ K) as Ws.
        assert (Hex : is_elem x = true).
        { unfold named, is_elem in *. destruct (h_kind (head x)); auto. }
        destruct (copy_elem_builds s X _ x (Some new) Ws HX Hx' Hex) as (d & s1 & Ed & B & Er).
        assert (K1 : tracks (others T s0) (next s0) (gen s0) T m s1) by (eapply tracks_builds; eauto).
        assert (Run : translate_node o ns (TMailslot new) (tid x) s = supplant (tid A) [d] s1).
        { simpl. unfold mailslot_replace. rewrite bind_run, (deref_in s X _ x) by (eauto).
          rewrite bind_run, Ed. simpl. rewrite rwm_tid. reflexivity. }
        assert (SP : exists m2 s2, supplant (tid A) [d] s1 = (Ok tt, s2) /\
           tracks (others T s0) (next s0) (gen s0) T m2 s2 /\
           (forall i, option_map (map erase) (m2 i) = want (l1 ++ [(A :: b, x)])%list i)).
        { assert (WS : forall i, want (l1 ++ [(A :: b, x)])%list i =
             match want l1 i with Some r => Some r | None => if Nat.eqb (tid A) i then Some [renamed_to new (erase x)] else None end).
          { intro i. unfold want. rewrite filter_app. simpl.
            destruct (filter _ l1); simpl; auto.
            unfold child_of_id at 1. simpl. rewrite S, andb_true_r.
            destruct (Nat.eqb (tid A) i); reflexivity. }
          destruct (m (tid A)) as [r|] eqn:MA.
          - exists m, s1. split.
            + eapply tracks_noop; eauto. right. congruence.
            + split; auto. intro i. rewrite WS, <- M. destruct (m i) eqn:Mi; simpl; auto.
              destruct (Nat.eqb_spec (tid A) i); auto. subst. congruence.
          - destruct b as [|p b]; [discriminate Sb|].
            destruct (tracks_supplant (others T s0) (next s0) (gen s0) T m s1 p b A [d]) as (s2 & Es & _ & K2); auto.
            { apply (builds_loose s); auto. }
            { eapply (builds_fresh s0 s); eauto. apply (tk_next _ _ _ _ _ _ K). }
            exists (mput (tid A) [d] m), s2. split; auto. split; auto.
            intro i. rewrite WS, <- M. unfold mput. destruct (Nat.eqb_spec i (tid A)) as [->|Q].
            + rewrite MA, Nat.eqb_refl. simpl. rewrite Er. reflexivity.
            + destruct (m i); simpl; auto. destruct (Nat.eqb_spec (tid A) i); [congruence|auto]. }
        destruct SP as (m2 & s2 & Es & K2 & M2).
        simpl. rewrite bind_run. simpl in Run. rewrite Run, Es.
        apply (IH (l1 ++ [(A :: b, x)])%list m2 s2); auto.
        rewrite <- app_assoc. exact E.
      + apply (IH (l1 ++ [(a, x)])%list m s); auto.
        * rewrite <- app_assoc. exact E.
        * intro i. rewrite M. unfold want. rewrite filter_app. simpl. rewrite S, andb_false_r.
          rewrite app_nil_r. reflexivity. }
  destruct (L (visits [] T) [] (fun _ => None) s0 eq_refl (tracks_init s0 T W HT) (fun _ => eq_refl))
    as (m & s' & E & K & M).
  exists (rwm m T), s'. split; auto.
  split; [eapply tracks_steps; eauto|]. split; [apply (tk_gen _ _ _ _ _ _ K)|].
  split; [apply rwm_tid|]. unfold unwrap_pass. apply (erase_rwm m _ T []). intros b A HA.
  rewrite M. unfold want. rewrite filter_and. apply in_tl_visits in HA.
  assert (V : visits [] T = ([], T) :: tl (visits [] T)) by (destruct T; reflexivity).
  rewrite V. simpl. rewrite (children_visits T [] b A N HA).
  rewrite filter_map_comm. rewrite inside_erase, named_erase, erase_kids.
  rewrite filter_map_comm. rewrite (filter_ext (fun k => named inner (erase k)) (named inner)) by (intro; apply named_erase).
  unfold sel, unwrap_sel. simpl.
  destruct (inside b && named outer A); simpl.
  - destruct (filter (named inner) (kids A)); reflexivity.
  - rewrite filter_none; auto.
Qed.

Lemma unwrap_computes o ns f l outer inner new :
  xcompile ns (t_xnode f) = Some l -> pure_alts l = true ->
  (forall c, match_path l c = unwrap_sel outer inner c) -> t_kind f = TMailslot new ->
  computes (translate o ns f) (fun t => Ok (unwrap_pass outer inner new t)).
Proof.
  intros C P U E s T W HT. unfold translate. rewrite bind_run, (xpath_root s T _ _ l) by auto.
  replace (select_ids (match_path l) T) with (select_ids (unwrap_sel outer inner) T).
  - rewrite E. apply unwrap_loop; auto.
  - unfold select_ids, select. f_equal. apply filter_ext. intro; symmetry; apply U.
Qed.

(** ** Optional fields *)

Lemma strip_blank s : truthy (strip_whitespace s) = negb (blank_text s).
Proof.
  destruct s as [s|]; simpl; auto. pose proof (split_ws_tokens s) as F.
  destruct (split_ws s) as [|w ws]; auto. simpl. inversion F as [|? ? H _]; subst.
  unfold solid in H. apply andb_true_iff in H as [H _].
  destruct w as [|c w]; [discriminate|]. destruct ws; reflexivity.
Qed.

Lemma is_empty_blank t : is_empty t = blank t.
Proof.
  unfold is_empty, blank. induction (visits [] t) as [|c l IH]; simpl; auto.
  rewrite negb_orb, IH. f_equal. rewrite strip_blank.
  destruct (is_elem (snd c)), (h_attr (head (snd c))), (blank_text _); reflexivity.
Qed.

Lemma blank_erase t : blank (erase t) = blank t.
Proof.
  unfold blank. change (@nil tree) with (map erase []) at 1. rewrite erase_visits, forallb_map.
  apply forallb_ext. intros [a x] _. simpl. rewrite is_elem_erase, erase_head. reflexivity.
Qed.

Lemma filter_m_keys (f : nat -> M bool) (g : ctx -> bool) l s :
  (forall c, In c l -> f (tid (snd c)) s = (Ok (g c), s)) ->
  filter_m f (keys l) s = (Ok (keys (filter g l)), s).
Proof.
  intro H. rewrite (filter_m_err f (fun _ : ctx => Ok tt) g); auto.
  assert (E : forall l : list ctx, first_err (fun _ : ctx => Ok tt) l = None).
  { clear. induction l; simpl; auto. }
  rewrite E. reflexivity.
Qed.

(** The empty nodes among those selected below a node. *)
Lemma empty_read o s X a x l : wf_state s -> In X (heap s) -> In (a, x) (visits [] X) ->
  interrogate o IEmptyElem (select_ids (match_path l) x) s =
  (Ok (keys (filter (fun c => match_path l c && blank (snd c)) (visits [] x))), s).
Proof.
  intros W HX Hx. simpl.
  change (select_ids (match_path l) x) with (keys (filter (match_path l) (visits [] x))).
  rewrite (filter_m_keys _ (fun c => blank (snd c))).
  - rewrite filter_filter. reflexivity.
  - intros [b y] Hy. apply filter_In in Hy as [Hy _].
    assert (Hy' : In (b ++ a, y)%list (visits [] X)).
    { apply (visits_trans X [] a x); auto. rewrite (visits_anc x a). apply in_map_iff. exists (b, y); auto. }
    rewrite bind_run. simpl snd. rewrite (deref_in s X _ y) by eauto. simpl. rewrite is_empty_blank. reflexivity.
Qed.

Lemma keys_filter_iff p T a x : NoDup (ids T) -> In (a, x) (visits [] T) ->
  (In (tid x) (keys (filter p (visits [] T))) <-> p (a, x) = true).
Proof. intros. apply (select_ids_iff p T a x); auto. Qed.

Lemma optional_computes o d ns l ty :
  d_ctx_types d = [] -> d_interrogate d = IEmptyElem ->
  xcompile ns (d_xpath d) = Some l -> pure_alts l = true ->
  computes (fun r => found <- dfind o d ns r ty ;; remove_xml_elements found)
           (fun t => Ok (optional_pass (pathf l) t)).
Proof.
  intros D I C P s T W HT. rewrite bind_run.
  assert (E : dfind o d ns (tid T) ty s =
     (Ok (keys (filter (fun c => match_path l c && blank (snd c)) (visits [] T))), s)).
  { unfold dfind, get_contexts. rewrite D, bind_run. unfold ret at 1. cbn [find_in].
    rewrite bind_run, (xpath_root s T _ _ l) by auto.
    rewrite bind_run, I, (empty_read o s T [] T) by (auto; apply visits_self).
    rewrite bind_run. unfold ret. rewrite app_nil_r. reflexivity. }
  rewrite E.
  pose proof (wf_NoDup s T W HT) as N.
  destruct (remove_computes s T (keys (filter (fun c => match_path l c && blank (snd c)) (visits [] T)))
              (fun a x => pathf l a x && blank x) W HT) as (T' & s' & H).
  - intros i Hi. apply (select_ids_in (fun c => match_path l c && blank (snd c))). exact Hi.
  - intros a x Hx. apply in_tl_visits in Hx. rewrite keys_filter_iff by eauto. simpl.
    rewrite blank_erase. unfold pathf. rewrite match_path_erase. tauto.
  - exists T', s'. exact H.
Qed.

Lemma optionals_computes o u :
  c_opt_attrs u = [] ->
  (forall d, In d (c_opt_elems u) -> d_ctx_types d = [] /\ d_interrogate d = IEmptyElem) ->
  (forall d, In d (c_opt_elems u) -> exists l, xcompile (c_klass_nsmap u) (d_xpath d) = Some l /\ pure_alts l = true) ->
  forall f, (forall d l, In d (c_opt_elems u) -> xcompile (c_klass_nsmap u) (d_xpath d) = Some l ->
               forall t, f d t = Ok (optional_pass (pathf l) t)) ->
  computes (update_optionals o u) (passes f (c_opt_elems u)).
Proof.
  intros A D C f Hf s T W HT. unfold update_optionals. rewrite bind_run, (get_typed_nodes_read s T) by auto.
  rewrite A.
  pose proof (computes_for (fun d r => found <- dfind o d (c_klass_nsmap u) r (Some (select_ids typed T)) ;;
                                       remove_xml_elements found) f (c_opt_elems u)) as H.
  assert (H' : forall d, In d (c_opt_elems u) ->
     computes (fun r => found <- dfind o d (c_klass_nsmap u) r (Some (select_ids typed T)) ;;
                        remove_xml_elements found) (f d)).
  { intros d Hd. destruct (D d Hd) as [D1 D2]. destruct (C d Hd) as (l & C1 & C2).
    eapply computes_ext; [intro t; symmetry; eapply Hf; eauto|]. apply optional_computes; auto. }
  specialize (H H' s T W HT). destruct (passes f (c_opt_elems u) (erase T)) as [e|x].
  - destruct H as (T' & s' & E & R). exists T', s'. rewrite bind_run, E. auto.
  - destruct H as (s' & E). exists s'. rewrite bind_run, E. auto.
Qed.

Lemma find_in_read o d ns l s T cs : d_interrogate d = IEmptyElem -> wf_state s -> In T (heap s) ->
  xcompile ns (d_xpath d) = Some l -> forallb alt_abs l = false -> existsb alt_abs l = false ->
  incl cs (visits [] T) ->
  find_in o d ns (keys cs) s =
  (Ok (flat_map (fun c => keys (filter (fun e => match_path l e && blank (snd e)) (visits [] (snd c)))) cs), s).
Proof.
  intros I W HT C A1 A2. induction cs as [|[b x] cs IH]; intro HI; simpl; auto.
  assert (Hx : In (b, x) (visits [] T)) by (apply HI; left; auto).
  rewrite bind_run, (xpath_read s T b x _ _ l) by auto.
  rewrite bind_run, I, (empty_read o s T b x l) by auto.
  rewrite bind_run, IH by (intros c Hc; apply HI; right; auto). reflexivity.
Qed.

Lemma of_type_erase name ns c : of_type name ns (econtent c) = of_type name ns c.
Proof.
  unfold of_type. rewrite type_of_erase. f_equal. symmetry. apply (typed_natural c).
Qed.

Lemma optional_in_type_computes o u d name ns :
  c_opt_attrs u = [] -> c_opt_elems u = [d] -> d_ctx_types d = [(name, ns)] ->
  d_interrogate d = IEmptyElem -> d_xpath d = "./*" ->
  computes (update_optionals o u) (optional_in_type name ns).
Proof.
  intros A O D I X s T W HT. unfold update_optionals. rewrite bind_run, (get_typed_nodes_read s T) by auto.
  rewrite A, O. cbn [for_each].
  assert (F : filter_m (fun i => ti <- get_type_info i ;; n <- get_ext_namespace i ;;
                ret (ostr_eqb (dict_get (snd ti) [(name, ns)]) (Some n))) (select_ids typed T) s =
     match first_err type_of (filter typed (visits [] T)) with
     | Some e => (Err e, s)
     | None => (Ok (keys (filter (of_type name ns) (visits [] T))), s)
     end).
  { change (select_ids typed T) with (keys (filter typed (visits [] T))).
    rewrite (filter_m_err _ type_of (of_type name ns)).
    - destruct (first_err _ _); auto. rewrite filter_filter. do 3 f_equal.
      apply filter_ext. intro c. unfold of_type. destruct (typed c); reflexivity.
    - intros [a x] Hc. apply filter_In in Hc as [Hx Ht]. simpl snd.
      unfold get_type_info, get_ext_namespace. rewrite !bind_run, (get_hdr_in s T a x) by auto.
      unfold liftr. unfold of_type. rewrite Ht, type_of_parts. simpl snd.
      destruct (type_info (head x)) as [[al nm]|e]; simpl; auto.
      rewrite !bind_run, (deref_in s T a x) by auto.
      destruct (ext_namespace (a, x)) as [n|e]; simpl; auto. unfold ret. do 2 f_equal.
      rewrite (String.eqb_sym nm name), (String.eqb_sym n ns). destruct (String.eqb name nm); reflexivity. }
  assert (DF : dfind o d (c_klass_nsmap u) (tid T) (Some (select_ids typed T)) s =
     match first_err type_of (filter typed (visits [] T)) with
     | Some e => (Err e, s)
     | None => (Ok (flat_map (fun c => keys (filter (fun e => match_path [RChildAxis (RStep None None)] e && blank (snd e))
                                               (visits [] (snd c))))
                      (filter (of_type name ns) (visits [] T))), s)
     end).
  { unfold dfind, get_contexts. rewrite D, bind_run, bind_run. unfold ret at 1. rewrite F.
    destruct (first_err type_of _) as [e|]; auto.
    rewrite (find_in_read o d (c_klass_nsmap u) [RChildAxis (RStep None None)] s T); auto.
    - rewrite X. reflexivity.
    - intros c Hc. apply filter_In in Hc. tauto. }
  rewrite bind_run, bind_run, bind_run, DF. clear F DF. unfold optional_in_type.
  rewrite (first_err_erase type_of type_of typed (fun a x => typed (a, x)) T typed_natural)
    by (intros c _; rewrite type_of_erase; auto).
  change (fun c : ctx => typed (fst c, snd c)) with typed.
  destruct (first_err type_of _) as [e|]; [exists s; reflexivity|].
  pose proof (wf_NoDup s T W HT) as N.
  match goal with |- context [remove_xml_elements ?l] => set (found := l) end.
  assert (Hf : forall i, In i found <-> exists b B k, In (b, B) (visits [] T) /\ of_type name ns (b, B) = true /\
                 In k (kids B) /\ is_elem k = true /\ blank k = true /\ i = tid k).
  { intro i. unfold found. rewrite in_flat_map. split.
    - intros ([b B] & Hb & Hi). apply filter_In in Hb as [Hb1 Hb2]. simpl snd in Hi.
      apply in_map_iff in Hi as ([c k] & <- & Hk). apply filter_In in Hk as [Hk1 Hk2].
      apply andb_true_iff in Hk2 as [Hk2 Hk3]. unfold match_path in Hk2. simpl in Hk2.
      destruct c as [|z [|]]; try discriminate. rewrite orb_false_r in Hk2. apply match_step_elem in Hk2.
      destruct (visits_parent B [] z [] k Hk1 ltac:(discriminate)) as [Q1 Q2].
      assert (z = B). { destruct (visits_strict _ _ _ _ Q2) as [Q|(c0 & Q)]; [injection Q as ->; auto|].
        destruct c0; discriminate. } subst z.
      exists b, B, k. auto 10.
    - intros (b & B & k & Hb & Ht & Hk & He & Hbl & ->). exists (b, B). split; [apply filter_In; auto|].
      apply in_map_iff. exists ([B], k). split; auto. apply filter_In. split.
      + destruct B as [hB kB]. simpl. right. apply in_flat_map. exists k. split; auto. apply visits_self.
      + simpl. rewrite Hbl. unfold match_path. simpl. unfold match_step. rewrite He. reflexivity. }
  destruct (remove_computes s T found
     (fun anc x => match anc with
                   | p :: anc' => of_type name ns (anc', p) && is_elem x && blank x
                   | [] => false
                   end) W HT) as (T' & s' & E & R).
  - intros i Hi. apply Hf in Hi as (b & B & k & Hb & _ & Hk & _ & _ & ->).
    eapply visits_sub; eauto. destruct B as [hB kB]. simpl. right. apply in_flat_map. exists k. split; auto.
    apply in_ids_self.
  - intros a x Hx. apply in_tl_visits in Hx. rewrite Hf. split.
    + intros (b & B & k & Hb & Ht & Hk & He & Hbl & Ei).
      assert (Hk' : In (B :: b, k) (visits [] T)).
      { apply (visits_trans T [] b B); auto. destruct B as [hB kB]. simpl. right.
        apply in_flat_map. exists k. split; auto. apply visits_self. }
      destruct (visits_unique T [] _ _ _ _ N Hx Hk' Ei) as [-> ->]. simpl.
      change (map erase b, erase B) with (econtent (b, B)). rewrite of_type_erase, Ht, is_elem_erase, He, blank_erase, Hbl.
      reflexivity.
    + destruct a as [|B b]; [discriminate|]. simpl.
      change (map erase b, erase B) with (econtent (b, B)). rewrite of_type_erase, is_elem_erase, blank_erase.
      intro H. apply andb_true_iff in H as [H H3]. apply andb_true_iff in H as [H1 H2].
      destruct (visits_parent T [] B b x Hx ltac:(discriminate)) as [Q1 Q2].
      exists b, B, x. auto 10.
  - exists T', s'. rewrite E. split; auto.
Qed.

(** ** Namespaces *)

Definition upd_kids (u : cls) (anc : list tree) := fix go (l : list tree) (m : nat) : list tree * nat :=
  match l with
  | [] => ([], m)
  | k :: l' =>
      let '(k', m1) := if is_elem k then upd_ns u anc k m else (k, m) in
      let '(l'', m2) := go l' m1 in
      (k' :: l'', m2)
  end.

Lemma upd_ns_node u anc h ks n :
  upd_ns u anc (Node h ks) n =
  let '(ks', m) := upd_kids u (Node h ks :: anc) ks n in
  if ns_listed u (Node h ks) then (Node (renamespaced u m anc (Node h ks)) ks', S m)
  else (Node h ks', m).
Proof. reflexivity. Qed.

Definition husks_of (u : cls) (ks : list tree) : list tree :=
  flat_map (fun k => if is_elem k then husks u k else []) ks.

Lemma seq_split n m k : n <= m -> m <= k -> seq n (k - n) = (seq n (m - n) ++ seq m (k - m))%list.
Proof.
  intros. replace (k - n) with ((m - n) + (k - m)) by lia. rewrite seq_app.
  replace (n + (m - n)) with m by lia. reflexivity.
Qed.

Lemma upd_ns_spec u t : forall anc n,
  n <= snd (upd_ns u anc t n) /\
  Permutation (ids (fst (upd_ns u anc t n)) ++ hids (husks u t))
              (ids t ++ seq n (snd (upd_ns u anc t n) - n)) /\
  (tid (fst (upd_ns u anc t n)) = tid t \/ n <= tid (fst (upd_ns u anc t n))) /\
  erase (fst (upd_ns u anc t n)) =
    ns_pass (c_disallowed_ns u) (c_ns_map u) (map erase anc) (erase t).
Proof.
  tree_induction t. intros anc n. rewrite upd_ns_node.
  assert (L : forall l m, incl l ks ->
    m <= snd (upd_kids u (Node h ks :: anc) l m) /\
    Permutation (hids (fst (upd_kids u (Node h ks :: anc) l m)) ++ hids (husks_of u l))
                (hids l ++ seq m (snd (upd_kids u (Node h ks :: anc) l m) - m)) /\
    map erase (fst (upd_kids u (Node h ks :: anc) l m)) =
      map (fun k => if is_elem k then ns_pass (c_disallowed_ns u) (c_ns_map u) (map erase (Node h ks :: anc)) k else k)
        (map erase l)).
  { induction l as [|k l IHl]; intros m Hl.
    - simpl. rewrite Nat.sub_diag. auto.
    - cbn [upd_kids husks_of flat_map].
      assert (Hk : forall r, r = (if is_elem k then upd_ns u (Node h ks :: anc) k m else (k, m)) ->
        m <= snd r /\
        Permutation (ids (fst r) ++ hids (if is_elem k then husks u k else [])) (ids k ++ seq m (snd r - m)) /\
        erase (fst r) = if is_elem k then ns_pass (c_disallowed_ns u) (c_ns_map u) (map erase (Node h ks :: anc)) (erase k) else erase k).
      { intros r ->. destruct (is_elem k).
        - destruct (IH k (Hl k (or_introl eq_refl)) (Node h ks :: anc) m) as (A & B & _ & C). auto.
        - simpl. rewrite Nat.sub_diag. auto. }
      specialize (Hk _ eq_refl).
      destruct (if is_elem k then upd_ns u (Node h ks :: anc) k m else (k, m)) as [k' m1].
      simpl fst in Hk. simpl snd in Hk. destruct Hk as (Hm1 & Pk & Ek).
      specialize (IHl m1 (fun z Hz => Hl z (or_intror Hz))).
      fold (husks_of u l).
      destruct (upd_kids u (Node h ks :: anc) l m1) as [l'' m2]. simpl fst in *. simpl snd in *.
      destruct IHl as (Hm2 & Pl & El). split; [lia|]. split.
      + simpl map. cbn [hids flat_map]. fold (hids l'') (hids l).
        rewrite hids_app. rewrite (seq_split m m1 m2) by auto.
        transitivity ((ids k' ++ hids (if is_elem k then husks u k else [])) ++ (hids l'' ++ hids (husks_of u l)))%list.
        * rewrite <- !app_assoc. apply Permutation_app_head. rewrite !app_assoc.
          apply Permutation_app_tail. apply Permutation_app_comm.
        * rewrite Pk, Pl. rewrite <- !app_assoc. apply Permutation_app_head. rewrite !app_assoc.
          apply Permutation_app_tail. apply Permutation_app_comm.
      + simpl. rewrite El, Ek, is_elem_erase. reflexivity. }
  specialize (L ks n (incl_refl _)). fold (husks_of u ks) in *.
  assert (Hh : hids (husks u (Node h ks)) = ((if ns_listed u (Node h ks) then [h_id h] else []) ++ hids (husks_of u ks))%list).
  { cbn [husks]. rewrite hids_app. destruct (ns_listed u (Node h ks)); reflexivity. }
  rewrite Hh.
  destruct (upd_kids u (Node h ks :: anc) ks n) as [ks' m]. simpl fst in L. simpl snd in L.
  destruct L as (Hm & P & E).
  assert (EM : forall b, moves (c_ns_map u) (erase (Node h ks)) = b -> ns_listed u (Node h ks) = b).
  { intros b <-. reflexivity. }
  specialize (EM _ eq_refl).
  cbn [erase ns_pass]. change (Node (set_id 0 h) (map erase ks)) with (erase (Node h ks)).
  rewrite <- EM.
  destruct (ns_listed u (Node h ks)); simpl fst; simpl snd.
  - split; [lia|]. split; [|split].
    + replace (S m - n) with ((m - n) + 1) by lia. rewrite seq_app. simpl seq.
      replace (n + (m - n)) with m by lia. cbn [ids app]. change (h_id (renamespaced u m anc (Node h ks))) with m.
      fold (hids ks') (hids ks).
      transitivity (m :: h_id h :: (hids ks' ++ hids (husks_of u ks)))%list.
      * constructor. symmetry. apply Permutation_middle.
      * rewrite P. rewrite perm_swap. constructor. rewrite app_assoc.
        apply Permutation_cons_append.
    + right. unfold tid. simpl. lia.
    + cbn [erase]. rewrite E. f_equal.
      unfold renamespaced, rebuilt, remap_namespaces, new_ns, set_id. simpl.
      rewrite <- (env_of_erase anc (Node h ks)). destruct ks; reflexivity.
  - split; auto. split; [|split].
    + cbn [ids app]. fold (hids ks') (hids ks). constructor. exact P.
    + left. reflexivity.
    + cbn [erase]. rewrite E. reflexivity.
Qed.

Lemma namespaces_ok drop m t e : namespaces_pass drop m t = Ok e -> e = ns_pass drop m [] t.
Proof. unfold namespaces_pass. destruct (stuck m t); congruence. Qed.

Lemma existsb_same {A} (p q : A -> bool) l : (forall x, In x l -> p x = q x) -> existsb p l = existsb q l.
Proof. induction l as [|x l IH]; intro H; simpl; auto. rewrite (H x) by (left; auto). rewrite IH; auto. intros y Hy. apply H. right. exact Hy. Qed.

Lemma existsb_over {A B} (p : B -> bool) (f : A -> B) l : existsb p (map f l) = existsb (fun x => p (f x)) l.
Proof. induction l as [|x l IH]; simpl; congruence. Qed.

Lemma stuck_erase m t : stuck m (erase t) = stuck m t.
Proof.
  tree_induction t. cbn [erase stuck]. f_equal.
  - unfold moves, breaks_section. cbn [head kids set_id h_tag h_cdata h_text]. destruct ks; reflexivity.
  - rewrite existsb_over. apply existsb_same. intros k Hk. rewrite is_elem_erase, (IH k Hk). reflexivity.
Qed.

Lemma upd_ns_stuck u t : upd_ns_fails u t = stuck (c_ns_map u) t.
Proof.
  tree_induction t. cbn [upd_ns_fails stuck]. f_equal. apply existsb_same. intros k Hk. rewrite (IH k Hk). reflexivity.
Qed.

Lemma update_namespaces_computes u :
  computes_root (update_namespaces u) (namespaces_pass (c_disallowed_ns u) (c_ns_map u)).
Proof.
  intros s T W HT. unfold update_namespaces. rewrite bind_run, (deref_root s T) by auto. cbn [fst snd].
  unfold namespaces_pass. rewrite stuck_erase, upd_ns_stuck. destruct (stuck (c_ns_map u) T); [exists s; reflexivity|].
  pose proof (upd_ns_spec u T [] (next s)) as (H1 & H2 & H3 & H4). simpl map in H4.
  destruct (upd_ns u [] T (next s)) as [T' n]. simpl fst in *. simpl snd in *.
  eexists. eexists. split; [reflexivity|]. split; [|split; [reflexivity|exact H4]].
  destruct (in_split T (heap s) HT) as (l1 & l2 & El).
  pose proof W as [W1 W2]. rewrite El in W1. fold (hids (l1 ++ T :: l2)) in W1. rewrite hids_app in W1.
  cbn [hids flat_map] in W1. fold (hids l2) in W1.
  assert (Dis : ~ In (tid T) (hids l1) /\ ~ In (tid T) (hids l2)).
  { apply NoDup_app in W1 as (_ & B & C). apply NoDup_app in B as (_ & _ & D). split; intro Q.
    - apply (C _ Q). apply in_app_iff; left. apply in_ids_self.
    - apply (D (tid T)); auto. apply in_ids_self. }
  destruct Dis as [D1 D2].
  assert (ML : forall l, ~ In (tid T) (hids l) -> map (fun t => if Nat.eqb (tid t) (tid T) then T' else t) l = l).
  { intros l Hl. rewrite <- (map_id l) at 2. apply map_ext_in. intros t Ht.
    destruct (Nat.eqb_spec (tid t) (tid T)) as [Q|Q]; auto. exfalso. apply Hl. rewrite <- Q.
    apply in_flat_map. exists t. split; auto. apply in_ids_self. }
  assert (HM : map (fun t => if Nat.eqb (tid t) (tid T) then T' else t) (heap s) = (l1 ++ T' :: l2)%list).
  { rewrite El, map_app. simpl. rewrite Nat.eqb_refl, !ML by auto. reflexivity. }
  assert (PP : Permutation (hids ((l1 ++ T' :: l2) ++ husks u T)) (hids (heap s) ++ seq (next s) (n - next s))).
  { rewrite El, !hids_app. cbn [hids flat_map]. fold (hids l2).
    transitivity (hids l1 ++ hids l2 ++ (ids T' ++ hids (husks u T)))%list.
    - rewrite <- !app_assoc. apply Permutation_app_head. rewrite !app_assoc. apply Permutation_app_tail.
      apply Permutation_app_comm.
    - rewrite H2. rewrite <- !app_assoc. apply Permutation_app_head. rewrite !app_assoc.
      apply Permutation_app_tail. apply Permutation_app_comm. }
  constructor; simpl heap; simpl next.
  - split; simpl heap; simpl next; rewrite HM.
    + eapply Permutation_NoDup; [symmetry; exact PP|]. apply NoDup_app. split; [apply W|].
      split; [apply seq_NoDup|]. intros i Hi Hj. apply in_seq in Hj. apply W2 in Hi. lia.
    + intros i Hi. apply (Permutation_in _ PP) in Hi. apply in_app_iff in Hi as [Hi|Hi].
      * apply W2 in Hi. lia.
      * apply in_seq in Hi. lia.
  - rewrite HM. apply in_app_iff; left. apply in_app_iff; right; left; auto.
  - intros X HX NX. rewrite HM. apply in_app_iff; left. rewrite El in HX.
    apply in_app_iff in HX as [HX|[HX|HX]]; [apply in_app_iff; auto|congruence|].
    apply in_app_iff; right; right; auto.
  - auto.
  - exact H3.
Qed.
