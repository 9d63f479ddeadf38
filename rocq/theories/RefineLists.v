(** * The list conversion and the version stamps compute the passes of
    [SpecPass]. *)

From Coq Require Import String Ascii List Bool Arith Lia Permutation.
From Verif Require Import Str Xml XPath Utils Base Tables Cybox Stix Spec SpecDoc SpecPass Lib Api Scripts
  Refine RefineBase RefineTrans.
Import ListNotations.
Local Open Scope string_scope.

(** ** List values *)

Lemma convert_keeps : keeps_id convert_text.
Proof. intro h. unfold convert_text. destruct (h_text h) as [s|]; auto. destruct (String.eqb s ""); auto. Qed.

Lemma convert_nat h : convert_text (set_id 0 h) = set_id 0 (convert_text h).
Proof. unfold convert_text. simpl. destruct (h_text h) as [s|]; auto. destruct (String.eqb s ""); auto. Qed.

Definition lists_body (i : nat) : M unit :=
  h <- get_hdr i ;;
  match h_text h with
  | Some t => if truthy (h_text h) then modify i (set_text (Some (convert_list t))) else ret tt
  | None => ret tt
  end.

Lemma lists_body_edits : edits_hdr lists_body (fun h => Ok (convert_text h)).
Proof.
  unfold lists_body. apply read_edits; [apply convert_keeps|].
  intros h i s. unfold convert_text. destruct (h_text h) as [t|] eqn:E; [|right; auto].
  simpl. destruct (String.eqb t "") eqn:Et; simpl; [right; auto|].
  left. exists (set_text (Some (convert_list t))). split; [apply keeps_set_text|]. auto.
Qed.

(** The element nodes strictly below a node. *)
Definition under (x : tree) : list nat := keys (filter (fun d => is_elem (snd d)) (tl (visits [] x))).

Definition conv (l : list nat) (j : nat) (h : hdr) : hdr := if mem_nat j l then convert_text h else h.

Fixpoint conv_all (ls : list (list nat)) (j : nat) (h : hdr) : hdr :=
  match ls with
  | [] => h
  | l :: ls' => conv_all ls' j (conv l j h)
  end.

Lemma conv_all_keeps ls : keeps_ids (conv_all ls).
Proof.
  induction ls as [|l ls IH]; intros j h; simpl; auto. rewrite IH. unfold conv.
  destruct (mem_nat j l); auto. apply convert_keeps.
Qed.

Lemma conv_all_snoc ls l j h : conv_all (ls ++ [l]) j h = conv l j (conv_all ls j h).
Proof. revert h. induction ls as [|l0 ls IH]; intro h; simpl; auto. Qed.

Lemma conv_kind ls : forall j h, h_kind (conv_all ls j h) = h_kind h.
Proof.
  induction ls as [|l ls IH]; intros j h; simpl; auto. rewrite IH. unfold conv, convert_text.
  destruct (mem_nat j l); auto. destruct (h_text h); auto. destruct (String.eqb s ""); auto.
Qed.

Lemma tl_visits_tmap F x : tl (visits [] (tmap F x)) =
  map (fun c => (map (tmap F) (fst c), tmap F (snd c))) (tl (visits [] x)).
Proof.
  change (@nil tree) with (map (tmap F) []) at 1. rewrite tmap_visits. destruct (visits [] x); reflexivity.
Qed.

Lemma under_tmap F x : keeps_ids F -> (forall j h, h_kind (F j h) = h_kind h) ->
  under (tmap F x) = under x.
Proof.
  intros K HK. unfold under. rewrite tl_visits_tmap, filter_map_comm. unfold keys. rewrite map_map.
  rewrite (map_ext (fun c : ctx => tid (snd (map (tmap F) (fst c), tmap F (snd c)))) (fun c => tid (snd c)))
    by (intro c; apply tmap_tid; auto).
  f_equal. apply filter_ext. intros [a y]. unfold is_elem. simpl. rewrite tmap_head, HK. reflexivity.
Qed.

Lemma keys_filter_NoDup f l : NoDup (keys l) -> NoDup (keys (filter f l)).
Proof.
  induction l as [|c l IH]; simpl; intro N; auto. inversion N as [|? ? N1 N2]; subst.
  destruct (f c); simpl; auto. constructor; auto. intro H. apply N1.
  apply in_map_iff in H as (d & E & Hd). apply filter_In in Hd as [Hd _]. apply in_map_iff. eauto.
Qed.

Lemma under_NoDup x : NoDup (ids x) -> NoDup (under x).
Proof.
  intro N. unfold under. apply keys_filter_NoDup. unfold keys. rewrite tl_visits_ids.
  destruct x as [h ks]. simpl in *. inversion N; auto.
Qed.

Lemma under_loop s T0 b x ls : wf_state s -> In (tmap (conv_all ls) T0) (heap s) ->
  In (b, x) (visits [] T0) ->
  exists s', for_each (under x) lists_body s = (Ok tt, s') /\
    steps (tmap (conv_all ls) T0) s (tmap (conv_all (ls ++ [under x])) T0) s' /\ gen s' = gen s.
Proof.
  intros W HT Hx. set (F := conv_all ls) in *. set (T := tmap F T0) in *.
  assert (KF : keeps_ids F) by apply conv_all_keeps.
  pose proof (wf_NoDup s T W HT) as N.
  assert (N0 : NoDup (ids T0)) by (rewrite <- (tmap_ids F T0 KF); auto).
  assert (Hx' : In (map (tmap F) b, tmap F x) (visits [] T)).
  { unfold T. change (@nil tree) with (map (tmap F) []). rewrite tmap_visits. apply in_map_iff. exists (b, x); auto. }
  assert (EU : under x = under (tmap F x)).
  { symmetry. apply under_tmap; auto. apply conv_kind. }
  set (a := map (tmap F) b) in *. set (y := tmap F x) in *.
  (* the visited nodes as contexts in T *)
  set (l := map (fun c : ctx => (fst c ++ a, snd c)%list) (filter (fun d => is_elem (snd d)) (tl (visits [] y)))).
  assert (EK : under x = keys l).
  { rewrite EU. unfold under, l, keys. rewrite map_map. apply map_ext. auto. }
  pose proof (hdr_loop lists_body (fun h => Ok (convert_text h)) T lists_body_edits) as H.
  specialize (H (fun h h' E => ltac:(inversion E; apply convert_keeps)) N l (fun _ h => h) s W).
  rewrite tmap_id in H. specialize (H HT (fun j h => eq_refl)).
  assert (NDl : NoDup (keys l)).
  { rewrite <- EK, EU. apply under_NoDup. exact (visits_sub_NoDup T [] a y N Hx'). }
  assert (HI : incl l (visits [] T)).
  { intros c Hc. unfold l in Hc. apply in_map_iff in Hc as ([e z] & <- & Hc). simpl.
    apply filter_In in Hc as [Hc _]. apply in_tl_visits in Hc.
    apply (visits_trans T [] a y); auto. rewrite (visits_anc y a). apply in_map_iff. exists (e, z); auto. }
  specialize (H NDl HI (fun j h _ => eq_refl)).
  assert (FE : forall cs, first_err (fun c : ctx => Ok (convert_text (head (snd c)))) cs = None).
  { induction cs; simpl; auto. }
  rewrite FE in H. destruct H as (s' & E & S & G). exists s'. rewrite EK. split; auto. split; auto.
  replace (tmap (conv_all (ls ++ [keys l])) T0) with
    (tmap (fun j h => if mem_nat j (keys l) then total (fun h0 => Ok (convert_text h0)) h else h) T); auto.
  unfold T. rewrite tmap_tmap by auto. apply tmap_ext. intros j h _. rewrite conv_all_snoc. reflexivity.
Qed.

Lemma lists_loop T0 cs : forall ls s, wf_state s -> In (tmap (conv_all ls) T0) (heap s) ->
  incl cs (visits [] T0) ->
  exists s', for_each (keys cs) (fun p =>
      c <- deref p ;;
      for_each (map (fun d => tid (snd d)) (filter (fun d => is_elem (snd d)) (tl (visits [] (snd c)))))
        lists_body) s = (Ok tt, s') /\
    steps (tmap (conv_all ls) T0) s (tmap (conv_all (ls ++ map (fun c => under (snd c)) cs)) T0) s' /\
    gen s' = gen s.
Proof.
  induction cs as [|[b x] cs IH]; intros ls s W HT HI; simpl.
  - exists s. rewrite app_nil_r. split; auto. split; auto. apply steps_refl; auto.
  - assert (Hx : In (b, x) (visits [] T0)) by (apply HI; left; auto).
    assert (KF : keeps_ids (conv_all ls)) by apply conv_all_keeps.
    assert (Hx' : In (map (tmap (conv_all ls)) b, tmap (conv_all ls) x) (visits [] (tmap (conv_all ls) T0))).
    { change (@nil tree) with (map (tmap (conv_all ls)) []). rewrite tmap_visits. apply in_map_iff. exists (b, x); auto. }
    rewrite !bind_run.
    replace (deref (tid x) s) with (Ok (map (tmap (conv_all ls)) b, tmap (conv_all ls) x), s)
      by (rewrite <- (tmap_tid (conv_all ls) x KF); symmetry; eapply deref_in; eauto).
    cbv beta iota. cbn [snd].
    replace (map _ _) with (under (tmap (conv_all ls) x)) by reflexivity.
    rewrite (under_tmap (conv_all ls) x KF (conv_kind ls)).
    destruct (under_loop s T0 b x ls W HT Hx) as (s1 & E1 & S1 & G1). rewrite E1.
    destruct (IH (ls ++ [under x])%list s1 (st_wf _ _ _ _ S1) (st_in _ _ _ _ S1)
                (fun c Hc => HI c (or_intror Hc))) as (s2 & E2 & S2 & G2).
    exists s2. split; auto. rewrite <- app_assoc in S2. simpl in S2.
    split; [|congruence]. eapply steps_trans; eauto.
Qed.

(** *** How often a node is converted *)

Lemma repeat_edit_comm n h : repeat_edit n (convert_text h) = convert_text (repeat_edit n h).
Proof. induction n as [|n IH]; simpl; auto. rewrite IH. reflexivity. Qed.

Lemma conv_all_count ls : forall j h,
  conv_all ls j h = repeat_edit (length (filter (mem_nat j) ls)) h.
Proof.
  induction ls as [|l ls IH]; intros j h; simpl; auto. rewrite IH. unfold conv.
  destruct (mem_nat j l); simpl; auto. apply repeat_edit_comm.
Qed.

(** The ancestors with their own ancestors. *)
Fixpoint ups (a : list tree) : list ctx :=
  match a with
  | [] => []
  | z :: a' => (a', z) :: ups a'
  end.

Lemma in_ups c z a : In (c, z) (ups a) <-> exists a1, a = (a1 ++ z :: c)%list.
Proof.
  induction a as [|y a IH]; simpl.
  - split; [tauto|]. intros (a1 & E). destruct a1; discriminate.
  - split.
    + intros [H|H].
      * injection H as <- <-. exists []. auto.
      * apply IH in H as (a1 & E). exists (y :: a1). rewrite E. auto.
    + intros (a1 & E). destruct a1 as [|w a1]; simpl in E; injection E as -> ->; auto.
      right. apply IH. eauto.
Qed.

Lemma ups_NoDup a : NoDup (ups a).
Proof.
  induction a as [|z a IH]; simpl; constructor; auto. intro H. apply in_ups in H as (a1 & E).
  apply (f_equal (@length tree)) in E. rewrite app_length in E. simpl in E. lia.
Qed.

Lemma visits_NoDup T : NoDup (ids T) -> NoDup (visits [] T).
Proof. intro N. apply (NoDup_map_inv (fun c : ctx => tid (snd c))). apply visits_keys_NoDup; auto. Qed.

Lemma in_under T a x b y : NoDup (ids T) -> In (a, x) (visits [] T) -> In (b, y) (visits [] T) ->
  (In (tid x) (under y) <-> is_elem x = true /\ exists a1, a = (a1 ++ y :: b)%list).
Proof.
  intros N Hx Hy. unfold under. split.
  - intro H. apply in_map_iff in H as ([c z] & Ez & H). simpl in Ez. apply filter_In in H as [H He].
    simpl in He. assert (Hs : In (c, z) (visits [] y)) by (apply in_tl_visits; auto).
    assert (Hz : In (c ++ b, z)%list (visits [] T)).
    { apply (visits_trans T [] b y); auto. rewrite (visits_anc y b). apply in_map_iff. exists (c, z); auto. }
    destruct (visits_unique T [] _ _ _ _ N Hz Hx Ez) as [E1 E2]. subst z. split; auto.
    destruct (visits_strict _ _ _ _ Hs) as [Q|(c0 & Q)].
    + exfalso. injection Q as -> ->. pose proof (visits_sub_NoDup T [] b y N Hy) as Ny.
      destruct y as [hy ky]. cbn [visits tl] in H. apply in_flat_map in H as (k & Hk & H).
      apply visits_tid_in in H. simpl in Ny. inversion Ny as [|? ? Q _]; subst. apply Q.
      apply in_flat_map. exists k. auto.
    + exists c0. rewrite <- E1, Q, <- app_assoc. reflexivity.
  - intros (He & a1 & Ea).
    assert (Hs : In (a1 ++ [y], x)%list (visits [] y)).
    { destruct (visits_anc_ctx T [] a x y Hx) as [[]|(a2 & a3 & E2 & H2 & H3)].
      - rewrite Ea. apply in_app_iff; right; left; auto.
      - destruct (visits_unique T [] _ _ _ _ N H2 Hy eq_refl) as [-> _].
        rewrite Ea in E2. apply app_inv_tail in E2. subst a2. exact H3. }
    apply in_map_iff. exists (a1 ++ [y], x)%list. split; auto. apply filter_In. split; auto.
    destruct y as [hy ky]. cbn [visits tl] in *. destruct Hs as [Q|Q]; auto.
    exfalso. injection Q as Q _. destruct a1; discriminate.
Qed.

Definition props_sel (obj prop : qname) (c : ctx) : bool :=
  match fst c with g :: _ => named prop (snd c) && named obj g | [] => false end.

Lemma properties_count obj prop a : length (filter (props_sel obj prop) (ups a)) = properties_above obj prop a.
Proof.
  induction a as [|p a IH]; simpl; auto. destruct a as [|g a']; auto.
  unfold props_sel at 1. simpl fst. simpl snd. cbv iota.
  change (properties_above obj prop (p :: g :: a')) with
    ((if named prop p && named obj g then 1 else 0) + properties_above obj prop (g :: a')).
  destruct (named prop p && named obj g); simpl length; rewrite <- IH; reflexivity.
Qed.

Lemma filter_length_perm {A} (l l' : list A) : NoDup l -> NoDup l' -> (forall x, In x l <-> In x l') ->
  length l = length l'.
Proof. intros. apply Permutation_length. apply NoDup_Permutation; auto. Qed.

Lemma conversions obj prop T a x : NoDup (ids T) -> In (a, x) (visits [] T) -> is_elem x = true ->
  length (filter (mem_nat (tid x)) (map (fun c => under (snd c)) (filter (props_sel obj prop) (visits [] T)))) =
  properties_above obj prop a.
Proof.
  intros N Hx He. rewrite filter_map_comm, map_length, filter_filter, <- properties_count.
  apply filter_length_perm.
  - apply NoDup_filter. apply visits_NoDup; auto.
  - apply NoDup_filter. apply ups_NoDup.
  - intros [b y]. rewrite !filter_In, in_ups, andb_true_iff. simpl snd. split.
    + intros [Hy [H1 H2]]. apply mem_nat_In in H2.
      apply (in_under T a x b y N Hx Hy) in H2 as [_ H2]. auto.
    + intros [(a1 & Ea) H1].
      destruct (visits_anc_ctx T [] a x y Hx) as [[]|(a2 & a3 & E2 & H2 & H3)].
      { rewrite Ea. apply in_app_iff; right; left; auto. }
      assert (Hy : In (b, y) (visits [] T)).
      { (* the ancestors of y above x are determined *)
        assert (G : forall T anc a x a1, In (a, x) (visits anc T) -> a = (a1 ++ y :: b)%list -> ~ (exists c, anc = c ++ y :: b)%list ->
                  In (b, y) (visits anc T)).
        { clear. intro T. tree_induction T. intros anc a x a1 H E Hn. simpl in H. destruct H as [H|H].
          - injection H as -> _. exfalso. apply Hn. eauto.
          - apply in_flat_map in H as (k & Hk & H).
            destruct (visits_anc_app _ _ _ _ H) as (c & Ec). simpl. 
            destruct (list_eq_dec Nat.eq_dec [length (y :: b)] [length (Node h ks :: anc)]) as [L|L].
            + left. injection L as L. simpl in L. rewrite E in Ec.
              assert (Q : y :: b = Node h ks :: anc).
              { assert (Lc : length a1 = length c).
                { apply (f_equal (@length tree)) in Ec. rewrite !app_length in Ec. simpl in Ec. lia. }
                clear - Ec Lc. revert c Ec Lc. induction a1 as [|z a1 IH]; intros [|w c] Ec Lc; simpl in *; auto; try discriminate.
                injection Ec as _ Ec. apply (IH c); auto. }
              injection Q as -> ->. reflexivity.
            + right. apply in_flat_map. exists k. split; auto. apply (IH k Hk (Node h ks :: anc) a x a1); auto.
              intros (d & Ed). destruct d as [|w d]; simpl in Ed.
              * apply L. rewrite <- Ed. reflexivity.
              * injection Ed as _ Ed. apply Hn. eauto. }
        apply (G T [] a x a1 Hx Ea). intros (c & Q). destruct c; discriminate. }
      split; auto. split; auto. apply mem_nat_In. apply (in_under T a x b y N Hx Hy). split; auto. eauto.
Qed.

Lemma convert_repeat_nat n h : repeat_edit n (set_id 0 h) = set_id 0 (repeat_edit n h).
Proof. induction n as [|n IH]; simpl; auto. rewrite IH. apply convert_nat. Qed.

Lemma properties_above_erase obj prop a : properties_above obj prop (map erase a) = properties_above obj prop a.
Proof.
  induction a as [|p a IH]; auto. destruct a as [|g a']; auto.
  change (properties_above obj prop (map erase (p :: g :: a'))) with
    ((if named prop (erase p) && named obj (erase g) then 1 else 0) + properties_above obj prop (map erase (g :: a'))).
  rewrite IH, !named_erase. reflexivity.
Qed.

Lemma update_lists_computes u l obj prop :
  xcompile (c_nsmap u) XPATH_OBJECT_PROPS = Some l -> pure_alts l = true ->
  (forall c, match_path l c = props_sel obj prop c) ->
  computes (update_lists u) (fun t => Ok (lists_pass obj prop t)).
Proof.
  intros C P U s T W HT. unfold update_lists. rewrite bind_run, (xpath_root s T _ _ l) by auto.
  replace (select_ids (match_path l) T) with (keys (filter (props_sel obj prop) (visits [] T))).
  2:{ unfold select_ids, select, keys. f_equal. apply filter_ext. intro; symmetry; apply U. }
  set (cs := filter (props_sel obj prop) (visits [] T)).
  pose proof (wf_NoDup s T W HT) as N.
  assert (E0 : tmap (conv_all []) T = T) by apply tmap_id.
  destruct (lists_loop T cs [] s W) as (s' & E & S & G).
  { rewrite E0. auto. }
  { intros c Hc. apply filter_In in Hc. tauto. }
  rewrite E0 in S. simpl app in S. eexists. exists s'. split; [exact E|]. split; [exact S|]. split; auto.
  assert (K : keeps_ids (conv_all (map (fun c => under (snd c)) cs))) by apply conv_all_keeps.
  split; [apply tmap_tid; auto|].
  rewrite (tmap_edit _ T []). unfold lists_pass. apply (erase_edit _ _ T []).
  intros a x Hx. rewrite conv_all_count, erase_head, is_elem_erase, properties_above_erase, convert_repeat_nat.
  destruct (is_elem x) eqn:He.
  - unfold cs. rewrite (conversions obj prop T a x) by auto. reflexivity.
  - replace (filter (mem_nat (tid x)) (map (fun c => under (snd c)) cs)) with (@nil (list nat)); auto.
    symmetry. apply filter_none. intros k Hk. apply in_map_iff in Hk as ([b y] & <- & Hy). simpl.
    apply filter_In in Hy as [Hy _]. apply not_true_is_false. intro M. apply mem_nat_In in M.
    apply (in_under T a x b y N Hx Hy) in M as [M _]. congruence.
Qed.

(** ** Version stamps *)

Lemma versions_computes u l body g :
  xcompile (c_nsmap u) (c_x_versioned u) = Some l -> pure_alts l = true ->
  edits_hdr body (fun h => Ok (g h)) -> keeps_id g -> (forall h, g (set_id 0 h) = set_id 0 (g h)) ->
  computes (fun r => nodes <- get_versioned_nodes u r ;; for_each nodes body)
           (fun t => Ok (edit_where (pathf l) g t)).
Proof. intros. unfold get_versioned_nodes. apply edit_computes; auto. Qed.

Lemma three_edits f1 f2 f3 : keeps_id f1 -> keeps_id f2 -> keeps_id f3 ->
  edits_hdr (fun i => modify i f1 ;;; modify i f2 ;;; modify i f3) (fun h => Ok (f3 (f2 (f1 h)))).
Proof.
  intros K1 K2 K3. apply (edits_ext (fun i => modify i (fun h => f3 (f2 (f1 h))))).
  - intros i s. rewrite bind_run.
    assert (M : forall f, keeps_id f -> exists s', modify i f s = (Ok tt, s')) by (intros; unfold modify; eauto).
    transitivity ((modify i f1 ;;; modify i (fun h => f3 (f2 h))) s).
    + symmetry. apply (modify_modify i f1 (fun h => f3 (f2 h))); auto.
    + rewrite bind_run. destruct (M f1 K1) as (s1 & ->). symmetry. apply (modify_modify i f2 f3); auto.
  - apply (modify_edits (fun h => f3 (f2 (f1 h)))). intro h. rewrite K3, K2, K1. reflexivity.
Qed.

Lemma keeps_hdel a : keeps_id (hdel_attr a).
Proof. intro h; reflexivity. Qed.

Lemma cybox_2_0_versions_computes u l :
  xcompile (c_nsmap u) (c_x_versioned u) = Some l -> pure_alts l = true ->
  computes (cybox_2_0_update_versions u) (fun t => Ok (edit_where (pathf l) stamp_cybox_2_0_1 t)).
Proof.
  intros C P. unfold cybox_2_0_update_versions. apply versions_computes; auto.
  - apply three_edits; apply keeps_hset.
  - intro h; reflexivity.
Qed.

Lemma cybox_2_0_1_versions_computes u l :
  xcompile (c_nsmap u) (c_x_versioned u) = Some l -> pure_alts l = true ->
  computes (cybox_2_0_1_update_versions u) (fun t => Ok (edit_where (pathf l) stamp_cybox_2_1 t)).
Proof.
  intros C P. unfold cybox_2_0_1_update_versions. apply versions_computes; auto.
  - apply three_edits; try apply keeps_hset. apply keeps_hdel.
  - intro h; reflexivity.
Qed.

Lemma stix_versions_computes u i o l :
  xcompile (c_nsmap u) (c_x_versioned u) = Some l -> pure_alts l = true ->
  computes (stix_update_versions u i o) (fun t => Ok (edit_where (pathf l) (stamp_stix i o) t)).
Proof.
  intros C P. unfold stix_update_versions. apply versions_computes; auto.
  - apply (read_edits (fun h j => if String.eqb (q_local (h_tag h)) "Indicator"
                                  then modify j (hset_attr (lq "version") i)
                                  else modify j (hset_attr (lq "version") o))).
    + intro h; reflexivity.
    + intros h j s. left. unfold stamp_stix.
      destruct (String.eqb (q_local (h_tag h)) "Indicator"); eexists; (split; [|split; reflexivity]); apply keeps_hset.
  - intro h; reflexivity.
Qed.
