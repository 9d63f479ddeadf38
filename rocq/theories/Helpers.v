(** * The helper classes in any configuration. *)

From Coq Require Import String Ascii List Bool Arith Lia Permutation.
From Verif Require Import Str Xml XPath Utils Base Tables Spec SpecDoc SpecPass SpecStep SpecUpdate SpecTrace SpecField SpecLocation SpecName
  Lib Refine RefineBase RefineTrans Trace Fields Carried Follow Vocab Moved SpecRead SpecFault Codec SpecName SpecHelper.
From Verif Require Faults.
Import ListNotations.
Local Open Scope string_scope.

(** ** From passes to relations *)

Lemma computes_becomes m f s T e : computes m f -> wf_state s -> In T (heap s) -> f (erase T) = Ok e ->
  exists s', m (tid T) s = (Ok tt, s') /\ becomes s T s' e.
Proof.
  intros C W HT F. specialize (C s T W HT). rewrite F in C. destruct C as (T' & s' & E & S & _ & R & X).
  exists s'. split; auto. destruct S as [S1 S2 S3 _ _]. split; auto. split; [exists T'; auto|auto].
Qed.

Lemma edit_node_by_node f t : forall anc, node_by_node (fun a x h' => h' = f a x) anc t (edit f anc t).
Proof.
  tree_induction t. intro anc. cbn [edit]. constructor; auto.
  assert (H : forall l, incl l ks -> Forall2 (node_by_node (fun a x h' => h' = f a x) (Node h ks :: anc)) l (map (edit f (Node h ks :: anc)) l)).
  { induction l as [|k l IHl]; intro I; simpl; constructor; auto.
    - apply IH. apply I. left; auto.
    - apply IHl. intros z Hz. apply I. right; auto. }
  apply H. apply incl_refl.
Qed.

Lemma node_by_node_impl (R Q : list tree -> tree -> hdr -> Prop) t : forall anc e,
  (forall a x h', In (a, x) (visits anc t) -> R a x h' -> Q a x h') -> node_by_node R anc t e -> node_by_node Q anc t e.
Proof.
  tree_induction t. intros anc e H N. inversion N as [? ? ? h' ks' Rh F]; subst. constructor.
  - apply H; auto. apply visits_self.
  - assert (X : forall l l', incl l ks -> Forall2 (node_by_node R (Node h ks :: anc)) l l' -> Forall2 (node_by_node Q (Node h ks :: anc)) l l').
    { induction l as [|k l IHl]; intros l' I F'; inversion F'; subst; constructor.
      - eapply IH; eauto; [apply I; left; auto|]. intros a x h0 Hx. apply H. right. apply in_flat_map. exists k. split; auto. apply I; left; auto.
      - apply IHl; auto. intros z Hz. apply I. right; auto. }
    apply X; auto. apply incl_refl.
Qed.

Lemma edited (Q : list tree -> tree -> hdr -> Prop) f t : (forall a x, In (a, x) (visits [] t) -> Q a x (f a x)) ->
  node_by_node Q [] t (edit f [] t).
Proof.
  intro H. eapply node_by_node_impl; [|apply edit_node_by_node]. cbv beta. intros a x h' Hx ->. auto.
Qed.

Lemma subst_supplanted P G (R : tree -> list tree -> Prop) t : forall anc,
  (forall a x, In (a, x) (tl (visits anc t)) -> P a x = true -> exists l, G a x = Some l /\ R x l) ->
  (forall a x, P a x = false -> G a x = None) ->
  supplanted P R anc t (subst_nodes G anc t).
Proof.
  tree_induction t. intros anc H HN. cbn [subst_nodes]. constructor. cbn [visits tl] in H.
  assert (X : forall l, incl l ks -> supplanted_all P R (Node h ks :: anc) l
     (flat_map (fun k => match G (Node h ks :: anc) k with Some l => l | None => [subst_nodes G (Node h ks :: anc) k] end) l)).
  { induction l as [|k l IHl]; intro I; simpl; [constructor|].
    assert (Ik : In k ks) by (apply I; left; auto).
    assert (Il : incl l ks) by (intros z Hz; apply I; right; auto).
    destruct (P (Node h ks :: anc) k) eqn:Pk.
    - destruct (H (Node h ks :: anc) k) as (r & Gr & Rr); auto.
      { apply in_flat_map. exists k. split; auto. apply visits_self. }
      rewrite Gr. apply sup_chosen; auto.
    - rewrite (HN _ _ Pk). apply sup_other; auto. apply IH; auto. intros a x Hx. apply H.
      apply in_flat_map. exists k. split; auto. destruct k as [hk kk]. cbn [visits tl] in Hx |- *. right. exact Hx. }
  apply X. apply incl_refl.
Qed.

(** ** XPath *)

Lemma usable_pure ns path l : usable ns path l -> xcompile ns path = Some l /\ pure_alts l = true.
Proof.
  intros [C H]. split; auto. unfold pure_alts. apply orb_true_iff. destruct H as [H|H].
  - left. apply forallb_forall. exact H.
  - right. apply negb_true_iff. destruct (existsb alt_abs l) eqn:E; auto. apply existsb_exists in E as (a & I & E).
    rewrite (H a I) in E. discriminate.
Qed.

(** ** Renamed fields *)

Lemma renamed_any o ns f q l s T : wf_state s -> In T (heap s) -> t_kind f = TRenamed q -> usable ns (t_xnode f) l ->
  exists s' e, translate o ns f (tid T) s = (Ok tt, s') /\ becomes s T s' e /\
    node_by_node (fun anc x h' => h' = if chosen l anc x then set_tag q (head x) else head x) [] (erase T) e.
Proof.
  intros W HT K U. apply usable_pure in U as [C P].
  destruct (computes_becomes _ _ s T _ (renamed_computes o ns f l q C P K) W HT eq_refl) as (s' & E & B).
  exists s'. eexists. split; [exact E|]. split; [exact B|]. unfold edit_where. apply edited. reflexivity.
Qed.

(** ** Optional elements *)

Lemma optional_any o d ns l s T typed : wf_state s -> In T (heap s) ->
  d_ctx_types d = [] -> d_interrogate d = IEmptyElem -> usable ns (d_xpath d) l ->
  exists s' e, (found <- dfind o d ns (tid T) typed ;; remove_xml_elements found) s = (Ok tt, s') /\ becomes s T s' e /\
    supplanted (fun anc x => chosen l anc x && blank x) (fun _ r => r = []) [] (erase T) e.
Proof.
  intros W HT D I U. apply usable_pure in U as [C P].
  destruct (computes_becomes _ _ s T _ (optional_computes o d ns l typed D I C P) W HT eq_refl) as (s' & E & B).
  exists s'. eexists. split; [exact E|]. split; [exact B|]. unfold optional_pass, prune. apply subst_supplanted.
  - intros a x _ H. exists []. unfold pathf, chosen in *. rewrite H. auto.
  - intros a x H. unfold pathf, chosen in *. rewrite H. auto.
Qed.

(** ** Optional attributes *)

Definition drop_attrs (l : list qname) (h : hdr) : hdr := fold_left (fun h a => hdel_attr a h) l h.

Lemma drop_keeps l : keeps_id (drop_attrs l).
Proof. unfold drop_attrs. intro h. revert h. induction l as [|a l IH]; intro h; auto. simpl. rewrite IH. reflexivity. Qed.

Lemma drop_nat l h : drop_attrs l (set_id 0 h) = set_id 0 (drop_attrs l h).
Proof. revert h. induction l as [|a l IH]; intro h; auto. exact (IH (hdel_attr a h)). Qed.

Lemma remove_attributes_run i l s : remove_xml_attributes i l s = modify i (drop_attrs l) s.
Proof.
  unfold remove_xml_attributes. revert s. induction l as [|a l IH]; intro s.
  - simpl. unfold ret, modify. f_equal. destruct s as [hp nx gn]. f_equal. symmetry. rewrite <- (map_id hp) at 2.
    cbn [heap]. apply map_ext. intro t. tree_induction t. cbn [tset]. destruct (Nat.eqb _ _); unfold drop_attrs; cbn [fold_left]; f_equal; rewrite <- (map_id ks) at 2; apply map_ext_in; auto.
  - cbn [for_each]. rewrite bind_run. unfold remove_xml_attribute.
    assert (K : keeps_id (hdel_attr a)) by (intro; reflexivity).
    pose proof (modify_modify i (hdel_attr a) (drop_attrs l) s K) as M. rewrite bind_run in M.
    destruct (modify i (hdel_attr a) s) as [r s1] eqn:E1. unfold modify in E1. injection E1 as <- <-.
    rewrite IH. exact M.
Qed.

Lemma empty_attr_any attrs h : existsb (empty_attr h) attrs = true <-> has_empty attrs h.
Proof.
  unfold has_empty. rewrite existsb_exists. split; intros (a & I & E); exists a; split; auto; unfold empty_attr, attr_of in *.
  - destruct (attr_get a (h_attr h)) as [v|]; [|discriminate]. apply String.eqb_eq in E. subst v. reflexivity.
  - rewrite E. reflexivity.
Qed.

Lemma attributes_found o d ns l attrs s T typed : wf_state s -> In T (heap s) ->
  d_ctx_types d = [] -> d_interrogate d = IEmptyAttrs attrs -> xcompile ns (d_xpath d) = Some l -> pure_alts l = true ->
  dfind o d ns (tid T) typed s =
  (Ok (select_ids (fun c => match_path l c && existsb (empty_attr (head (snd c))) attrs) T), s).
Proof.
  intros W HT D I C P. unfold dfind, get_contexts. rewrite D, bind_run. unfold ret at 1. cbn [find_in].
  rewrite bind_run, (xpath_root s T _ _ l) by auto. rewrite bind_run, I. cbn [interrogate].
  change (select_ids (match_path l) T) with (keys (filter (match_path l) (visits [] T))).
  rewrite (filter_m_keys _ (fun c => existsb (empty_attr (head (snd c))) attrs)).
  - rewrite filter_filter, bind_run. unfold ret. rewrite app_nil_r. reflexivity.
  - intros [b y] Hy. apply filter_In in Hy as [Hy _]. rewrite bind_run. cbn [snd]. rewrite (get_hdr_in s T b y) by auto. reflexivity.
Qed.

Lemma attributes_computes o d ns l attrs typed :
  d_ctx_types d = [] -> d_interrogate d = IEmptyAttrs attrs -> xcompile ns (d_xpath d) = Some l -> pure_alts l = true ->
  computes (fun r => found <- dfind o d ns r typed ;; for_each found (fun i => remove_xml_attributes i attrs))
           (fun t => Ok (edit (fun anc x => if chosen l anc x && existsb (empty_attr (head x)) attrs
                                            then drop_attrs attrs (head x) else head x) [] t)).
Proof.
  intros D I C P s T W HT. rewrite bind_run, (attributes_found o d ns l attrs s T typed) by auto.
  set (p := fun c : ctx => match_path l c && existsb (empty_attr (head (snd c))) attrs).
  set (q := fun (a : list tree) (x : tree) => chosen l a x && existsb (empty_attr (head x)) attrs).
  assert (NP : natural p q).
  { intros [a x]. unfold p, q, chosen. cbn [fst snd]. rewrite (match_path_natural l (a, x)). unfold pathf. cbn [fst snd].
    rewrite erase_head. reflexivity. }
  pose proof (hdr_pass s T p q (fun i => remove_xml_attributes i attrs) (fun h => Ok (drop_attrs attrs h)) W HT) as H.
  specialize (H (edits_ext _ _ _ (fun i s => eq_sym (remove_attributes_run i attrs s)) (modify_edits _ (drop_keeps attrs)))).
  specialize (H (fun h h' E => ltac:(inversion E; apply drop_keeps))).
  specialize (H (fun h => f_equal Ok (drop_nat attrs h)) NP).
  assert (FE : forall cs, first_err (fun c : ctx => Ok (drop_attrs attrs (head (snd c)))) cs = None).
  { induction cs; simpl; auto. }
  rewrite FE in H. destruct H as (F & s' & E & S & G & K & _ & X).
  exists (tmap F T), s'. split; auto. split; auto. split; auto. split; [apply tmap_tid; auto|]. exact X.
Qed.

Lemma drop_same l h : same_but_attributes h (drop_attrs l h).
Proof. revert h. induction l as [|a l IH]; intro h; [repeat split|]. destruct (IH (hdel_attr a h)) as (A & B & C & D & E & F). repeat split; auto. Qed.

Lemma attr_del_distinct a l : NoDup (map fst l) -> attr_get a (attr_del a l) = None /\ NoDup (map fst (attr_del a l)) /\ incl (map fst (attr_del a l)) (map fst l).
Proof.
  induction l as [|[k v] l IH]; simpl; intro N; [repeat split; auto; intros ? []|]. inversion N as [|? ? N1 N2]; subst.
  destruct (IH N2) as (A & B & C). destruct (qn_eqb a k) eqn:E.
  - apply qn_eqb_eq in E. subst k. split; [|split; auto].
    + clear - N1. induction l as [|[k w] l IH]; simpl; auto. destruct (qn_eqb a k) eqn:E.
      * apply qn_eqb_eq in E. subst. exfalso. apply N1. left. reflexivity.
      * apply IH. intro X. apply N1. right. exact X.
    + intros z Hz. right. exact Hz.
  - simpl. rewrite E. split; auto. split.
    + constructor; auto.
    + intros z [Hz|Hz]; [left; auto|right; auto].
Qed.

Lemma drop_attr_of l h k : NoDup (map fst (h_attr h)) ->
  attr_of k (drop_attrs l h) = if existsb (qn_eqb k) l then None else attr_of k h.
Proof.
  revert h. induction l as [|a l IH]; intros h N; auto.
  destruct (attr_del_distinct a (h_attr h) N) as (A & B & C).
  change (drop_attrs (a :: l) h) with (drop_attrs l (hdel_attr a h)). rewrite (IH (hdel_attr a h) B). cbn [existsb].
  destruct (qn_eqb k a) eqn:E; cbn [orb].
  - apply qn_eqb_eq in E. subst a. destruct (existsb _ l); auto.
  - destruct (existsb _ l); auto. unfold attr_of, hdel_attr. cbn [h_attr set_attrs]. apply attr_get_del. apply qn_eqb_neq. exact E.
Qed.

Lemma in_names k l : existsb (qn_eqb k) l = true <-> In k l.
Proof.
  rewrite existsb_exists. split.
  - intros (a & I & E). apply qn_eqb_eq in E. subst; auto.
  - intro I. exists k. split; auto. apply qn_eqb_refl.
Qed.

Lemma distinct_at t a x : distinct_attributes t -> In (a, x) (visits [] (erase t)) -> NoDup (map fst (h_attr (head x))).
Proof.
  intros D H. assert (I : In x (nodes (erase t))).
  { rewrite <- (nodes_visits (erase t) []). apply in_map_iff. exists (a, x). auto. }
  clear H. revert x I. revert D. unfold distinct_attributes. tree_induction t. intros D x I. cbn [erase nodes] in I. destruct I as [<-|I].
  - apply (D (Node h ks)). left. reflexivity.
  - apply in_flat_map in I as (k' & Hk & I). apply in_map_iff in Hk as (k & <- & Hk). apply (IH k Hk); auto.
    intros y Hy. apply D. right. apply in_flat_map. exists k. auto.
Qed.

Lemma attributes_any o d ns l attrs s T typed : wf_state s -> In T (heap s) -> distinct_attributes T ->
  d_ctx_types d = [] -> d_interrogate d = IEmptyAttrs attrs -> usable ns (d_xpath d) l ->
  exists s' e, (found <- dfind o d ns (tid T) typed ;; for_each found (fun i => remove_xml_attributes i attrs)) s = (Ok tt, s') /\
    becomes s T s' e /\ node_by_node (all_go l attrs) [] (erase T) e.
Proof.
  intros W HT DA D I U. apply usable_pure in U as [C P].
  destruct (computes_becomes _ _ s T _ (attributes_computes o d ns l attrs typed D I C P) W HT eq_refl) as (s' & E & B).
  exists s'. eexists. split; [exact E|]. split; [exact B|]. apply edited. intros a x Hx.
  pose proof (distinct_at T a x DA Hx) as N. split.
  - intros [Ch He]. rewrite Ch. apply empty_attr_any in He. rewrite He. cbn [andb].
    exists (fun k => attr_of k (drop_attrs attrs (head x))). split.
    + split; auto. apply drop_same.
    + intro k. rewrite drop_attr_of by exact N. pose proof (in_names k attrs) as [A1 A2]. split; intro Hk.
      * rewrite A2 by exact Hk. reflexivity.
      * destruct (existsb (qn_eqb k) attrs) eqn:Ex; auto. exfalso. auto.
  - intro Nn. destruct (chosen l a x) eqn:Ch; auto. destruct (existsb (empty_attr (head x)) attrs) eqn:Ex; auto.
    exfalso. apply Nn. split; auto. apply empty_attr_any. exact Ex.
Qed.

(** With one attribute that is what the class promises. *)
Lemma single_attribute l k0 anc x h' : all_go l [k0] anc x h' -> empty_ones_go l [k0] anc x h'.
Proof.
  intros [H1 H2]. unfold empty_ones_go.
  assert (Dec : {chosen l anc x = true /\ has_empty [k0] (head x)} + {~ (chosen l anc x = true /\ has_empty [k0] (head x))}).
  { destruct (chosen l anc x); [|right; intros [Z _]; discriminate].
    destruct (existsb (empty_attr (head x)) [k0]) eqn:Ex.
    - left. split; auto. apply empty_attr_any. exact Ex.
    - right. intros [_ Z]. apply empty_attr_any in Z. congruence. }
  destruct Dec as [Y|N].
  - destruct (H1 Y) as (f & A & B). exists f. split; auto. intro k. destruct (B k) as [B1 B2]. split.
    + intros (_ & Hk & _). auto.
    + intro Nk. destruct Y as [Ch (k1 & [<-|[]] & E1)].
      destruct (qn_eqb k k0) eqn:Q.
      * apply qn_eqb_eq in Q. subst k. exfalso. apply Nk. repeat split; auto. left; auto.
      * apply B2. intros [<-|[]]. rewrite qn_eqb_refl in Q. discriminate.
  - rewrite (H2 N). exists (fun k => attr_of k (head x)). split; [split; [repeat split|auto]|]. intro k. split; auto.
    intros (Ch & Hk & Ek). exfalso. apply N. split; auto. exists k. auto.
Qed.

Lemma attribute_any o d ns l k s T typed : wf_state s -> In T (heap s) -> distinct_attributes T ->
  d_ctx_types d = [] -> d_interrogate d = IEmptyAttrs [k] -> usable ns (d_xpath d) l ->
  exists s' e, (found <- dfind o d ns (tid T) typed ;; for_each found (fun i => remove_xml_attributes i [k])) s = (Ok tt, s') /\
    becomes s T s' e /\ node_by_node (empty_ones_go l [k]) [] (erase T) e.
Proof.
  intros W HT DA D I U. destruct (attributes_any o d ns l [k] s T typed W HT DA D I U) as (s' & e & E & B & N).
  exists s', e. split; auto. split; auto. eapply node_by_node_impl; [|exact N]. intros. apply single_attribute. auto.
Qed.

(** ** Vocabularies *)

Lemma term_outdated v anc x : outdated v (anc, x) = true <-> exists alias, term_of v anc x alias.
Proof.
  split.
  - intro O. unfold outdated, type_of in O. cbn [fst snd] in O. apply andb_true_iff in O as [Ty O].
    unfold typed in Ty. cbn [fst snd] in Ty. apply andb_true_iff in Ty as [Ty Ha]. apply andb_true_iff in Ty as [In El].
    destruct (attr_get TAG_XSI_TYPE (h_attr (head x))) as [value|] eqn:A; [|discriminate].
    destruct (split_char ":" value) as [|alias [|name [|]]] eqn:S; try discriminate.
    destruct (env_get _ _) as [u|] eqn:E; [|discriminate]. apply andb_true_iff in O as [O1 O2].
    apply String.eqb_eq in O1. subst u. apply mem_str_In in O2.
    exists alias. split; [destruct anc; [discriminate|congruence]|]. split; auto. exists value, name. auto.
  - intros (alias & Na & El & value & name & A & S & M & E). unfold outdated, typed, type_of, has_attr. cbn [fst snd].
    unfold attr_of, xsi_type in A. change (qn "http://www.w3.org/2001/XMLSchema-instance" "type") with TAG_XSI_TYPE in A.
    rewrite A, S, E, El, String.eqb_refl. destruct anc; [congruence|]. cbn [inside andb]. apply mem_str_In in M. exact M.
Qed.

Lemma term_alias v anc x alias : term_of v anc x alias -> exists name, type_of (anc, x) = Ok (alias, name, v_namespace v).
Proof.
  intros (Na & El & value & name & A & S & M & E). exists name. unfold type_of. cbn [fst snd].
  unfold attr_of, xsi_type in A. change (qn "http://www.w3.org/2001/XMLSchema-instance" "type") with TAG_XSI_TYPE in A.
  rewrite A, S, E. reflexivity.
Qed.

Lemma present_replaced k s h0 h h' : set_if_present k s h0 h = Ok h' -> attr_of k h = attr_of k h0 ->
  replaced_by s (attr_of k h0) (attr_of k h').
Proof.
  unfold set_if_present, has_attr. fold (attr_of k h0). intros E S. unfold replaced_by. destruct (attr_of k h0) eqn:A.
  - destruct s; [|discriminate]. injection E as <-. apply attr_of_set_same.
  - injection E as <-. exact S.
Qed.

Lemma upgraded_renewed v alias h h' : upgraded_with v alias h = Ok h' -> renewed v alias h h'.
Proof.
  intro U. pose proof (upgraded_with_same _ _ _ _ U) as (A & B & C & D). pose proof (upgraded_type _ _ _ _ U) as Ty.
  pose proof (fun k => attr_of_upgraded k _ _ _ _ U) as Ot.
  unfold upgraded_with in U. destruct (set_if_present _ _ h _) as [h1|] eqn:E1 in U; [|discriminate]. cbn [rbind] in U.
  destruct (set_if_present _ _ h h1) as [h2|] eqn:E2; [|discriminate]. cbn [rbind] in U.
  pose proof (set_if_present_same _ _ _ _ _ E1) as (_ & _ & _ & _ & T1 & _).
  pose proof (set_if_present_same _ _ _ _ _ E2) as (_ & _ & _ & _ & T2 & _).
  assert (R1 : replaced_by (v_reference v) (attr_of (lq "vocab_reference") h) (attr_of (lq "vocab_reference") h2)).
  { rewrite (attr_of_set_if _ _ _ _ _ _ E2) by discriminate. eapply present_replaced; [exact E1|]. apply attr_of_set. discriminate. }
  assert (R2 : replaced_by (v_name v) (attr_of (lq "vocab_name") h) (attr_of (lq "vocab_name") h2)).
  { eapply present_replaced; [exact E2|]. rewrite (attr_of_set_if _ _ _ _ _ _ E1) by discriminate. apply attr_of_set. discriminate. }
  unfold renewed. repeat (split; [assumption|]). injection U as <-.
  assert (Tx : h_text h2 = h_text h) by (rewrite T2, T1; reflexivity).
  destruct (h_text h) as [w|]; [unfold lookup; cbn [option_map]; destruct (dict_get w (v_terms v))|];
    (split; [exact R1|]); (split; [exact R2|]); (split; [intros k Hk; apply Ot; exact Hk|]); auto.
Qed.

Lemma vocabulary_passed v t e : vocab_pass v t = Ok e -> node_by_node (vocabulary_rule v) [] t e.
Proof.
  unfold vocab_pass. intro H. destruct (first_err type_of _) as [x|]; [discriminate|].
  destruct (first_err (upgraded v) _) as [x|] eqn:F; [discriminate|]. injection H as <-. apply edited. intros a x Hx. split.
  - intros alias Ht. assert (O : outdated v (a, x) = true) by (apply term_outdated; eauto). rewrite O.
    destruct (upgraded v (a, x)) as [h'|er] eqn:U.
    + unfold upgraded in U. destruct (term_alias _ _ _ _ Ht) as (name & Ty). rewrite Ty in U. cbn [rbind fst snd] in U.
      apply upgraded_renewed. exact U.
    + exfalso. assert (I : In (a, x) (filter (outdated v) (visits [] t))) by (apply filter_In; auto).
      revert F U I. generalize (filter (outdated v) (visits [] t)). intro L. induction L as [|c L IH]; [intros _ _ []|]. cbn [first_err].
      intros F U [->|I].
      * rewrite U in F. discriminate.
      * destruct (upgraded v c); [|discriminate]. auto.
  - intro N. destruct (outdated v (a, x)) eqn:O; auto. apply term_outdated in O as (alias & Ht). exfalso. exact (N alias Ht).
Qed.

Lemma typed_read s T ty : wf_state s -> In T (heap s) -> get_typed_nodes (tid T) s = (Ok ty, s) -> ty = select_ids typed T.
Proof. intros W HT E. rewrite (get_typed_nodes_read s T) in E by auto. injection E as <-. reflexivity. Qed.

Lemma vocabulary_any v s T ty s' : wf_state s -> In T (heap s) -> get_typed_nodes (tid T) s = (Ok ty, s) ->
  vocab_update v ty s = (Ok tt, s') ->
  exists e, becomes s T s' e /\ node_by_node (vocabulary_rule v) [] (erase T) e.
Proof.
  intros W HT Et E. apply typed_read in Et; auto. subst ty. pose proof (vocab_class_step v s T W HT) as C.
  destruct (vocab_pass v (erase T)) as [e|x] eqn:P.
  - destruct C as (T' & s1 & E1 & [S1 S2 S3 _ _] & _ & R & X & _). rewrite E in E1. injection E1 as <-. exists e. split.
    + split; auto. split; [exists T'; auto|auto].
    + apply vocabulary_passed. exact P.
  - destruct C as (s1 & E1). rewrite E in E1. discriminate.
Qed.

Lemma unreadable_type anc x : typed (anc, x) = true -> (exists er, type_of (anc, x) = Err er) <-> unreadable anc x.
Proof.
  intro Ty. unfold typed in Ty. cbn [fst snd] in Ty. apply andb_true_iff in Ty as [Ty Ha]. apply andb_true_iff in Ty as [In El].
  unfold unreadable, type_of, attr_of. cbn [fst snd]. unfold has_attr in Ha. unfold xsi_type.
  change (qn "http://www.w3.org/2001/XMLSchema-instance" "type") with TAG_XSI_TYPE.
  destruct (attr_get TAG_XSI_TYPE (h_attr (head x))) as [value|] eqn:A; [|discriminate]. split.
  - intros (er & H). split; [destruct anc; [discriminate|congruence]|]. split; auto. exists value. split; auto.
    intros alias name S. rewrite S in H. destruct (env_get _ _); [discriminate|reflexivity].
  - intros (_ & _ & value' & V & H). injection V as <-. destruct (split_char ":" value) as [|alias [|name [|]]] eqn:S; eauto.
    rewrite (H alias name eq_refl). eauto.
Qed.

Lemma unreadable_typed anc x : unreadable anc x -> typed (anc, x) = true.
Proof.
  intros (Na & El & value & A & _). unfold typed, has_attr. cbn [fst snd]. rewrite El.
  unfold attr_of, xsi_type in A. change (qn "http://www.w3.org/2001/XMLSchema-instance" "type") with TAG_XSI_TYPE in A.
  rewrite A. destruct anc; [congruence|reflexivity].
Qed.

Lemma upgraded_fails v alias h : (exists er, upgraded_with v alias h = Err er) <->
  ((exists w, v_reference v = PTuple w /\ attr_of (lq "vocab_reference") h <> None) \/
   (exists w, v_name v = PTuple w /\ attr_of (lq "vocab_name") h <> None)).
Proof.
  unfold upgraded_with, set_if_present, has_attr. fold (attr_of (lq "vocab_reference") h) (attr_of (lq "vocab_name") h).
  destruct (attr_of (lq "vocab_reference") h) as [r|]; destruct (attr_of (lq "vocab_name") h) as [n|];
  destruct (v_reference v) as [rs|rs]; destruct (v_name v) as [ns|ns]; cbn [rbind];
  (split; [intros (er & H); try discriminate H; first [left; eexists; split; [reflexivity|discriminate]|right; eexists; split; [reflexivity|discriminate]]
          |intros [(w & Q & H)|(w & Q & H)]; try discriminate Q; try (exfalso; apply H; reflexivity); eauto]).
Qed.

Lemma first_err_some {A} (F : ctx -> res A) l e : first_err F l = Some e -> exists c er, In c l /\ F c = Err er.
Proof.
  induction l as [|c l IH]; simpl; [discriminate|]. destruct (F c) as [u|x] eqn:E.
  - intro H. destruct (IH H) as (d & er & Hd & Ed). eauto 6.
  - intros _. eauto 6.
Qed.

Lemma first_err_no {A} (F : ctx -> res A) l c er : first_err F l = None -> In c l -> F c = Err er -> False.
Proof.
  induction l as [|d l IH]; simpl; [intros _ []|]. intros H [->|I] E.
  - rewrite E in H. discriminate.
  - destruct (F d); [auto|discriminate].
Qed.

Lemma vocabulary_pass_fails v t : (exists er, vocab_pass v t = Err er) <-> vocabulary_fault v t.
Proof.
  unfold vocab_pass, vocabulary_fault. split.
  - intros (er & H). destruct (first_err type_of _) as [x|] eqn:F1.
    + apply first_err_some in F1 as ([a y] & e1 & I & E1). apply filter_In in I as [I Ty]. exists a, y. split; auto. left.
      apply unreadable_type; eauto.
    + destruct (first_err (upgraded v) _) as [x|] eqn:F2; [|discriminate].
      apply first_err_some in F2 as ([a y] & e1 & I & E1). apply filter_In in I as [I O]. exists a, y. split; auto. right.
      apply term_outdated in O as (alias & Ht). exists alias. split; auto. unfold upgraded in E1.
      destruct (term_alias _ _ _ _ Ht) as (name & Ty). rewrite Ty in E1. cbn [rbind fst snd] in E1.
      apply (upgraded_fails v alias). eauto.
  - intros (a & x & I & [Un|(alias & Ht & Fa)]).
    + destruct (first_err type_of _) as [e|] eqn:F1; [eauto|]. exfalso. pose proof (unreadable_typed _ _ Un) as Ty.
      apply (unreadable_type _ _ Ty) in Un as (er & Er). eapply (first_err_no type_of _ (a, x)); eauto. apply filter_In; auto.
    + destruct (first_err type_of _) as [e|] eqn:F1; [eauto|]. destruct (first_err (upgraded v) _) as [e|] eqn:F2; [eauto|].
      exfalso. apply (upgraded_fails v alias) in Fa as (er & Er). eapply (first_err_no (upgraded v) _ (a, x) er F2).
      * apply filter_In. split; auto. apply term_outdated. eauto.
      * unfold upgraded. destruct (term_alias _ _ _ _ Ht) as (name & Ty). rewrite Ty. cbn [rbind fst snd]. exact Er.
Qed.

Lemma vocabulary_fails v s T ty : wf_state s -> In T (heap s) -> get_typed_nodes (tid T) s = (Ok ty, s) ->
  (exists er s', vocab_update v ty s = (Err er, s')) <-> vocabulary_fault v (erase T).
Proof.
  intros W HT Et. apply typed_read in Et; auto. subst ty. rewrite <- vocabulary_pass_fails.
  pose proof (vocab_class_step v s T W HT) as C. destruct (vocab_pass v (erase T)) as [e|x].
  - destruct C as (T' & s1 & E1 & _). split.
    + intros (er & s' & E). rewrite E1 in E. discriminate.
    + intros (er & E). discriminate.
  - destruct C as (s1 & E1). split; eauto.
Qed.

(** ** The order of the vocabularies *)

Section IMAGE.
  Variable f : list tree -> tree -> hdr.

  Fixpoint images (b : list tree) : list tree :=
    match b with [] => [] | y :: b' => edit f b' y :: images b' end.

  Definition image (c : ctx) : ctx := (images (fst c), edit f (fst c) (snd c)).

  Lemma visits_edit t : forall anc, visits (images anc) (edit f anc t) = map image (visits anc t).
  Proof.
    tree_induction t. intro anc. cbn [edit visits map]. f_equal. rewrite flat_map_concat_map, flat_map_concat_map, map_map, concat_map, map_map.
    f_equal. apply map_ext_in. intros k Hk. exact (IH k Hk (Node h ks :: anc)).
  Qed.

  Lemma edit_again g t : forall anc, edit g (images anc) (edit f anc t) = edit (fun b y => g (images b) (edit f b y)) anc t.
  Proof.
    tree_induction t. intro anc. cbn [edit]. f_equal. rewrite map_map. apply map_ext_in. intros k Hk.
    exact (IH k Hk (Node h ks :: anc)).
  Qed.

  Lemma edit_head b y : head (edit f b y) = f b y.
  Proof. destruct y. reflexivity. Qed.

  Lemma images_inside b : inside (images b) = inside b.
  Proof. destruct b; reflexivity. Qed.

  Hypothesis decls : forall b y, h_decl (f b y) = h_decl (head y).

  Lemma images_env b y : env_of (images b) (edit f b y) = env_of b y.
  Proof.
    unfold env_of. change (edit f b y :: images b) with (images (y :: b)). generalize (y :: b). clear b y.
    induction l as [|z l IH]; auto. cbn [images flat_map]. rewrite IH, edit_head, decls. reflexivity.
  Qed.
End IMAGE.

Definition uplift (v : vocab) (b : list tree) (y : tree) : hdr :=
  if outdated v (b, y) then match upgraded v (b, y) with Ok h => h | Err _ => head y end else head y.

Lemma uplift_same v b y : h_decl (uplift v b y) = h_decl (head y) /\ h_kind (uplift v b y) = h_kind (head y) /\
  has_attr TAG_XSI_TYPE (uplift v b y) = has_attr TAG_XSI_TYPE (head y).
Proof.
  unfold uplift. destruct (outdated v (b, y)) eqn:O; auto. destruct (upgraded v (b, y)) as [h|] eqn:U; auto.
  apply upgraded_shape in U as (a & n & A & S & U). pose proof (upgraded_with_same _ _ _ _ U) as (_ & K & D & _).
  split; [exact D|]. split; [exact K|]. unfold has_attr. rewrite (upgraded_type _ _ _ _ U). destruct (attr_get TAG_XSI_TYPE (h_attr (head y))); congruence.
Qed.

Lemma uplift_env v b y : env_of (images (uplift v) b) (edit (uplift v) b y) = env_of b y.
Proof. apply images_env. intros c z. apply uplift_same. Qed.

Lemma uplift_typed v c : typed (image (uplift v) c) = typed c.
Proof.
  destruct c as [b y]. unfold image, typed. cbn [fst snd]. rewrite images_inside. unfold is_elem.
  rewrite edit_head. destruct (uplift_same v b y) as (_ & K & A). rewrite A, K. reflexivity.
Qed.

Lemma uplift_other v c : outdated v c = false -> type_of (image (uplift v) c) = type_of c.
Proof.
  destruct c as [b y]. intro O. unfold image, type_of. cbn [fst snd]. rewrite edit_head, uplift_env. unfold uplift. rewrite O. reflexivity.
Qed.

Lemma uplift_type v c : split_char ":" (v_new_type v) = [v_new_type v] -> outdated v c = true ->
  type_of (image (uplift v) c) = type_of c \/
  exists alias, type_of (image (uplift v) c) = Ok (alias, v_new_type v, v_namespace v).
Proof.
  destruct c as [b y]. intros Sv O. destruct (upgraded v (b, y)) as [h|x] eqn:U.
  - right. destruct (proj1 (term_outdated v b y) O) as (alias & Ht). exists alias.
    destruct (term_alias _ _ _ _ Ht) as (name & Ty). destruct Ht as (_ & _ & value & nm & A & S & _ & E).
    unfold image, type_of. cbn [fst snd]. rewrite edit_head, uplift_env. unfold uplift. rewrite O, U.
    unfold upgraded in U. rewrite Ty in U. cbn [rbind fst snd] in U. rewrite (upgraded_type _ _ _ _ U).
    change (":" ++ v_new_type v) with (String ":" (v_new_type v)). rewrite split_char_app, Sv, E; auto.
    eapply split_char_part. rewrite S. left. reflexivity.
  - left. unfold image, type_of. cbn [fst snd]. rewrite edit_head, uplift_env. unfold uplift. rewrite O, U. reflexivity.
Qed.

Lemma apart_sym v w : apart v w -> apart w v.
Proof. unfold apart. intros [H|(A & B & C)]; [left; congruence|right]. repeat split; auto. intros n Hn Hv. exact (A n Hv Hn). Qed.

Lemma apart_outdated v w c : apart v w -> outdated v c = true -> outdated w c = false.
Proof.
  intros A O. destruct (outdated w c) eqn:O2; auto. exfalso. unfold outdated in *. apply andb_true_iff in O as [_ O], O2 as [_ O2].
  destruct (type_of c) as [[[a n] u]|]; [|discriminate]. apply andb_true_iff in O as [U1 N1], O2 as [U2 N2].
  apply String.eqb_eq in U1, U2. apply mem_str_In in N1, N2. destruct A as [A|(A & _)]; [congruence|]. exact (A n N1 N2).
Qed.

Lemma uplift_outdated v w c : split_char ":" (v_new_type v) = [v_new_type v] -> apart v w ->
  outdated w (image (uplift v) c) = outdated w c.
Proof.
  intros Sv A. unfold outdated. rewrite uplift_typed. destruct (outdated v c) eqn:O.
  - pose proof (apart_outdated v w c A O) as O2. destruct (uplift_type v c Sv O) as [T|(alias & T)]; rewrite T; auto.
    unfold outdated in O2. rewrite O2. destruct (typed c); auto. cbn [andb]. destruct (String.eqb _ _) eqn:U; auto. cbn [andb].
    apply String.eqb_eq in U. destruct (mem_str _ _) eqn:M; auto. apply mem_str_In in M. destruct A as [A|(_ & A & _)]; contradiction.
  - rewrite (uplift_other v c O). reflexivity.
Qed.

Lemma uplift_upgraded v w c : apart v w -> outdated w c = true -> upgraded w (image (uplift v) c) = upgraded w c.
Proof.
  intros A O. assert (Ov : outdated v c = false) by (apply (apart_outdated w v); auto; apply apart_sym; auto).
  unfold upgraded. rewrite (uplift_other v c Ov). destruct c as [b y]. cbn [image fst snd]. rewrite edit_head. unfold uplift. rewrite Ov. reflexivity.
Qed.

Lemma filter_image (p q : ctx -> bool) f l : (forall c, p (image f c) = q c) -> filter p (map (image f) l) = map (image f) (filter q l).
Proof. intro H. induction l as [|c l IH]; auto. simpl. rewrite H. destruct (q c); simpl; rewrite IH; reflexivity. Qed.

Lemma first_err_map {A B} (F : ctx -> res A) (G : ctx -> res B) (m : ctx -> ctx) l :
  (forall c, In c l -> match F (m c), G c with Ok _, Ok _ => True | Err x, Err y => x = y | _, _ => False end) ->
  first_err F (map m l) = first_err G l.
Proof.
  induction l as [|c l IH]; intro H; auto. simpl. pose proof (H c (or_introl eq_refl)) as Hc.
  destruct (F (m c)), (G c); try contradiction; [apply IH; intros; apply H; right; auto|congruence].
Qed.

Lemma upgraded_error v l e : first_err (upgraded v) (filter (outdated v) l) = Some e -> e = TypeError.
Proof.
  induction l as [|[b y] l IH]; simpl; [discriminate|]. destruct (outdated v (b, y)) eqn:O; auto. cbn [first_err].
  destruct (upgraded v (b, y)) as [h|x] eqn:U; auto. intro H. injection H as <-.
  destruct (proj1 (term_outdated v b y) O) as (alias & Ht). destruct (term_alias _ _ _ _ Ht) as (name & Ty).
  unfold upgraded in U. rewrite Ty in U. cbn [rbind fst snd] in U. unfold upgraded_with, set_if_present in U.
  destruct (has_attr _ (head y)); destruct (v_reference v); cbn [rbind] in U; try congruence;
  destruct (has_attr _ (head y)); destruct (v_name v); cbn [rbind] in U; try congruence; discriminate.
Qed.

(** Both classes one after the other. *)
Definition both (v w : vocab) (t : tree) : res tree :=
  match first_err type_of (filter typed (visits [] t)) with
  | Some e => Err e
  | None =>
      match first_err (upgraded v) (filter (outdated v) (visits [] t)), first_err (upgraded w) (filter (outdated w) (visits [] t)) with
      | None, None => Ok (edit (fun b y => if outdated w (b, y) then uplift w b y else uplift v b y) [] t)
      | _, _ => Err TypeError
      end
  end.

Lemma both_passes v w t : split_char ":" (v_new_type v) = [v_new_type v] -> apart v w ->
  rbind (vocab_pass v t) (vocab_pass w) = both v w t.
Proof.
  intros Sv A. unfold both. unfold vocab_pass at 1. destruct (first_err type_of _) as [e|] eqn:F1; auto.
  destruct (first_err (upgraded v) _) as [e|] eqn:F2; cbn [rbind].
  { apply upgraded_error in F2. subst e. reflexivity. }
  change (vocab_pass w (edit (uplift v) [] t) = match first_err (upgraded w) (filter (outdated w) (visits [] t)) with
    | None => Ok (edit (fun b y => if outdated w (b, y) then uplift w b y else uplift v b y) [] t) | Some _ => Err TypeError end).
  unfold vocab_pass.
  pose proof (visits_edit (uplift v) t []) as V. cbn [images] in V. rewrite V.
  rewrite (filter_image typed typed) by (intro; apply uplift_typed).
  rewrite (first_err_map type_of type_of (image (uplift v))).
  2:{ intros c Hc. destruct (outdated v c) eqn:O.
      - destruct (uplift_type v c Sv O) as [T|(alias & T)]; rewrite T.
        + destruct (type_of c); auto.
        + unfold outdated in O. apply andb_true_iff in O as [_ O]. destruct (type_of c); [exact I|discriminate].
      - rewrite (uplift_other v c O). destruct (type_of c); auto. }
  rewrite F1. rewrite (filter_image (outdated w) (outdated w)) by (intro; apply uplift_outdated; auto).
  rewrite (first_err_map (upgraded w) (upgraded w) (image (uplift v))).
  2:{ intros c Hc. apply filter_In in Hc as [_ Hc]. rewrite (uplift_upgraded v w c A Hc). destruct (upgraded w c); auto. }
  destruct (first_err (upgraded w) _) as [e|] eqn:F3.
  { apply upgraded_error in F3. subst e. reflexivity. }
  f_equal. pose proof (edit_again (uplift v) (fun anc x => if outdated w (anc, x) then match upgraded w (anc, x) with Ok h => h | Err _ => head x end else head x) t []) as E.
  cbn [images] in E. rewrite E. apply edit_ext. intros b y _.
  pose proof (uplift_outdated v w (b, y) Sv A) as O. unfold image in O. cbn [fst snd] in O. rewrite O.
  destruct (outdated w (b, y)) eqn:Ow; [|apply edit_head].
  pose proof (uplift_upgraded v w (b, y) A Ow) as U. unfold image in U. cbn [fst snd] in U. rewrite U.
  unfold uplift at 1. try rewrite Ow. destruct (upgraded w (b, y)) eqn:Uw; unfold uplift; rewrite ?Ow, ?Uw; auto. rewrite edit_head. unfold uplift. rewrite (apart_outdated w v (b, y)); auto. apply apart_sym; auto.
Qed.

Lemma both_swap v w t : split_char ":" (v_new_type v) = [v_new_type v] -> split_char ":" (v_new_type w) = [v_new_type w] -> apart v w ->
  rbind (vocab_pass v t) (vocab_pass w) = rbind (vocab_pass w t) (vocab_pass v).
Proof.
  intros Sv Sw A. rewrite both_passes, both_passes by auto using apart_sym. unfold both.
  destruct (first_err type_of _); auto. destruct (first_err (upgraded v) _), (first_err (upgraded w) _); auto.
  f_equal. apply edit_ext. intros b y _. destruct (outdated w (b, y)) eqn:Ow.
  - rewrite (apart_outdated w v (b, y)); auto using apart_sym.
  - destruct (outdated v (b, y)) eqn:Ov; auto. unfold uplift. rewrite Ow, Ov. reflexivity.
Qed.

Lemma unrelated_swap v w l : unrelated (v :: w :: l) -> unrelated (w :: v :: l).
Proof.
  intros [H F]. split.
  - intros x Hx. apply H. simpl in *. tauto.
  - inversion F as [|? ? F1 F2]; subst. inversion F2 as [|? ? F3 F4]; subst. inversion F1; subst.
    constructor; [constructor; auto using apart_sym|]. constructor; auto.
Qed.

Lemma unrelated_tail v l : unrelated (v :: l) -> unrelated l.
Proof. intros [H F]. split; [intros; apply H; right; auto|]. inversion F; auto. Qed.

Lemma unrelated_permutation l l' : Permutation l l' -> unrelated l -> unrelated l'.
Proof.
  intro P. induction P; intro U; auto.
  - pose proof (IHP (unrelated_tail _ _ U)) as [H1 F1]. destruct U as [H F]. split.
    + intros y [<-|Hy]; [apply H; left; auto|auto].
    + constructor; auto. inversion F; subst. eapply Permutation_Forall; eauto.
  - apply unrelated_swap. exact U.
Qed.

Lemma vocabularies_permute l l' : Permutation l l' -> unrelated l -> forall t, passes vocab_pass l t = passes vocab_pass l' t.
Proof.
  intro P. induction P; intros U t; auto.
  - rewrite !passes_cons. destruct (vocab_pass x t); cbn [rbind]; auto. apply IHP. exact (unrelated_tail _ _ U).
  - assert (E : rbind (vocab_pass x t) (vocab_pass y) = rbind (vocab_pass y t) (vocab_pass x)).
    { destruct U as [H F]. apply both_swap; [apply H; simpl; auto|apply H; simpl; auto|]. inversion F as [|? ? F1 F2]; subst. inversion F1; subst.
      apply apart_sym. auto. }
    rewrite !passes_cons. 
    transitivity (rbind (rbind (vocab_pass y t) (vocab_pass x)) (passes vocab_pass l)).
    + destruct (vocab_pass y t); cbn [rbind]; auto. rewrite passes_cons. reflexivity.
    + rewrite <- E. destruct (vocab_pass x t); cbn [rbind]; auto. rewrite passes_cons. reflexivity.
  - rewrite IHP1 by auto. apply IHP2. eapply unrelated_permutation; eauto.
Qed.

Lemma vocabularies_order u u' s T : Permutation (c_vocabs u) (c_vocabs u') -> unrelated (c_vocabs u) -> wf_state s -> In T (heap s) ->
  (exists s1 s2 e, update_vocabs u (tid T) s = (Ok tt, s1) /\ update_vocabs u' (tid T) s = (Ok tt, s2) /\
     becomes s T s1 e /\ becomes s T s2 e) \/
  (exists s1 s2 er, update_vocabs u (tid T) s = (Err er, s1) /\ update_vocabs u' (tid T) s = (Err er, s2)).
Proof.
  intros P U W HT. pose proof (vocabularies_permute _ _ P U (erase T)) as E.
  destruct (passes vocab_pass (c_vocabs u) (erase T)) as [e|er] eqn:E1.
  - left. symmetry in E. destruct (computes_becomes _ _ s T e (update_vocabs_computes u) W HT E1) as (s1 & R1 & B1).
    destruct (computes_becomes _ _ s T e (update_vocabs_computes u') W HT E) as (s2 & R2 & B2). exists s1, s2, e. auto.
  - right. symmetry in E. pose proof (update_vocabs_computes u s T W HT) as C1. pose proof (update_vocabs_computes u' s T W HT) as C2.
    rewrite E1 in C1. rewrite E in C2. destruct C1 as (s1 & C1), C2 as (s2 & C2). exists s1, s2, er. auto.
Qed.

(** ** Translations *)

Definition take (p : ctx -> bool) (tag : option qname) (copy : bool) (over : list (qname * string)) (t : tree) : res tree :=
  match filter p (visits [] t) with
  | [] => Err IndexError
  | c :: _ =>
      Ok (Node (Hdr 0 KElem (match tag with Some q => q | None => h_tag (head t) end) []
                  (translate_attributes copy over (head (snd c))) (h_text (head (snd c))) false None) [])
  end.

Lemma take_rewrites o ns xv lv tag copy over T p :
  xcompile ns xv = Some lv -> forallb alt_abs lv = false -> existsb alt_abs lv = false ->
  rewrites (translate_node o ns (TDefault xv tag copy over)) (take (match_path lv) tag copy over) T p.
Proof.
  intros C A1 A2 F n0 g0 m s a x Hx _ K Rx.
  destruct (tk_at _ _ _ _ _ _ K a x Hx) as (a' & (X & HX & Hx') & _ & _). rewrite Rx in Hx'.
  pose proof (tk_wf _ _ _ _ _ _ K) as W.
  assert (V : filter (match_path lv) (visits [] (erase x)) = map econtent (select (match_path lv) x)).
  { symmetry. rewrite (select_erase _ (pathf lv)) by apply match_path_natural. reflexivity. }
  unfold take. rewrite V. simpl translate_node. unfold translate_default.
  rewrite !bind_run. rewrite (get_hdr_in s X a' x) by auto. rewrite bind_run.
  rewrite (xpath_read s X a' x xv ns lv) by auto. unfold select_ids.
  destruct (select (match_path lv) x) as [|[b y] l] eqn:Es; simpl map; cbv iota.
  - exists s. reflexivity.
  - assert (Hy : In (b, y) (visits [] x)).
    { assert (Q : In (b, y) (select (match_path lv) x)) by (rewrite Es; left; auto).
      apply filter_In in Q. tauto. }
    assert (Hy' : In (b ++ a', y)%list (visits [] X)).
    { apply (visits_trans X [] a' x); auto. rewrite (visits_anc x a'). apply in_map_iff. exists (b, y). auto. }
    cbn [map snd]. rewrite bind_run, (get_hdr_in s X (b ++ a')%list y) by auto.
    eexists. eexists. split; [reflexivity|]. split.
    + constructor; simpl; auto.
      * constructor; [intros []|constructor].
      * intros i [<-|[]]. lia.
    + simpl. rewrite !erase_head. destruct tag; reflexivity.
Qed.

Lemma override_get hv over : NoDup (map fst over) -> forall k acc,
  attr_get k (fold_left (fun acc kv => if has_attr (fst kv) hv then attr_set (fst kv) (snd kv) acc else acc) over acc) =
  match attr_of k hv, attr_get k over with
  | Some _, Some w => Some w
  | _, _ => attr_get k acc
  end.
Proof.
  unfold attr_of. induction over as [|[k' v'] l IH]; intros N k acc.
  - cbn [fold_left attr_get]. destruct (attr_get k (h_attr hv)); reflexivity.
  - cbn [map fst] in N. inversion N as [|? ? N1 N2]; subst. cbn [fold_left fst snd attr_get]. rewrite IH by auto.
    assert (L : qn_eqb k k' = true -> attr_get k l = None).
    { intro E. apply qn_eqb_eq in E. subst k'. destruct (attr_get k l) eqn:G; auto. exfalso. apply N1.
      clear - G. induction l as [|[a b] l IH]; [discriminate|]. simpl in *. destruct (qn_eqb k a) eqn:E; auto. left. symmetry. apply qn_eqb_eq. exact E. }
    unfold has_attr. destruct (qn_eqb k k') eqn:E.
    + rewrite (L eq_refl). apply qn_eqb_eq in E. subst k'. destruct (attr_get k (h_attr hv)); auto.
      rewrite attr_get_set, qn_eqb_refl. reflexivity.
    + destruct (attr_get k' (h_attr hv)); auto. rewrite attr_get_set, E. reflexivity.
Qed.

Lemma new_attributes copy over hv k : NoDup (map fst over) -> NoDup (map fst (h_attr hv)) ->
  attr_get k (translate_attributes copy over hv) = new_attribute copy over hv k.
Proof.
  intros No Nh. unfold translate_attributes, new_attribute. rewrite override_get by auto.
  assert (E : attr_get k (if copy then attr_update [] (h_attr hv) else []) = if copy then attr_of k hv else None).
  { destruct copy; auto. rewrite attr_get_update by auto. unfold attr_of. destruct (attr_get k (h_attr hv)); auto. }
  rewrite E. destruct (attr_of k hv); [|destruct copy; auto]. destruct (attr_get k over); auto.
Qed.

Lemma distinct_erase t : distinct_attributes t -> distinct_attributes (erase t).
Proof.
  intros D x Hx. rewrite <- (nodes_visits (erase t) []) in Hx. apply in_map_iff in Hx as ([a y] & <- & Hy). exact (distinct_at t a y D Hy).
Qed.

Lemma visits_in_nodes t a x : In (a, x) (visits [] t) -> In x (nodes t).
Proof. intro H. rewrite <- (nodes_visits t []). apply in_map_iff. exists (a, x). auto. Qed.

Lemma nodes_within t x y : In x (nodes t) -> In y (nodes x) -> In y (nodes t).
Proof.
  tree_induction t. intros [<-|Hx] Hy; auto. apply in_flat_map in Hx as (k & Hk & Hx). right. apply in_flat_map. exists k. split; auto.
Qed.

Lemma relative_alts (l : list ralt) : (forall a, In a l -> alt_abs a = false) -> existsb alt_abs l = false.
Proof.
  intro H. destruct (existsb alt_abs l) eqn:E; auto. apply existsb_exists in E as (a & I & E). rewrite (H a I) in E. discriminate.
Qed.

Lemma relative_some (l : list ralt) : l <> [] -> (forall a, In a l -> alt_abs a = false) -> forallb alt_abs l = false.
Proof. intros N H. destruct l as [|a l]; [congruence|]. cbn [forallb]. rewrite (H a (or_introl eq_refl)). reflexivity. Qed.

(** Rewriting, whether or not the root is among the nodes selected: for a root
    the new node is made and dropped. *)

Lemma subst_below F F' : (forall a x, a <> [] -> F a x = F' a x) -> forall t anc, subst_nodes F anc t = subst_nodes F' anc t.
Proof.
  intros H t. tree_induction t. intro anc. cbn [subst_nodes]. f_equal. apply flat_map_ext_in. intros k Hk.
  rewrite <- H by discriminate. destruct (F (Node h ks :: anc) k); auto. rewrite IH; auto.
Qed.

Definition inside (a : list tree) : bool := match a with [] => false | _ => true end.

Lemma visits_inside t : forall anc a x, anc <> [] -> In (a, x) (visits anc t) -> inside a = true.
Proof.
  tree_induction t. intros anc a x N H. cbn [visits] in H. destruct H as [H|H].
  - injection H as <- _. destruct anc; [congruence|reflexivity].
  - apply in_flat_map in H as (k & Hk & H). apply (IH k Hk (Node h ks :: anc) a x); [discriminate|exact H].
Qed.

Lemma filter_inside (p : ctx -> bool) T : p ([], T) = true ->
  filter p (visits [] T) = ([], T) :: filter (fun c => p c && inside (fst c)) (visits [] T).
Proof.
  intro P. destruct T as [h ks]. cbn [visits filter]. rewrite P. cbn [fst inside andb]. rewrite ?andb_false_r. f_equal.
  apply filter_ext_in. intros [a x] H. apply in_flat_map in H as (k & Hk & H). cbn [fst]. rewrite (visits_inside k [Node h ks] a x) by (auto; discriminate).
  rewrite andb_true_r. reflexivity.
Qed.

Lemma rewrite_any s0 T p q f G : wf_state s0 -> In T (heap s0) -> rewrites f G T p -> natural p q ->
  match rewrite_all q G (erase T) with
  | Err e => exists s', for_each (select_ids p T) f s0 = (Err e, s')
  | Ok e => exists T' s', for_each (select_ids p T) f s0 = (Ok tt, s') /\ steps T s0 T' s' /\ gen s' = gen s0 /\ tid T' = tid T /\ erase T' = e
  end.
Proof.
  intros W HT R NP. destruct (p ([], T)) eqn:P; [|apply rewrite_computes; auto].
  pose proof (NP ([], T)) as Q. rewrite P in Q. cbn [fst snd map] in Q. symmetry in Q.
  assert (Es : select_ids p T = tid T :: select_ids (fun c => p c && inside (fst c)) T).
  { unfold select_ids, select. rewrite (filter_inside p T P). reflexivity. }
  rewrite Es. unfold rewrite_all. pose proof (filter_inside (fun c => q (fst c) (snd c)) (erase T) Q) as FI. unfold ctx in FI. rewrite FI. clear FI. cbn [first_err snd].
  pose proof (R _ _ _ (fun _ => None) s0 [] T (visits_self [] T) P (tracks_init s0 T W HT) (rwm_id _ T (fun i _ => eq_refl))) as Rf.
  cbn [for_each]. rewrite bind_run. destruct (G (erase T)) as [e0|e0].
  - destruct Rf as (new & s1 & Ef & B & _). destruct B as [B1 B2 B3 B4 B5].
    assert (W1 : wf_state s1).
    { destruct W as [A C]. split; rewrite B1; auto. intros i Hi. specialize (C i Hi). lia. }
    assert (HT1 : In T (heap s1)) by (rewrite B1; auto).
    rewrite Ef. unfold supplant. rewrite bind_run, (deref_in s1 T [] T W1 HT1 (visits_self [] T)). cbn [parent fst]. unfold ret at 1.
    pose proof (rewrite_computes s1 T (fun c => p c && inside (fst c)) (fun a x => q a x && inside a) f G W1 HT1) as RC.
    assert (R' : rewrites f G T (fun c => p c && inside (fst c))).
    { intros F n0 g0 m s a x Hx Px K Rx. exact (R F n0 g0 m s a x Hx (proj1 (andb_prop _ _ Px)) K Rx). }
    assert (N' : natural (fun c => p c && inside (fst c)) (fun a x => q a x && inside a)).
    { intros [a x]. cbn [fst snd]. rewrite (NP (a, x)). cbn [fst snd]. destruct a; reflexivity. }
    specialize (RC R' N'). cbn [fst inside] in RC. rewrite andb_false_r in RC. specialize (RC eq_refl).
    unfold rewrite_all in RC. destruct (first_err _ _) as [er|]; [exact RC|].
    destruct RC as (T' & s' & E & S & Gs & Et & Ee). exists T', s'. split; [exact E|]. split.
    { destruct S as [S1 S2 S3 S4 S5]. split; auto; [rewrite <- B1; exact S3|lia]. }
    split; [congruence|]. split; [exact Et|]. rewrite Ee. apply subst_below. intros a x Ha. destruct a; [congruence|]. cbn [inside]. rewrite andb_true_r. reflexivity.
  - destruct Rf as (s1 & Ef). exists s1. rewrite Ef. reflexivity.
Qed.

Lemma translated_any o ns f xv tag copy over l lv s T : wf_state s -> In T (heap s) -> distinct_attributes T -> NoDup (map fst over) ->
  t_kind f = TDefault xv tag copy over -> usable ns (t_xnode f) l ->
  xcompile ns xv = Some lv -> lv <> [] -> (forall a, In a lv -> alt_abs a = false) ->
  ((forall anc x, In (anc, x) (visits [] (erase T)) -> chosen l anc x = true ->
      exists b y, In (b, y) (visits [] x) /\ chosen lv b y = true) ->
   exists s' e, translate o ns f (tid T) s = (Ok tt, s') /\ becomes s T s' e /\
     supplanted (chosen l) (translation lv tag copy over) [] (erase T) e) /\
  (forall anc x, In (anc, x) (visits [] (erase T)) -> chosen l anc x = true ->
      (forall b y, In (b, y) (visits [] x) -> chosen lv b y = false) ->
   exists s', translate o ns f (tid T) s = (Err IndexError, s')).
Proof.
  intros W HT DA No K U C Ne Re. apply usable_pure in U as [Cn P].
  set (G := take (match_path lv) tag copy over).
  pose proof (rewrite_any s T (match_path l) (pathf l) (translate_node o ns (t_kind f)) G W HT) as RC.
  rewrite K in RC. specialize (RC (take_rewrites o ns xv lv tag copy over T (match_path l) C (relative_some lv Ne Re) (relative_alts lv Re))).
  specialize (RC (match_path_natural l)).
  assert (Run : forall r, translate o ns f r = (nodes <- xpath r (t_xnode f) ns ;; for_each nodes (translate_node o ns (TDefault xv tag copy over)))).
  { intro r. unfold translate. rewrite K. reflexivity. }
  assert (RunT : translate o ns f (tid T) s = for_each (select_ids (match_path l) T) (translate_node o ns (TDefault xv tag copy over)) s).
  { rewrite Run, bind_run, (xpath_root s T _ _ l) by auto. reflexivity. }
  split.
  - intro Hv. assert (Vals : forall c, In c (filter (fun c => pathf l (fst c) (snd c)) (visits [] (erase T))) -> exists e, G (snd c) = Ok e).
    { intros [a x] Hc. apply filter_In in Hc as [Hx Px]. destruct (Hv a x Hx Px) as (b & y & Hy & Cy). unfold G, take. cbn [snd].
      destruct (filter (match_path lv) (visits [] x)) eqn:Ef; eauto.
      exfalso. assert (Q : In (b, y) (filter (match_path lv) (visits [] x))) by (apply filter_In; auto). rewrite Ef in Q. destruct Q. }
    unfold rewrite_all in RC. destruct (first_err _ _) as [er|] eqn:Fe.
    { exfalso. apply first_err_some in Fe as (c & er' & Hc & Ec). destruct (Vals c Hc) as (e & Ee). congruence. }
    destruct RC as (T' & s' & E & [S1 S2 S3 _ _] & _ & Rt & X). exists s', (erase T'). split; [rewrite RunT; exact E|]. split.
    { split; auto. split; [exists T'; auto|auto]. }
    rewrite X. apply subst_supplanted.
    + intros a x Hx Px. assert (Hx' : In (a, x) (visits [] (erase T))) by (apply in_tl_visits; auto).
      unfold pathf, chosen in *. rewrite Px. destruct (Vals (a, x)) as (e & Ee).
      { apply filter_In. auto. }
      cbn [snd] in Ee. rewrite Ee. exists [e]. split; auto. unfold G, take in Ee.
      destruct (filter (match_path lv) (visits [] x)) as [|[b y] others] eqn:Ef; [discriminate|]. injection Ee as <-.
      exists b, y, others. eexists. split.
      { transitivity (filter (match_path lv) (visits [] x)); [apply filter_ext; intros [? ?]; reflexivity|exact Ef]. }
      split; [reflexivity|]. cbn [h_kind h_tag h_decl h_tail h_text snd]. repeat (split; [reflexivity|]).
      intro k. unfold attr_of at 1. cbn [h_attr]. apply new_attributes; auto.
      assert (Hy : In (b, y) (visits [] x)).
      { assert (Q : In (b, y) (filter (match_path lv) (visits [] x))) by (rewrite Ef; left; auto). apply filter_In in Q. tauto. }
      apply (distinct_erase T DA). exact (nodes_within _ x y (visits_in_nodes _ _ _ Hx') (visits_in_nodes _ _ _ Hy)).
    + intros a x Px. unfold pathf, chosen in *. rewrite Px. reflexivity.
  - intros a x Hx Px Nv. unfold rewrite_all in RC.
    assert (Gx : G x = Err IndexError).
    { unfold G, take. destruct (filter (match_path lv) (visits [] x)) as [|[b y] r] eqn:Ef; auto.
      assert (Q : In (b, y) (filter (match_path lv) (visits [] x))) by (rewrite Ef; left; auto). apply filter_In in Q as [Q1 Q2].
      specialize (Nv b y Q1). unfold chosen in Nv. congruence. }
    destruct (first_err _ _) as [er|] eqn:Fe.
    + destruct RC as (s' & E). exists s'. rewrite RunT, E. f_equal. f_equal.
      clear - Fe. revert Fe. generalize (filter (fun c => pathf l (fst c) (snd c)) (visits [] (erase T))). intro L.
      induction L as [|c L IH]; simpl; [discriminate|]. destruct (G (snd c)) as [e|e1] eqn:Ge; auto.
      intro H. injection H as <-. unfold G, take in Ge. destruct (filter _ _); [congruence|discriminate].
    + exfalso. eapply (first_err_no (fun c : ctx => G (snd c)) _ (a, x)); eauto. apply filter_In. auto.
Qed.

(** ** Disallowed fields *)

Lemma found_any o d ns l s T typed : wf_state s -> In T (heap s) ->
  d_ctx_types d = [] -> d_interrogate d = IAll -> usable ns (d_xpath d) l ->
  dfind o d ns (tid T) typed s =
  (Ok (map (fun c => tid (snd c)) (filter (fun c => chosen l (fst c) (snd c)) (visits [] T))), s).
Proof.
  intros W HT D I U. apply usable_pure in U as [C P]. unfold dfind, get_contexts. rewrite D, bind_run. unfold ret at 1. cbn [find_in].
  rewrite bind_run, (xpath_root s T _ _ l) by auto. rewrite bind_run, I. cbn [interrogate]. unfold ret. rewrite bind_run, app_nil_r.
  unfold select_ids, select. rewrite (filter_ext (match_path l) (fun c => chosen l (fst c) (snd c))); [reflexivity|]. intros [a x]. reflexivity.
Qed.

Lemma find_all o d ns l s T cs : d_interrogate d = IAll -> wf_state s -> In T (heap s) ->
  xcompile ns (d_xpath d) = Some l -> forallb alt_abs l = false -> existsb alt_abs l = false ->
  incl cs (visits [] T) ->
  find_in o d ns (keys cs) s =
  (Ok (flat_map (fun c => map (fun e => tid (snd e)) (filter (fun e => chosen l (fst e) (snd e)) (visits [] (snd c)))) cs), s).
Proof.
  intros I W HT C A1 A2. induction cs as [|[b x] cs IH]; intro HI; simpl; auto.
  assert (Hx : In (b, x) (visits [] T)) by (apply HI; left; auto).
  rewrite bind_run, (xpath_read s T b x _ _ l) by auto.
  rewrite bind_run, I. cbn [interrogate]. unfold ret at 1.
  rewrite bind_run, IH by (intros c Hc; apply HI; right; auto). unfold ret.
  unfold select_ids, select. rewrite (filter_ext (match_path l) (fun c => chosen l (fst c) (snd c))); [reflexivity|]. intros [? ?]. reflexivity.
Qed.

Lemma contexts_read types s T : wf_state s -> In T (heap s) ->
  filter_m (fun i => ti <- get_type_info i ;; n <- get_ext_namespace i ;;
              ret (ostr_eqb (dict_get (snd ti) types) (Some n))) (select_ids typed T) s =
  match first_err type_of (filter typed (visits [] T)) with
  | Some e => (Err e, s)
  | None => (Ok (keys (filter (of_context types) (visits [] T))), s)
  end.
Proof.
  intros W HT. change (select_ids typed T) with (keys (filter typed (visits [] T))).
  rewrite (filter_m_err _ type_of (of_context types)).
  - destruct (first_err _ _); auto. rewrite filter_filter. do 3 f_equal.
    apply filter_ext. intro c. unfold of_context. destruct (typed c); reflexivity.
  - intros [a x] Hc. apply filter_In in Hc as [Hx Ht]. simpl snd.
    unfold get_type_info, get_ext_namespace. rewrite !bind_run, (get_hdr_in s T a x) by auto.
    unfold liftr. unfold of_context. rewrite Ht, type_of_parts. simpl snd.
    destruct (type_info (head x)) as [[al nm]|e]; simpl; auto.
    rewrite !bind_run, (deref_in s T a x) by auto.
    destruct (ext_namespace (a, x)) as [n|e]; simpl; auto.
Qed.

Lemma found_in_types o d ns l s T : wf_state s -> In T (heap s) ->
  d_ctx_types d <> [] -> d_interrogate d = IAll ->
  xcompile ns (d_xpath d) = Some l -> l <> [] -> (forall a, In a l -> alt_abs a = false) ->
  ((forall anc x, In (anc, x) (visits [] T) -> ~ unreadable anc x) ->
   dfind o d ns (tid T) None s =
   (Ok (flat_map (fun c => map (fun e => tid (snd e)) (filter (fun e => chosen l (fst e) (snd e)) (visits [] (snd c))))
          (filter (of_context (d_ctx_types d)) (visits [] T))), s)) /\
  (forall anc x, In (anc, x) (visits [] T) -> unreadable anc x -> exists er, dfind o d ns (tid T) None s = (Err er, s)).
Proof.
  intros W HT D I C Ne Re.
  assert (E : dfind o d ns (tid T) None s =
     match first_err type_of (filter typed (visits [] T)) with
     | Some e => (Err e, s)
     | None => (Ok (flat_map (fun c => map (fun e => tid (snd e)) (filter (fun e => chosen l (fst e) (snd e)) (visits [] (snd c))))
          (filter (of_context (d_ctx_types d)) (visits [] T))), s)
     end).
  { unfold dfind, get_contexts. destruct (d_ctx_types d) as [|ty tys] eqn:Dt; [congruence|].
    rewrite bind_run, bind_run, (get_typed_nodes_read s T), contexts_read by auto.
    destruct (first_err type_of _) as [e|]; auto. apply (find_all o d ns l s T); auto.
    - apply relative_some; auto.
    - apply relative_alts; auto.
    - intros c Hc. apply filter_In in Hc. tauto. }
  rewrite E. split.
  - intro N. destruct (first_err type_of _) as [e|] eqn:Fe; auto. exfalso. apply first_err_some in Fe as ([a x] & er & Hc & Er).
    apply filter_In in Hc as [Hx Ty]. apply (N a x Hx). apply unreadable_type; eauto.
  - intros a x Hx Un. pose proof (unreadable_typed _ _ Un) as Ty. apply (unreadable_type _ _ Ty) in Un as (er & Er).
    destruct (first_err type_of _) as [e|] eqn:Fe; [eauto|]. exfalso. eapply (first_err_no type_of _ (a, x)); eauto. apply filter_In; auto.
Qed.

(** ** Namespaces *)

Lemma node_by_node_refl (R : list tree -> tree -> hdr -> Prop) t : forall anc, (forall a x, In (a, x) (visits anc t) -> R a x (head x)) ->
  node_by_node R anc t t.
Proof.
  tree_induction t. intros anc H. constructor; [apply (H anc (Node h ks)), visits_self|].
  assert (X : forall l, incl l ks -> Forall2 (node_by_node R (Node h ks :: anc)) l l).
  { induction l as [|k l IHl]; intro I; constructor.
    - apply IH; [apply I; left; auto|]. intros a x Hx. apply H. right. apply in_flat_map. exists k. split; auto. apply I; left; auto.
    - apply IHl. intros z Hz. apply I. right; auto. }
  apply X, incl_refl.
Qed.

Lemma env_get_kept p drop l : forall sn, existsb (ostr_eqb p) sn = false ->
  env_get p (filter (fun q => negb (mem_str (snd q) drop)) (env_items sn l)) =
  match env_get p l with Some ns => if mem_str ns drop then None else Some ns | None => None end.
Proof.
  assert (Seen : forall l sn, existsb (ostr_eqb p) sn = true -> env_get p (filter (fun q => negb (mem_str (snd q) drop)) (env_items sn l)) = None).
  { clear l. induction l as [|[q u] l IH]; intros sn H; auto. cbn [env_items]. destruct (existsb (ostr_eqb q) sn) eqn:E; auto.
    cbn [filter snd]. assert (Q : ostr_eqb p q = false).
    { destruct (ostr_eqb p q) eqn:Q; auto. apply ostr_eqb_eq in Q. subst. congruence. }
    assert (R : env_get p (filter (fun q => negb (mem_str (snd q) drop)) (env_items (q :: sn) l)) = None).
    { apply IH. cbn [existsb]. rewrite H. apply orb_true_r. }
    destruct (negb _); auto. cbn [env_get]. rewrite Q. exact R. }
  induction l as [|[q u] l IH]; intros sn H; auto. cbn [env_items env_get]. destruct (existsb (ostr_eqb q) sn) eqn:E.
  - rewrite IH by auto. destruct (ostr_eqb p q) eqn:Q; auto. apply ostr_eqb_eq in Q. subst. congruence.
  - cbn [filter snd]. destruct (ostr_eqb p q) eqn:Q.
    + destruct (mem_str u drop); cbn [negb].
      * apply Seen. cbn [existsb]. rewrite Q. reflexivity.
      * cbn [env_get]. rewrite Q. reflexivity.
    + assert (R := IH (q :: sn)). cbn [existsb] in R. rewrite Q, H in R. specialize (R eq_refl).
      destruct (negb _); [cbn [env_get]; rewrite Q|]; exact R.
Qed.

Lemma rebuilt_without drop m b y : is_elem y = true -> moves m y = true -> NoDup (map fst (h_attr (head y))) ->
  moved_without drop m b y (rebuilt drop m b y).
Proof.
  intros El Mv N. unfold moved_without. pose proof (moves_successor m y El) as S. rewrite Mv in S.
  destruct (successor m y) as [new|] eqn:Su; [|discriminate]. split; [reflexivity|]. split.
  - unfold rebuilt. cbn [h_tag]. unfold successor in Su. rewrite El in Su. destruct (q_ns (h_tag (head y))) as [ns|]; [|discriminate].
    unfold new_ns, lookup. rewrite Su. reflexivity.
  - split; [|split; [|split; reflexivity]].
    + intro p. unfold rebuilt. cbn [h_decl]. rewrite (env_get_map p (new_ns m)), env_get_kept by reflexivity.
      destruct (env_get p (env_of b y)) as [ns|]; auto. destruct (mem_str ns drop); reflexivity.
    + intro k. unfold attr_of, rebuilt. cbn [h_attr]. rewrite attr_get_update by exact N. cbn [attr_get].
      destruct (attr_get k _); reflexivity.
Qed.

Lemma ns_node_by_node drop m t : forall anc, is_elem t = true -> (forall x, In x (nodes t) -> NoDup (map fst (h_attr (head x)))) ->
  node_by_node (fun b y h' => among_elements b -> moved_without drop m b y h') anc t (ns_pass drop m anc t).
Proof.
  tree_induction t. intros anc El N. cbn [ns_pass]. constructor.
  - intros _. destruct (moves m (Node h ks)) eqn:Mv.
    + apply rebuilt_without; auto. apply N. left. reflexivity.
    + unfold moved_without. pose proof (moves_successor m (Node h ks) El) as S. rewrite Mv in S. destruct (successor m _); [discriminate|reflexivity].
  - assert (X : forall l, incl l ks -> Forall2 (node_by_node (fun b y h' => among_elements b -> moved_without drop m b y h') (Node h ks :: anc)) l
       (map (fun k => if is_elem k then ns_pass drop m (Node h ks :: anc) k else k) l)).
    { induction l as [|k l IHl]; intro I; simpl; constructor.
      - assert (Ik : In k ks) by (apply I; left; auto). destruct (is_elem k) eqn:Ek.
        + apply IH; auto. intros x Hx. apply N. right. apply in_flat_map. exists k. auto.
        + apply node_by_node_refl. intros a x Hx Am. destruct k as [hk kk]. destruct Hx as [Hx|Hx].
          * injection Hx as <- <-. unfold moved_without, successor. rewrite Ek. reflexivity.
          * exfalso. apply in_flat_map in Hx as (z & Hz & Hx). rewrite visits_anc in Hx. apply in_map_iff in Hx as ([c y'] & Hx & _). injection Hx as <- <-.
            rewrite Am in Ek; [discriminate|]. apply in_or_app. right. left. reflexivity.
      - apply IHl. intros z Hz. apply I. right; auto. }
    apply X, incl_refl.
Qed.

Lemma stuck_iff m t : is_elem t = true -> stuck m t = true <-> cannot_move m t.
Proof.
  unfold cannot_move. tree_induction t. intro El. cbn [stuck]. rewrite orb_true_iff. split.
  - intros [H|H].
    + apply andb_true_iff in H as [M B]. exists [], (Node h ks). split; [left; reflexivity|]. split; [intros a []|].
      rewrite moves_successor in M by auto. split; [destruct (successor m (Node h ks)); congruence|].
      unfold breaks_section in B. cbn [kids head] in *. destruct ks; [|discriminate]. split; auto. apply Faults.section_found. exact B.
    + apply existsb_exists in H as (k & Hk & H). apply andb_true_iff in H as [Ek H]. apply IH in H as (anc & x & I & Am & R); auto.
      exists (anc ++ [Node h ks])%list, x. split.
      * right. apply in_flat_map. exists k. split; auto. rewrite visits_anc. apply in_map_iff. exists (anc, x). auto.
      * split; auto. intros a Ha. apply in_app_iff in Ha as [Ha|[<-|[]]]; auto.
  - intros (anc & x & I & Am & S & L & B). destruct I as [I|I].
    + injection I as <- <-. left. rewrite moves_successor by auto. destruct (successor m (Node h ks)); [|congruence].
      cbn [kids] in L. subst ks. unfold breaks_section. cbn [kids head andb] in *. apply Faults.section_found. exact B.
    + right. apply in_flat_map in I as (k & Hk & I). rewrite visits_anc in I. apply in_map_iff in I as ([b y] & E & I).
      injection E as <- <-. apply existsb_exists. exists k. split; auto. apply andb_true_iff.
      assert (Ek : is_elem k = true).
      { destruct (is_elem k) eqn:Ek; auto. destruct k as [hk kk]. destruct I as [I|I].
        - injection I as <- <-. unfold successor in S. rewrite Ek in S. congruence.
        - apply in_flat_map in I as (z & Hz & I). rewrite visits_anc in I. apply in_map_iff in I as ([c y'] & X & _). injection X as <- <-.
          rewrite (Am (Node hk kk)) in Ek; [discriminate|]. apply in_or_app. left. apply in_or_app. right. left. reflexivity. }
      split; auto. apply IH; auto. exists b, y. split; auto. split; [|auto]. intros a Ha. apply Am. apply in_or_app. auto.
Qed.

Lemma namespaces_any u s T : wf_state s -> In T (heap s) -> is_elem T = true -> distinct_attributes T ->
  (cannot_move (c_ns_map u) (erase T) /\ update_namespaces u (tid T) s = (Err ValueError, s)) \/
  (~ cannot_move (c_ns_map u) (erase T) /\
   exists T' s', update_namespaces u (tid T) s = (Ok (tid T'), s') /\ wf_state s' /\ In T' (heap s') /\
    (forall X, In X (heap s) -> X <> T -> In X (heap s')) /\
    node_by_node (fun anc x h' => among_elements anc -> moved_without (c_disallowed_ns u) (c_ns_map u) anc x h') [] (erase T) (erase T')).
Proof.
  intros W HT El DA. pose proof (stuck_iff (c_ns_map u) (erase T)) as St. rewrite is_elem_erase in St. specialize (St El).
  pose proof (update_namespaces_computes u s T W HT) as C. unfold namespaces_pass in C.
  destruct (stuck (c_ns_map u) (erase T)) eqn:Su.
  - left. split; [apply St; reflexivity|]. unfold update_namespaces. rewrite bind_run, (deref_root s T) by auto. cbn [fst snd].
    rewrite upd_ns_stuck, <- stuck_erase, Su. reflexivity.
  - right. split; [intro X; apply St in X; discriminate|]. destruct C as (T' & s' & E & [S1 S2 S3 _ _] & _ & X).
    exists T', s'. split; auto. split; auto. split; auto. split; auto. rewrite X. apply ns_node_by_node.
    + rewrite is_elem_erase. exact El.
    + intros x Hx. apply (distinct_erase T DA x Hx).
Qed.
