(** * The update steps as functions on documents. *)

From Coq Require Import String Ascii List Bool Arith Lia.
From Verif Require Import Str Xml XPath Utils Base Tables Cybox Stix Spec SpecDoc SpecPass SpecStep
  Lib Api Scripts Refine RefineBase RefineTrans RefineLists.
Import ListNotations.
Local Open Scope string_scope.

(** ** What the paths select *)

Definition rname (q : qname) : rstep := RStep (Some q) None.

Lemma match_step_name q t : match_step (rname q) t = named q t.
Proof.
  unfold match_step, named, is_elem, rname. simpl. rewrite andb_true_r.
  destruct (h_kind (head t)); reflexivity.
Qed.

Lemma existsb_and_r {A} (b : bool) (f : A -> bool) l : existsb (fun x => b && f x) l = b && existsb f l.
Proof. induction l; simpl; [rewrite andb_false_r; auto|]. rewrite IHl. destruct b; auto. Qed.

Definition inside_path (qs : list qname) : list ralt := map (fun q => RDesc false (rname q) None) qs.
Definition anywhere_path (qs : list qname) : list ralt := map (fun q => RDesc true (rname q) None) qs.
Definition child_path (ps : list qname) (q : qname) : list ralt :=
  map (fun p => RDesc false (rname p) (Some (rname q))) ps.

Lemma inside_path_ok qs anc t : pathf (inside_path qs) anc t = any_inside qs anc t.
Proof.
  unfold pathf, match_path, inside_path, any_inside, named_in, inside. rewrite existsb_map.
  rewrite <- existsb_and_r. apply existsb_ext. intros q _. simpl. rewrite match_step_name. reflexivity.
Qed.

Lemma anywhere_path_ok qs anc t : pathf (anywhere_path qs) anc t = anywhere qs anc t.
Proof.
  unfold pathf, match_path, anywhere_path, anywhere, named_in. rewrite existsb_map.
  apply existsb_ext. intros q _. simpl. apply match_step_name.
Qed.

Lemma child_path_ok ps q anc t : pathf (child_path ps q) anc t = child_in ps q anc t.
Proof.
  unfold pathf, match_path, child_path, child_in, child_of, named_in. rewrite existsb_map. simpl fst. simpl snd.
  destruct anc as [|p anc'].
  - simpl. induction ps; simpl; auto.
  - rewrite (andb_comm (existsb _ ps)), <- andb_assoc, (andb_comm (existsb _ ps)), andb_assoc.
    rewrite <- existsb_and_r. apply existsb_ext. intros a _. simpl. rewrite !match_step_name.
    unfold inside. destruct anc'; destruct (named a p), (named q t); reflexivity.
Qed.

Definition versioned_path : list ralt :=
  RDesc true (rname (stix "STIX_Package")) None
  :: map (fun q => RDesc true (RStep (Some q) (Some (RAttr (lq "version")))) None) component_names.

Lemma versioned_path_ok anc t : pathf versioned_path anc t = carries_version anc t.
Proof.
  unfold pathf, versioned_path, match_path, carries_version, named_in. simpl fst. simpl snd.
  cbn [existsb]. f_equal.
  - simpl. apply match_step_name.
  - rewrite existsb_map, andb_comm, <- existsb_and_r. apply existsb_ext. intros q _.
    simpl. unfold match_step. simpl. fold (match_step (rname q) t). unfold named, is_elem.
    destruct (h_kind (head t)); simpl; try (rewrite andb_false_r; reflexivity). apply andb_comm.
Qed.

(** ** Passes with equal selections *)

Lemma edit_where_ext p q g t : (forall anc x, p anc x = q anc x) -> edit_where p g t = edit_where q g t.
Proof. intro H. unfold edit_where. apply edit_ext. intros anc x _. rewrite H. reflexivity. Qed.

Lemma subst_ext F G : (forall anc t, F anc t = G anc t) -> forall t anc, subst_nodes F anc t = subst_nodes G anc t.
Proof.
  intros H t. tree_induction t. intro anc. simpl. f_equal. apply flat_map_ext_in. intros k Hk.
  rewrite <- H. destruct (F (Node h ks :: anc) k); auto. rewrite IH; auto.
Qed.

Lemma rewrite_all_ext p q G t : (forall anc x, p anc x = q anc x) -> rewrite_all p G t = rewrite_all q G t.
Proof.
  intro H. unfold rewrite_all.
  rewrite (filter_ext (fun c : ctx => p (fst c) (snd c)) (fun c => q (fst c) (snd c))) by (intro; apply H).
  destruct (first_err _ _); auto. f_equal. apply subst_ext. intros anc x. rewrite H. reflexivity.
Qed.

Lemma rewrite_all_ext_G p G H t : (forall x, G x = H x) -> rewrite_all p G t = rewrite_all p H t.
Proof.
  intro E. unfold rewrite_all.
  rewrite (first_err_ext (fun c => G (snd c)) (fun c => H (snd c))) by (intros; rewrite E; auto).
  destruct (first_err _ _); auto. f_equal. apply subst_ext. intros anc x. rewrite E. reflexivity.
Qed.

Lemma prune_ext p q t : (forall anc x, p anc x = q anc x) -> prune p t = prune q t.
Proof. intro H. unfold prune. apply subst_ext. intros. rewrite H. auto. Qed.

Lemma computes_root_ext m f g : (forall t, f t = g t) -> computes_root m f -> computes_root m g.
Proof. intros E C s T W HT. rewrite <- E. apply C; auto. Qed.

Lemma computes_when (b : bool) m f : computes m f ->
  computes (fun r => if b then m r else ret tt) (when b f).
Proof. destruct b; simpl; auto. intros _. apply computes_skip. Qed.

(** Sequences *)
Lemma in_order_nil t : in_order [] t = Ok t.
Proof. reflexivity. Qed.

Lemma in_order_cons f l t : in_order (f :: l) t = rbind (f t) (in_order l).
Proof. unfold in_order. apply passes_cons. Qed.

Lemma seq_in_order m1 m2 f l : computes m1 f -> computes_root m2 (in_order l) ->
  computes_root (fun r => m1 r ;;; m2 r) (in_order (f :: l)).
Proof.
  intros. eapply computes_root_ext; [intro; symmetry; apply in_order_cons|].
  apply computes_seq_root; auto.
Qed.

Lemma bind_in_order m1 m2 f l : computes_root m1 f -> computes_root m2 (in_order l) ->
  computes_root (fun r => x <- m1 r ;; m2 x) (in_order (f :: l)).
Proof.
  intros. eapply computes_root_ext; [intro; symmetry; apply in_order_cons|].
  apply computes_root_bind; auto.
Qed.

Lemma ret_in_order : computes_root (fun r => ret r) (in_order []).
Proof. intros s T W HT. simpl. exists T, s. split; auto. split; auto. apply steps_refl; auto. Qed.

(** Inside a step, a loop contributes several entries. *)
Lemma for_in_order {A} (m : A -> nat -> M unit) l : forall fs m2 rest,
  Forall2 (fun x f => computes (m x) f) l fs -> computes_root m2 (in_order rest) ->
  computes_root (fun r => for_each l (fun x => m x r) ;;; m2 r) (in_order (fs ++ rest)).
Proof.
  induction l as [|x l IH]; intros fs m2 rest F C; inversion F; subst; simpl app.
  - intros s T W HT. specialize (C s T W HT). exact C.
  - match goal with H : Forall2 _ l ?l' |- _ => specialize (IH l' m2 rest H C) end.
    eapply computes_root_ext; [intro; symmetry; apply in_order_cons|].
    pose proof (computes_seq_root (m x) (fun r => for_each l (fun x => m x r) ;;; m2 r) y _ H1 IH) as Q.
    intros s T W HT. specialize (Q s T W HT). cbn [for_each].
    assert (A1 : forall i, ((m x i ;;; for_each l (fun x0 => m x0 i)) ;;; m2 i) s =
                 (m x i ;;; (for_each l (fun x0 => m x0 i) ;;; m2 i)) s).
    { intro i. rewrite !bind_run. destruct (m x i s) as [[u|e] s1]; auto. }
    rewrite A1. exact Q.
Qed.

(** ** The pieces of the steps *)

Lemma schemalocs_piece u drop m loc : c_disallowed_ns u = drop -> c_ns_map u = m -> c_schemaloc_map u = loc ->
  computes (update_schemalocs u) (always (schemaloc_pass drop m loc)).
Proof. intros <- <- <-. apply update_schemalocs_computes. Qed.

Lemma edit_piece (m : nat -> M unit) l p g :
  computes m (fun t => Ok (edit_where (pathf l) g t)) -> (forall anc t, pathf l anc t = p anc t) ->
  computes m (always (edit_where p g)).
Proof.
  intros C H. eapply computes_ext; [|exact C]. intro t. unfold always. f_equal. apply edit_where_ext; auto.
Qed.

Lemma namespaces_piece u drop m : c_disallowed_ns u = drop -> c_ns_map u = m ->
  computes_root (update_namespaces u) (namespaces_pass drop m).
Proof. intros <- <-. apply update_namespaces_computes. Qed.

Lemma stuck_nil t : stuck [] t = false.
Proof.
  tree_induction t. cbn [stuck]. assert (E : moves [] (Node h ks) = false) by (unfold moves; destruct (q_ns _); reflexivity).
  rewrite E. cbn [andb orb]. induction ks as [|k ks IHl]; auto. cbn [existsb]. rewrite (IH k), andb_false_r by (left; auto).
  apply IHl. intros k' Hk'. apply IH. right. exact Hk'. unfold moves. destruct (q_ns _); reflexivity.
Qed.

Lemma ns_pass_nil drop t : forall anc, ns_pass drop [] anc t = t.
Proof.
  tree_induction t. intro anc. cbn [ns_pass].
  assert (E : moves [] (Node h ks) = false) by (unfold moves; destruct (q_ns _); reflexivity).
  rewrite E. f_equal. rewrite <- (map_id ks) at 2. apply map_ext_in. intros k Hk.
  destruct (is_elem k); auto.
Qed.

(** A namespace table without entries changes nothing. *)
Lemma namespaces_idle u m2 l : c_ns_map u = [] -> computes_root m2 (in_order l) ->
  computes_root (fun r => x <- update_namespaces u r ;; m2 x) (in_order l).
Proof.
  intros E C. eapply computes_root_ext.
  2:{ apply (bind_in_order (update_namespaces u) m2 (namespaces_pass (c_disallowed_ns u) []) l); auto.
      apply namespaces_piece; auto. }
  intro t. rewrite in_order_cons. unfold namespaces_pass. rewrite stuck_nil, ns_pass_nil. reflexivity.
Qed.

Lemma vocabs_piece u vs : c_vocabs u = vs -> computes (update_vocabs u) (passes vocab_pass vs).
Proof. intros <-. apply update_vocabs_computes. Qed.

Lemma one_pass {A} (f : A -> tree -> res tree) x t : passes f [x] t = f x t.
Proof. rewrite passes_cons. destruct (f x t); reflexivity. Qed.

Lemma vocab_piece u v : c_vocabs u = [v] -> computes (update_vocabs u) (vocab_pass v).
Proof.
  intro E. eapply computes_ext; [intro t; apply one_pass|]. apply vocabs_piece; auto.
Qed.

Lemma rename_piece o ns f old new :
  xcompile ns (t_xnode f) = Some (inside_path [old]) -> t_kind f = TRenamed new ->
  computes (translate o ns f) (rename old new).
Proof.
  intros C E. apply (edit_piece _ (inside_path [old])); [|intros; apply inside_path_ok].
  apply renamed_computes; auto.
Qed.

Lemma rewrite_piece o ns f l p G H :
  xcompile ns (t_xnode f) = Some l -> pure_alts l = true -> below l = true ->
  (forall T, rewrites (translate_node o ns (t_kind f)) G T (match_path l)) ->
  (forall anc t, pathf l anc t = p anc t) -> (forall t, G t = H t) ->
  computes (translate o ns f) (rewrite_all p H).
Proof.
  intros C P B R Hp HG. eapply computes_ext; [|apply translate_computes; eauto].
  intro t. rewrite (rewrite_all_ext _ p) by auto. apply rewrite_all_ext_G; auto.
Qed.

Lemma filter_children q t :
  filter (match_path [RChildAxis (rname q)]) (visits [] t) = map (fun k => ([t], k)) (filter (named q) (kids t)).
Proof.
  destruct t as [h ks]. cbn [visits kids]. cbn [filter].
  assert (E0 : match_path [RChildAxis (rname q)] ([], Node h ks) = false) by reflexivity.
  rewrite E0. set (T := Node h ks). clearbody T. clear E0.
  induction ks as [|k ks IH]; auto. cbn [flat_map]. rewrite filter_app, IH.
  assert (E : filter (match_path [RChildAxis (rname q)]) (visits [T] k) = if named q k then [([T], k)] else []).
  { destruct k as [hk kk]. cbn [visits filter].
    assert (E1 : match_path [RChildAxis (rname q)] ([T], Node hk kk) = named q (Node hk kk)).
    { unfold match_path. cbn [existsb fst snd match_alt]. rewrite match_step_name. apply orb_false_r. }
    rewrite E1.
    assert (E2 : filter (match_path [RChildAxis (rname q)]) (flat_map (visits [Node hk kk; T]) kk) = []).
    { apply filter_none. intros [a x] H. apply in_flat_map in H as (z & Hz & H).
      destruct (visits_anc_app _ _ _ _ H) as (b & Eb). subst a. unfold match_path. simpl.
      destruct (b ++ [Node hk kk; T])%list as [|y [|w r]] eqn:Q; auto.
      apply (f_equal (@length tree)) in Q. rewrite app_length in Q. simpl in Q. lia. }
    rewrite E2. reflexivity. }
  rewrite E. destruct (named q k) eqn:Ek; cbn [filter]; rewrite Ek; reflexivity.
Qed.

Lemma child_value_spec q t : take_value (match_path [RChildAxis (rname q)]) true [] t = value_of_child q t.
Proof.
  unfold take_value, value_of_child. rewrite filter_children.
  destruct (filter (named q) (kids t)) as [|v l]; reflexivity.
Qed.

Lemma filter_self t : exists l, filter (match_path [RSelf]) (visits [] t) = ([], t) :: l.
Proof. destruct t as [h ks]. cbn [visits filter]. eexists. reflexivity. Qed.

Lemma self_value_spec t :
  take_value (match_path [RSelf]) true [(lq "datatype", "string")] t = as_string t.
Proof.
  unfold take_value, as_string. destruct (filter_self t) as (l & ->). reflexivity.
Qed.

Lemma child_value_piece o ns f xv q v :
  xcompile ns (t_xnode f) = Some (inside_path [q]) -> t_kind f = TDefault xv None true [] ->
  xcompile ns xv = Some [RChildAxis (rname v)] ->
  computes (translate o ns f) (rewrite_all (any_inside [q]) (value_of_child v)).
Proof.
  intros C E X. apply (rewrite_piece o ns f (inside_path [q]) _ (take_value (match_path [RChildAxis (rname v)]) true []));
    auto; [|intros; apply inside_path_ok|intros; apply child_value_spec].
  rewrite E. intro T. apply tdefault_rewrites; auto.
Qed.

Lemma self_value_piece o ns f q :
  xcompile ns (t_xnode f) = Some (inside_path [q]) ->
  t_kind f = TDefault "." None true [(lq "datatype", "string")] ->
  computes (translate o ns f) (rewrite_all (any_inside [q]) as_string).
Proof.
  intros C E. apply (rewrite_piece o ns f (inside_path [q]) _
    (take_value (match_path [RSelf]) true [(lq "datatype", "string")]));
    auto; [|intros; apply inside_path_ok|intros; apply self_value_spec].
  rewrite E. intro T. apply tdefault_rewrites; auto.
Qed.

Lemma unwrap_piece o ns f outer inner new :
  xcompile ns (t_xnode f) = Some (child_path [outer] inner) -> t_kind f = TMailslot new ->
  computes (translate o ns f) (always (unwrap_pass outer inner new)).
Proof.
  intros C E. apply (unwrap_computes o ns f (child_path [outer] inner)); auto.
  intros [anc t]. pose proof (child_path_ok [outer] inner anc t) as H. unfold pathf in H. rewrite H.
  unfold child_in, child_of, unwrap_sel, named_in. simpl. destruct anc as [|p anc']; auto.
  rewrite orb_false_r. rewrite (andb_comm (named outer p)). reflexivity.
Qed.

(** ** Optional elements: one class after the other, or all at once *)

Lemma blank_unfold h ks : blank (Node h ks) =
  (negb (is_elem (Node h ks)) || (match h_attr h with [] => true | _ => false end && blank_text (h_text h)))
  && forallb blank ks.
Proof.
  unfold blank at 1. cbv zeta. cbn [visits forallb snd]. f_equal.
  generalize (Node h ks). intro T. induction ks as [|k ks IH]; auto. cbn [flat_map forallb].
  rewrite forallb_app. f_equal; [|exact IH]. unfold blank. rewrite (visits_anc k [T]), forallb_map.
  apply forallb_ext. intros [a x] _. reflexivity.
Qed.

Definition named_blank (qs : list qname) (anc : list tree) (t : tree) : bool := any_inside qs anc t && blank t.

Lemma prune_head (p : list tree -> tree -> bool) t anc : head (subst_nodes (fun a x => if p a x then Some [] else None) anc t) = head t.
Proof. destruct t; reflexivity. Qed.

Lemma prune_blank (p : list tree -> tree -> bool) : (forall a x, p a x = true -> blank x = true) -> forall t anc,
  blank (subst_nodes (fun a x => if p a x then Some [] else None) anc t) = blank t.
Proof.
  intros HP t. tree_induction t. intro anc. cbn [subst_nodes]. rewrite !blank_unfold. f_equal.
  set (T := Node h ks). clearbody T. induction ks as [|k ks IHk]; auto. cbn [flat_map forallb].
  rewrite forallb_app, IHk by (intros; apply IH; right; auto). f_equal.
  destruct (p (T :: anc) k) eqn:E; simpl.
  - symmetry. eapply HP; eauto.
  - rewrite IH by (left; auto). apply andb_true_r.
Qed.

Lemma prune_prune qs1 qs2 t : forall anc1 anc2, 
  subst_nodes (fun a x => if named_blank qs2 a x then Some [] else None) anc2
    (subst_nodes (fun a x => if named_blank qs1 a x then Some [] else None) anc1 t) =
  subst_nodes (fun a x => if named_blank (qs1 ++ qs2) a x then Some [] else None) anc1 t.
Proof.
  tree_induction t. intros anc1 anc2. cbn [subst_nodes]. f_equal.
  set (T := Node h ks).
  match goal with |- flat_map (fun k => match (if named_blank qs2 (?A :: anc2) k then _ else _) with _ => _ end) _ = _ =>
    set (T2 := A) end.
  clearbody T T2. induction ks as [|k ks IHk]; auto. cbn [flat_map].
  rewrite flat_map_app, IHk by (intros; apply IH; right; auto). f_equal.
  assert (NB : forall qs z a, named_blank qs (z :: a) k = named_in qs k && blank k) by reflexivity.
  rewrite NB, NB. unfold named_in. rewrite existsb_app.
  fold (named_in qs1 k). fold (named_in qs2 k).
  destruct (named_in qs1 k && blank k) eqn:E1; cbn [flat_map].
  - apply andb_true_iff in E1 as [E1 E2]. rewrite E1, E2. reflexivity.
  - rewrite app_nil_r. set (k1 := subst_nodes _ (T :: anc1) k).
    assert (B : blank k1 = blank k).
    { apply prune_blank. intros a x H. unfold named_blank in H. apply andb_true_iff in H. tauto. }
    assert (Hn : named_in qs2 k1 = named_in qs2 k).
    { unfold named_in. apply existsb_ext. intros q _. unfold named, k1. rewrite prune_head. reflexivity. }
    assert (NB2 : named_blank qs2 (T2 :: anc2) k1 = named_in qs2 k && blank k).
    { unfold named_blank, any_inside. rewrite Hn, B. reflexivity. }
    rewrite NB2. rewrite andb_orb_distrib_l, E1, orb_false_l.
    destruct (named_in qs2 k && blank k); auto. f_equal. apply IH. left; auto.
Qed.

Lemma optional_compose qs1 qs2 t :
  optional_pass (any_inside qs2) (optional_pass (any_inside qs1) t) = optional_pass (any_inside (qs1 ++ qs2)) t.
Proof. unfold optional_pass, prune. apply (prune_prune qs1 qs2 t [] []). Qed.

Lemma optional_none t : optional_pass (any_inside []) t = t.
Proof.
  unfold optional_pass, prune.
  enough (H : forall anc, subst_nodes (fun a x => if named_blank [] a x then Some [] else None) anc t = t) by apply H.
  tree_induction t. intro anc. cbn [subst_nodes]. f_equal.
  set (T := Node h ks). clearbody T. induction ks as [|k ks IHk]; auto. cbn [flat_map].
  rewrite IHk by (intros; apply IH; right; auto). change (named_blank [] (T :: anc) k) with false. cbv iota.
  rewrite IH by (left; auto). reflexivity.
Qed.

Lemma optional_concat (l : list (list qname)) t :
  passes (fun qs t => Ok (optional_pass (any_inside qs) t)) l t = Ok (optional_pass (any_inside (concat l)) t).
Proof.
  revert t. induction l as [|qs l IH]; intro t.
  - simpl. unfold passes. simpl. rewrite optional_none. reflexivity.
  - rewrite passes_cons. cbn [rbind]. rewrite IH, optional_compose. reflexivity.
Qed.

Lemma optionals_piece o u names qs :
  c_opt_attrs u = [] ->
  Forall2 (fun d ns => d_ctx_types d = [] /\ d_interrogate d = IEmptyElem /\
                       xcompile (c_klass_nsmap u) (d_xpath d) = Some (inside_path ns)) (c_opt_elems u) names ->
  concat names = qs ->
  computes (update_optionals o u) (always (optional_pass (any_inside qs))).
Proof.
  intros A F <-. intros s T W HT.
  assert (L : forall ds names, Forall2 (fun d ns => d_ctx_types d = [] /\ d_interrogate d = IEmptyElem /\
                       xcompile (c_klass_nsmap u) (d_xpath d) = Some (inside_path ns)) ds names ->
     computes (fun r => for_each ds (fun d => found <- dfind o d (c_klass_nsmap u) r (Some (select_ids typed T)) ;;
                                              remove_xml_elements found))
              (passes (fun qs t => Ok (optional_pass (any_inside qs) t)) names)).
  { clear. intros ds names F. induction F as [|d ns ds names (D1 & D2 & D3) F IH].
    - apply computes_skip.
    - eapply computes_ext; [intro t; symmetry; apply passes_cons|].
      apply (computes_seq (fun r => found <- dfind o d (c_klass_nsmap u) r (Some (select_ids typed T)) ;; remove_xml_elements found)
               (fun r => for_each ds _)); auto.
      eapply computes_ext; [|apply optional_computes; eauto].
      + intro t. cbn beta. f_equal. unfold optional_pass. apply prune_ext. intros anc x.
        rewrite inside_path_ok. reflexivity.
      + unfold pure_alts, inside_path. apply orb_true_iff. right. apply negb_true_iff.
        clear. induction ns; simpl; auto. }
  specialize (L _ _ F s T W HT). rewrite optional_concat in L. unfold always.
  destruct L as (T' & s' & E & R). exists T', s'. unfold update_optionals.
  rewrite bind_run, (get_typed_nodes_read s T) by auto. rewrite A, bind_run, E. auto.
Qed.

(** ** The steps *)

Ltac compiled := vm_compute; reflexivity.

Lemma cybox_2_0_computes u p l opts :
  c_disallowed_ns u = [] -> c_ns_map u = [] -> c_schemaloc_map u = cybox_2_0_schemaloc_map ->
  c_vocabs u = [EventTypeVocab] ->
  xcompile (c_nsmap u) (c_x_versioned u) = Some l -> pure_alts l = true ->
  (forall anc t, pathf l anc t = p anc t) ->
  xcompile (c_nsmap u) XPATH_OBJECT_PROPS =
    Some [RDesc true (rname (cybox "Object")) (Some (rname (cybox "Properties")))] ->
  computes_root (fun r => cybox_2_0_do_update u r opts) (cybox_2_0_step p opts).
Proof.
  intros D N L V C P Hp X. unfold cybox_2_0_do_update, cybox_2_0_step.
  apply seq_in_order; [apply schemalocs_piece; auto|].
  apply seq_in_order; [apply (edit_piece _ l); auto; apply cybox_2_0_versions_computes; auto|].
  apply seq_in_order.
  { apply (update_lists_computes u _ _ _ X); [reflexivity|]. intros [anc t].
    unfold match_path, props_sel. cbn [existsb fst snd match_alt]. rewrite orb_false_r.
    destruct anc as [|g anc]; auto. rewrite !match_step_name. apply andb_comm. }
  apply (seq_in_order (fun r => if update_vocabularies opts then update_vocabs u r else ret tt) (fun r => ret r)).
  { apply computes_when. apply (vocab_piece u event_type). rewrite V. compiled. }
  apply ret_in_order.
Qed.

Lemma cybox_2_0_1_computes o u p l opts :
  c_disallowed_ns u = [] -> c_ns_map u = driver_ns -> c_schemaloc_map u = cybox_2_0_1_schemaloc_map ->
  c_vocabs u = c_vocabs Cybox_2_0_1 -> c_trans u = c_trans Cybox_2_0_1 ->
  c_klass_nsmap u = cybox_2_0_1_nsmap -> c_opt_elems u = c_opt_elems Cybox_2_0_1 -> c_opt_attrs u = [] ->
  xcompile (c_nsmap u) (c_x_versioned u) = Some l -> pure_alts l = true ->
  (forall anc t, pathf l anc t = p anc t) ->
  computes_root (fun r => cybox_2_0_1_do_update o u r opts) (cybox_2_0_1_step p opts).
Proof.
  intros D N L V T K O A C P Hp. unfold cybox_2_0_1_do_update, cybox_2_0_1_step.
  apply (bind_in_order (update_namespaces u)); [apply namespaces_piece; auto|].
  apply seq_in_order; [apply schemalocs_piece; auto|].
  apply seq_in_order; [apply (edit_piece _ l); auto; apply cybox_2_0_1_versions_computes; auto|].
  match goal with |- computes_root _ (in_order (?a :: ?b :: ?c :: ?d :: ?e :: ?f :: ?g :: ?h :: ?r)) =>
    change (in_order (a :: b :: c :: d :: e :: f :: g :: h :: r))
      with (in_order ([a; b; c; d; e; f; g; h] ++ r)) end.
  unfold translate_fields. rewrite T, K.
  apply (for_in_order (translate o cybox_2_0_1_nsmap) (c_trans Cybox_2_0_1)).
  - repeat apply Forall2_cons; try apply Forall2_nil.
    + apply (child_value_piece o _ _ "./URIObj:Value"); compiled.
    + apply (child_value_piece o _ _ "./URIObj:Value"); compiled.
    + apply self_value_piece; compiled.
    + apply rename_piece; compiled.
    + apply rename_piece; compiled.
    + apply rename_piece; compiled.
    + apply rename_piece; compiled.
    + apply unwrap_piece; compiled.
  - apply (seq_in_order (fun r => if update_vocabularies opts then update_vocabs u r else ret tt)).
    { apply computes_when. apply vocabs_piece. rewrite V. compiled. }
    apply (seq_in_order (fun r => if remove_optionals opts then update_optionals o u r else ret tt) (fun r => ret r)).
    { apply computes_when. eapply optionals_piece; auto.
      - rewrite O, K. repeat (apply Forall2_cons; [split; [reflexivity|split; [reflexivity|]]|]); try apply Forall2_nil.
        all: match goal with |- xcompile ?n ?x = Some (inside_path ?e) =>
          let v := eval vm_compute in (xcompile n x) in
          match v with Some ?l =>
            let q := eval vm_compute in (flat_map (fun a => match a with RDesc _ r _ => match r_test r with Some q => [q] | None => [] end | _ => [] end) l) in
            instantiate (1 := q); compiled end end.
      - compiled. }
    apply ret_in_order.
Qed.

Lemma stix_1_0_computes opts :
  computes_root (fun r => stix_1_0_do_update r opts) (stix_1_0_step opts).
Proof.
  unfold stix_1_0_do_update, stix_1_0_step.
  apply (bind_in_order (fun r => cybox_2_0_do_update Cybox_in_1_0 r opts)).
  { apply (cybox_2_0_computes _ _ (anywhere_path cybox_in_stix_1_0)); try reflexivity; try compiled.
    intros; apply anywhere_path_ok. }
  apply (namespaces_idle STIX_1_0); [reflexivity|].
  apply seq_in_order; [apply schemalocs_piece; reflexivity|].
  apply seq_in_order.
  { apply (edit_piece _ versioned_path); [|apply versioned_path_ok].
    apply stix_versions_computes; compiled. }
  apply (seq_in_order (fun r => if update_vocabularies opts then update_vocabs STIX_1_0 r else ret tt) (fun r => ret r)).
  { apply computes_when. apply vocabs_piece. compiled. }
  apply ret_in_order.
Qed.

Lemma stix_1_0_1_computes o opts :
  computes_root (fun r => stix_1_0_1_do_update o r opts) (stix_1_0_1_step opts).
Proof.
  unfold stix_1_0_1_do_update, stix_1_0_1_step.
  apply (bind_in_order (fun r => cybox_2_0_1_do_update o Cybox_in_1_0_1 r opts)).
  { apply (cybox_2_0_1_computes _ _ _ (inside_path cybox_in_stix_1_0_1)); try reflexivity; try compiled.
    intros; apply inside_path_ok. }
  apply (namespaces_idle STIX_1_0_1); [reflexivity|].
  apply seq_in_order; [apply schemalocs_piece; reflexivity|].
  apply seq_in_order.
  { apply (edit_piece _ versioned_path); [|apply versioned_path_ok].
    apply stix_versions_computes; compiled. }
  match goal with |- computes_root _ (in_order (?a :: ?b :: ?r)) =>
    change (in_order (a :: b :: r)) with (in_order ([a; b] ++ r)) end.
  unfold translate_fields.
  apply (for_in_order (translate o (c_klass_nsmap STIX_1_0_1)) (c_trans STIX_1_0_1)).
  - apply Forall2_cons; [|apply Forall2_cons; [|apply Forall2_nil]].
    + apply (rewrite_piece o _ _ (inside_path [common "Contributors"]) _ (contributing_sources NS_COMMON)); try compiled.
      * intro T. apply contributors_rewrites.
      * intros; apply inside_path_ok.
    + apply (rewrite_piece o _ _ (child_path [ttp "Exploit_Targets"] (common "Exploit_Target")) _ (wrap (ttp "Exploit_Target")));
        try compiled.
      * intro T. apply wrap_rewrites. intro c. apply elems_only_ok. reflexivity.
      * intros; apply child_path_ok.
  - apply (seq_in_order (fun r => if update_vocabularies opts then update_vocabs STIX_1_0_1 r else ret tt)).
    { apply computes_when. apply vocabs_piece. compiled. }
    apply (seq_in_order (fun r => if remove_optionals opts then update_optionals o STIX_1_0_1 r else ret tt) (fun r => ret r)).
    { apply computes_when.
      apply (optionals_piece o _ [[marking "Controlled_Structure"; marking "Marking_Structure"]]); try reflexivity.
      apply Forall2_cons; [|apply Forall2_nil]. split; [reflexivity|split; [reflexivity|compiled]]. }
    apply ret_in_order.
Qed.

Lemma stix_1_1_computes o opts :
  computes_root (fun r => stix_1_1_do_update o r opts) (stix_1_1_step o opts).
Proof.
  unfold stix_1_1_do_update, stix_1_1_step.
  apply seq_in_order; [apply schemalocs_piece; reflexivity|].
  apply seq_in_order; [apply schemalocs_piece; reflexivity|].
  apply seq_in_order.
  { apply (edit_piece _ versioned_path); [|apply versioned_path_ok].
    apply stix_versions_computes; compiled. }
  match goal with |- computes_root _ (in_order (?a :: ?b :: ?c :: ?r)) =>
    change (in_order (a :: b :: c :: r)) with (in_order ([a; b; c] ++ r)) end.
  unfold translate_fields.
  apply (for_in_order (translate o (c_klass_nsmap STIX_1_1)) (c_trans STIX_1_1)).
  - apply Forall2_cons; [|apply Forall2_cons; [|apply Forall2_cons; [|apply Forall2_nil]]].
    + apply (rewrite_piece o _ _ (child_path sourced (common "Source")) _ (structured_source o false)); try compiled.
      * intro T. apply (source_rewrites o _ false).
      * intros; apply child_path_ok.
    + apply (rewrite_piece o _ _ (child_path [indicator "Sighting"] (indicator "Source")) _ (structured_source o true)); try compiled.
      * intro T. apply (source_rewrites o _ true).
      * intros; apply child_path_ok.
    + apply (rewrite_piece o _ _ (child_path [indicator "Related_Campaigns"] (indicator "Related_Campaign")) _
               (wrap_renamed (indicator "Related_Campaign") (common "Campaign"))); try compiled.
      * intro T. apply wrap_renamed_rewrites. intro c. apply elems_only_ok. reflexivity.
      * intros; apply child_path_ok.
  - apply (seq_in_order (fun r => if update_vocabularies opts then update_vocabs STIX_1_1 r else ret tt)).
    { apply computes_when. apply (vocab_piece STIX_1_1 availability_loss). compiled. }
    apply (seq_in_order (fun r => if remove_optionals opts then update_optionals o STIX_1_1 r else ret tt) (fun r => ret r)).
    { apply computes_when. eapply optional_in_type_computes; reflexivity. }
    apply ret_in_order.
Qed.

Lemma stix_1_1_1_computes opts :
  computes_root (fun r => stix_1_1_1_do_update r opts) (stix_1_1_1_step opts).
Proof.
  unfold stix_1_1_1_do_update, stix_1_1_1_step.
  apply seq_in_order; [apply schemalocs_piece; reflexivity|].
  apply seq_in_order.
  { apply (edit_piece _ versioned_path); [|apply versioned_path_ok].
    apply stix_versions_computes; compiled. }
  apply (seq_in_order (fun r => if update_vocabularies opts then update_vocabs STIX_1_1_1 r else ret tt) (fun r => ret r)).
  { apply computes_when. apply (vocab_piece STIX_1_1_1 discovery_method). compiled. }
  apply ret_in_order.
Qed.

Lemma stix_1_2_computes opts : computes_root (fun r => stix_1_2_do_update r opts) stix_1_2_step.
Proof.
  unfold stix_1_2_do_update, stix_1_2_step.
  apply (bind_in_order (update_namespaces STIX_1_2)); [apply namespaces_piece; reflexivity|].
  apply seq_in_order; [apply schemalocs_piece; reflexivity|].
  apply (seq_in_order (fun r => modify r (hset_attr (lq "version") "1.2.1")) (fun r => ret r)).
  { apply root_computes; [apply keeps_hset|reflexivity|]. apply modify_edits. apply keeps_hset. }
  apply ret_in_order.
Qed.

(** ** The registered updaters *)

Lemma stix_registered o opts v up f : dict_get v (STIX_UPDATERS o) = Some up ->
  stix_step o opts v = Some f -> computes_root (fun r => up_update up r opts) f.
Proof.
  unfold STIX_UPDATERS, stix_step, dict_get.
  repeat match goal with |- context [String.eqb v ?x] => destruct (String.eqb v x) end;
    intros H1 H2; try discriminate; injection H1 as <-; injection H2 as <-.
  - apply stix_1_0_computes.
  - apply stix_1_0_1_computes.
  - apply stix_1_1_computes.
  - apply stix_1_1_1_computes.
  - apply stix_1_2_computes.
Qed.

Lemma cybox_registered o opts v up f : dict_get v (CYBOX_UPDATERS o) = Some up ->
  cybox_step opts v = Some f -> computes_root (fun r => up_update up r opts) f.
Proof.
  unfold CYBOX_UPDATERS, cybox_step, dict_get.
  repeat match goal with |- context [String.eqb v ?x] => destruct (String.eqb v x) end;
    intros H1 H2; try discriminate; injection H1 as <-; injection H2 as <-.
  - apply (cybox_2_0_computes _ _ (anywhere_path [cybox "Observables"])); try reflexivity; try compiled.
    intros; apply anywhere_path_ok.
  - apply (cybox_2_0_1_computes _ _ _ (anywhere_path [cybox "Observables"])); try reflexivity; try compiled.
    intros; apply anywhere_path_ok.
Qed.
