(** * Names after the namespaces were replaced. *)

From Coq Require Import String Ascii List Bool Arith Lia.
From Verif Require Import Str Xml XPath Utils Base Tables Spec SpecDoc SpecPass SpecStep
  SpecCheck SpecClean SpecUpdate SpecTrace Lib Refine RefineBase RefineTrans RefineLists RefineSteps Relabel Cybox Stix RefineUpdate Natural Updates Reports UpdateFacts Trace SpecField Fields Carried Follow Vocab Worked Marks SpecLocation Root Located SpecName.
Import ListNotations.
Local Open Scope string_scope.

Lemma visits_ns m t : forall anc x, is_elem t = true -> In x (nodes (ns_pass [] m anc t)) ->
  exists b y, In (b, y) (visits anc t) /\ tid y = tid x /\
    (among_elements b -> head x = if is_elem y && moves m y then rebuilt [] m b y else head y).
Proof.
  tree_induction t. intros anc x El H. cbn [ns_pass nodes] in H. destruct H as [<-|H].
  - exists anc, (Node h ks). split; [apply visits_self|]. split; [destruct (moves m (Node h ks)); reflexivity|]. intros _. rewrite El.
    reflexivity.
  - apply in_flat_map in H as (k' & Hk' & Hx). apply in_map_iff in Hk' as (k & <- & Hk).
    destruct (is_elem k) eqn:Ek.
    + destruct (IH k Hk _ _ Ek Hx) as (b & y & I & E). exists b, y. split; auto. right. apply in_flat_map. exists k. auto.
    + rewrite <- (nodes_visits k (Node h ks :: anc)) in Hx. apply in_map_iff in Hx as ([b y] & <- & I).
      exists b, y. split; [right; apply in_flat_map; exists k; auto|]. split; auto. cbn [snd]. intro Am.
      destruct k as [hk kk]. destruct I as [I|I].
      * injection I as <- <-. rewrite Ek. reflexivity.
      * exfalso. apply in_flat_map in I as (z & Hz & I). rewrite visits_anc in I. apply in_map_iff in I as ([l y'] & I & _). injection I as <- <-.
        rewrite Am in Ek; [discriminate|]. apply in_or_app. right. left. reflexivity.
Qed.

Lemma dict_get_absent {A} k (m : dict A) : dict_get k m = None -> ~ In k (map fst m).
Proof.
  induction m as [|[k' v] m IH]; simpl; auto. destruct (String.eqb k k') eqn:E; [discriminate|]. intros G [<-|I]; [|exact (IH G I)].
  rewrite String.eqb_refl in E. discriminate.
Qed.

Lemma rebuilt_moved m n b y : (forall k, dict_get k m = dict_get k n) -> is_elem y && moves m y = true -> moved n b y (rebuilt [] m b y).
Proof.
  intros M H. apply andb_true_iff in H as [El Mv]. unfold moved, successor. rewrite El. unfold moves in Mv.
  destruct (q_ns (h_tag (head y))) as [ns|] eqn:Q; [|discriminate]. rewrite <- M.
  destruct (dict_get ns m) as [new|] eqn:G.
  - split; [reflexivity|]. split; [|split].
    + unfold rebuilt. cbn [h_tag]. rewrite Q. unfold new_ns, lookup. rewrite G. reflexivity.
    + intro p. unfold rebuilt. cbn [h_decl]. rewrite filter_all by reflexivity. rewrite (env_get_map p (new_ns m)), env_items_get by reflexivity.
      destruct (env_get p (env_of b y)); auto. cbn [option_map]. unfold new_ns, lookup. rewrite M. reflexivity.
    + intro K. unfold rebuilt. cbn [h_text h_cdata]. rewrite K. auto.
  - exfalso. apply mem_str_In in Mv. apply in_map_iff in Mv as ([k v] & <- & I). apply (dict_get_absent k m G). apply in_map_iff. exists (k, v). auto.
Qed.

Lemma same_refl h : same_but_attributes h h.
Proof. repeat split. Qed.

Lemma unmoved m n b y : (forall k, dict_get k m = dict_get k n) -> is_elem y && moves m y = false -> moved n b y (head y).
Proof.
  intros M H. unfold moved, successor. destruct (is_elem y); [|apply same_refl]. cbn [andb] in H. unfold moves in H.
  destruct (q_ns (h_tag (head y))) as [ns|]; [|apply same_refl]. rewrite <- M. rewrite dict_get_none; [apply same_refl|].
  intro I. apply mem_str_In in I. congruence.
Qed.

(** The passes that only touch attributes. *)
Definition rest_of (h : hdr) := (h_kind h, h_tag h, h_decl h, h_text h, h_cdata h, h_tail h).

Lemma moved_rest m b y h h' : rest_of h' = rest_of h -> moved m b y h -> moved m b y h'.
Proof.
  unfold rest_of. intro E. injection E as E1 E2 E3 E4 E5 E6. unfold moved, same_but_attributes. rewrite E1, E2, E3, E4, E5, E6. auto.
Qed.

Lemma ns_moved m n t e : (forall k, dict_get k m = dict_get k n) -> is_elem t = true -> stems (fun h h' => rest_of h' = rest_of h) (ns_pass [] m [] t) e ->
  stems_at (fun anc x h' => among_elements anc -> moved n anc x h') t e.
Proof.
  intros M El S x Hx Nz. destruct (S x Hx Nz) as (z & Hz & Ez & R). destruct (visits_ns m t [] z El Hz) as (b & y & I & Ey & H).
  exists b, y. split; auto. split; [congruence|]. intro Am. eapply moved_rest; [exact R|]. rewrite (H Am).
  destruct (is_elem y && moves m y) eqn:Mv; [apply (rebuilt_moved m)|apply (unmoved m)]; auto.
Qed.

Lemma oasis_table k : dict_get k stix_1_2_ns_map = dict_get k oasis_namespaces.
Proof. apply same_table_get. vm_compute. reflexivity. Qed.

Lemma stix_1_2_moved t e : is_elem t = true -> stix_1_2_step t = Ok e ->
  stems_at (fun anc x h' => among_elements anc -> moved oasis_namespaces anc x h') t e.
Proof.
  intros El E. unfold stix_1_2_step in E. apply in_order_ok in E as (m & E1 & E). apply namespaces_ok in E1 as ->.
  refine (ns_moved stix_1_2_ns_map oasis_namespaces t e oasis_table El _).
  refine ((_ : keeps rest_of _) _ _ E). apply keeps_cons; [apply keeps_loc; reflexivity|].
  apply keeps_cons; [apply keeps_on_root; intro; reflexivity|apply keeps_nil].
Qed.

Lemma stix_1_2_names o opts up d force s t r s' :
  dict_get "1.2" (STIX_UPDATERS o) = Some up -> wf_state s -> denotes s d t -> is_elem t = true ->
  updater_update o up d opts force s = (Ok r, s') ->
  exists t1 e, worked_on o up d opts force s t t1 /\ document s' (r_document r) (erase e) /\
    carried (fun _ => false) (labelled t1) e /\
    stems_at (fun anc x h' => among_elements anc -> moved oasis_namespaces anc x h') (labelled t1) e.
Proof.
  intros U W Dn El E. on_step U W Dn E f Ef t1 e Wk Fit Fe Doc. exists t1, e. split; auto. split; auto.
  assert (C := stix_step_carries _ _ _ _ _ _ Ef Fe).
  assert (C' : carried (fun _ => false) (labelled t1) e) by (destruct C as [C1 C2]; split; auto).
  split; auto. apply stix_1_2_moved; [eapply fit_elem; eauto|]. apply some_inj in Ef. subst f. exact Fe.
Qed.

(** *** Attributes *)

Lemma ns_head_attr k m t : is_elem t = true -> NoDup (map fst (h_attr (head t))) ->
  attr_of k (head (ns_pass [] m [] t)) = attr_of k (head t).
Proof.
  intros El N. destruct t as [h ks]. cbn [ns_pass head]. destruct (moves m (Node h ks)); auto. apply attr_of_rebuilt. exact N.
Qed.

Lemma stix_1_2_attributes_stay t e : is_elem t = true -> distinct_attributes t -> stix_1_2_step t = Ok e ->
  stems_at (fun anc x h' => among_elements anc -> attributes_stay anc x h') t e.
Proof.
  intros El DA E. unfold stix_1_2_step in E. apply in_order_ok in E as (m & E1 & E). apply namespaces_ok in E1 as ->.
  apply in_order_ok in E as (m & E1 & E). injection E1 as <-. apply in_order_ok in E as (m & E1 & E). injection E1 as <-.
  rewrite in_order_nil in E. injection E as <-. set (n := ns_pass [] stix_1_2_ns_map [] t).
  assert (Inner : forall x, In x (nodes n) -> exists b y, In (b, y) (visits [] t) /\ tid y = tid x /\
            (among_elements b -> forall k, attr_of k (head x) = attr_of k (head y))).
  { intros x Hx. destruct (visits_ns stix_1_2_ns_map t [] x El Hx) as (b & y & I & Ey & H). exists b, y. split; auto. split; auto.
    intros Am k. rewrite (H Am). destruct (is_elem y && moves stix_1_2_ns_map y); auto. apply attr_of_rebuilt. apply DA.
    rewrite <- (nodes_visits t []). apply in_map_iff. exists (b, y). auto. }
  intros x Hx Nz. unfold schemaloc_pass, on_root in Hx. cbn [head kids nodes] in Hx. destruct Hx as [<-|Hx].
  - exists [], t. split; [apply visits_self|]. split.
    + unfold tid. cbn [head hset_attr]. unfold n. destruct t as [h ks]. cbn [ns_pass head].
      destruct (attr_get _ _), (moves _ _); reflexivity.
    + intros _ k Hk. destruct (Hk eq_refl) as [K1 K2]. cbn [head]. rewrite attr_of_set by exact K2.
      transitivity (attr_of k (head n)).
      * destruct (attr_get _ _); auto. apply attr_of_set. exact K1.
      * apply ns_head_attr; auto. apply DA. apply nodes_self.
  - destruct (Inner x) as (b & y & I & Ey & H).
    { destruct n as [h ks]. right. exact Hx. }
    exists b, y. split; auto. split; auto. intros Am k _. auto.
Qed.

Lemma stix_1_2_attributes o opts up d force s t r s' :
  dict_get "1.2" (STIX_UPDATERS o) = Some up -> wf_state s -> denotes s d t -> is_elem t = true -> distinct_attributes t ->
  updater_update o up d opts force s = (Ok r, s') ->
  exists t1 e, worked_on o up d opts force s t t1 /\ document s' (r_document r) (erase e) /\
    carried (fun _ => false) (labelled t1) e /\
    stems_at (fun anc x h' => among_elements anc -> attributes_stay anc x h') (labelled t1) e.
Proof.
  intros U W Dn El DA E. on_step U W Dn E f Ef t1 e Wk Fit Fe Doc. exists t1, e. split; auto. split; auto.
  assert (C := stix_step_carries _ _ _ _ _ _ Ef Fe).
  assert (C' : carried (fun _ => false) (labelled t1) e) by (destruct C as [C1 C2]; split; auto).
  split; auto. apply stix_1_2_attributes_stay; [eapply fit_elem; eauto|exact (fit_distinct _ _ Fit DA)|].
  apply some_inj in Ef. subst f. exact Fe.
Qed.

(** ** Character data *)

Lemma blank_piece s : blank_text s = true -> piece s = [].
Proof. unfold piece. destruct s; auto. intros ->. reflexivity. Qed.

Lemma pieces_node h ks : pieces (Node h ks) = ((if is_elem (Node h ks) then piece (h_text h) else [])
   ++ flat_map (fun k => pieces k ++ piece (h_tail (head k))) ks)%list.
Proof. reflexivity. Qed.

Lemma pieces_ns m t : forall anc, is_elem t = true -> no_mixed_text m t ->
  pieces (ns_pass [] m anc t) = pieces t /\ piece (h_tail (head (ns_pass [] m anc t))) = piece (h_tail (head t)).
Proof.
  tree_induction t. intros anc El N.
  assert (Su : moves m (Node h ks) = true -> successor m (Node h ks) <> None).
  { intro Mv. unfold successor. rewrite El. unfold moves in Mv. destruct (q_ns _) as [ns|]; [|discriminate].
    intro G. apply mem_str_In in Mv. apply in_map_iff in Mv as ([k v] & <- & I). apply (dict_get_absent k m G). apply in_map_iff. exists (k, v). auto. }
  assert (Ks : flat_map (fun k => pieces k ++ piece (h_tail (head k)))%list (map (fun k => if is_elem k then ns_pass [] m (Node h ks :: anc) k else k) ks)
               = flat_map (fun k => pieces k ++ piece (h_tail (head k)))%list ks).
  { rewrite flat_map_concat_map, map_map, <- flat_map_concat_map. apply flat_map_ext_in. intros k Hk.
    destruct (is_elem k) eqn:Ek; auto. destruct (IH k Hk (Node h ks :: anc) Ek) as [A B].
    - intros x Hx. apply N. right. apply in_flat_map. exists k. auto.
    - rewrite A, B. reflexivity. }
  cbn [ns_pass head]. rewrite !pieces_node, Ks. unfold is_elem in El |- *. cbn [head] in El |- *. destruct (moves m (Node h ks)) eqn:Mv.
  - destruct (N (Node h ks) (nodes_self _) (Su eq_refl)) as [Nt Nl]. cbn [head kids] in Nt, Nl. cbn [rebuilt h_kind h_text h_tail].
    split; [|rewrite (blank_piece _ Nl); reflexivity]. f_equal. destruct (h_kind h); try discriminate El. cbn [kids head].
    destruct ks as [|k ks]; auto. rewrite (blank_piece (h_text h)); auto. apply Nt. discriminate.
  - auto.
Qed.

Lemma pieces_on_root g t : (forall h, h_kind (g h) = h_kind h /\ h_text (g h) = h_text h) -> pieces (on_root g t) = pieces t.
Proof. intro H. destruct t as [h ks]. unfold on_root. cbn [head kids]. rewrite !pieces_node. unfold is_elem. cbn [head]. destruct (H h) as [-> ->]. reflexivity. Qed.

Lemma pieces_erase t : pieces (erase t) = pieces t.
Proof.
  tree_induction t. cbn [erase]. rewrite !pieces_node. unfold is_elem. cbn [head set_id h_kind h_text]. f_equal.
  rewrite flat_map_concat_map, map_map, <- flat_map_concat_map. apply flat_map_ext_in. intros k Hk. rewrite (IH k Hk). destruct k. reflexivity.
Qed.

Lemma stix_1_2_pieces t e : is_elem t = true -> no_mixed_text oasis_namespaces t -> stix_1_2_step t = Ok e -> pieces e = pieces t.
Proof.
  intros El N E. unfold stix_1_2_step in E. apply in_order_ok in E as (m & E1 & E). apply namespaces_ok in E1 as ->.
  apply in_order_ok in E as (m & E1 & E). injection E1 as <-. apply in_order_ok in E as (m & E1 & E). injection E1 as <-.
  rewrite in_order_nil in E. injection E as <-. unfold schemaloc_pass. rewrite !pieces_on_root.
  - refine (proj1 (pieces_ns stix_1_2_ns_map t [] El _)). intros x Hx Sx. apply (N x Hx).
    unfold successor in *. destruct (is_elem x); [|exact Sx]. destruct (q_ns _) as [ns|]; [|exact Sx]. rewrite <- oasis_table. exact Sx.
  - intro h. destruct (attr_get _ _); auto.
  - auto.
Qed.

Lemma successor_erase m x : successor m (erase x) = successor m x.
Proof. destruct x. reflexivity. Qed.

Lemma nodes_of_erase t : nodes (erase t) = map erase (nodes t).
Proof.
  tree_induction t. cbn [erase nodes map]. f_equal. rewrite flat_map_concat_map, map_map, <- flat_map_concat_map, map_flat_map.
  apply flat_map_ext_in. exact IH.
Qed.

Lemma no_mixed_erase m t : no_mixed_text m (erase t) <-> no_mixed_text m t.
Proof.
  unfold no_mixed_text. rewrite nodes_of_erase. split.
  - intros H x Hx Sx. destruct (H (erase x)) as [A B].
    + apply in_map. exact Hx.
    + rewrite successor_erase. exact Sx.
    + destruct x as [h ks]. cbn [erase kids head set_id h_text h_tail] in *. split; auto. intro N. apply A. destruct ks; [contradiction|discriminate].
  - intros H x Hx Sx. apply in_map_iff in Hx as (y & <- & Hy). rewrite successor_erase in Sx. destruct (H y Hy Sx) as [A B].
    destruct y as [h ks]. cbn [erase kids head set_id h_text h_tail] in *. split; auto. intro N. apply A. destruct ks; [contradiction|discriminate].
Qed.

Lemma stix_1_2_text o opts up d force s t r s' :
  dict_get "1.2" (STIX_UPDATERS o) = Some up -> wf_state s -> denotes s d t -> is_elem t = true ->
  updater_update o up d opts force s = (Ok r, s') ->
  exists t1 new, worked_on o up d opts force s t t1 /\ document s' (r_document r) new /\
    (no_mixed_text oasis_namespaces t1 -> pieces new = pieces t1).
Proof.
  intros U W Dn El E. on_step U W Dn E f Ef t1 e Wk Fit Fe Doc. exists t1, (erase e). split; auto. split; auto.
  intro N. rewrite pieces_erase, <- (pieces_erase t1), <- (numbered_erase 1 t1), pieces_erase.
  apply stix_1_2_pieces; [eapply fit_elem; eauto| |].
  - apply no_mixed_erase. unfold labelled. rewrite numbered_erase. apply no_mixed_erase. exact N.
  - apply some_inj in Ef. subst f. exact Fe.
Qed.

(** ** Exactly which pieces are left *)

Lemma moves_successor m x : is_elem x = true -> moves m x = match successor m x with Some _ => true | None => false end.
Proof.
  intro El. unfold moves, successor. rewrite El. destruct (q_ns (h_tag (head x))) as [ns|]; auto.
  destruct (dict_get ns m) eqn:G.
  - destruct (mem_str ns (map fst m)) eqn:Mv; auto. rewrite dict_get_none in G; [discriminate|].
    intro I. apply mem_str_In in I. congruence.
  - destruct (mem_str ns (map fst m)) eqn:Mv; auto. exfalso. apply mem_str_In in Mv. exact (dict_get_absent _ _ G Mv).
Qed.

Lemma left_ns m t : forall anc, is_elem t = true ->
  pieces (ns_pass [] m anc t) = pieces_left m t /\
  piece (h_tail (head (ns_pass [] m anc t))) = match successor m t with Some _ => [] | None => piece (h_tail (head t)) end.
Proof.
  tree_induction t. intros anc El. pose proof (moves_successor m (Node h ks) El) as Mv.
  assert (Ks : flat_map (fun k => pieces k ++ piece (h_tail (head k)))%list (map (fun k => if is_elem k then ns_pass [] m (Node h ks :: anc) k else k) ks)
               = flat_map (fun k => pieces_left m k ++ match successor m k with Some _ => [] | None => piece (h_tail (head k)) end)%list ks).
  { rewrite flat_map_concat_map, map_map, <- flat_map_concat_map. apply flat_map_ext_in. intros k Hk.
    destruct (is_elem k) eqn:Ek.
    - destruct (IH k Hk (Node h ks :: anc) Ek) as [A B]. rewrite A, B. reflexivity.
    - assert (S : successor m k = None) by (unfold successor; rewrite Ek; reflexivity). rewrite S.
      destruct k as [hk kk]. cbn [pieces_left]. rewrite Ek. reflexivity. }
  cbn [ns_pass head]. rewrite pieces_node, Ks. cbn [pieces_left]. rewrite El. unfold is_elem in El |- *. cbn [head] in El |- *. rewrite Mv.
  destruct (successor m (Node h ks)) as [new|].
  - cbn [rebuilt h_kind h_text h_tail kids head]. split; auto. destruct ks; reflexivity.
  - rewrite El. auto.
Qed.

Lemma pieces_left_table m n t : (forall k, dict_get k m = dict_get k n) -> pieces_left m t = pieces_left n t.
Proof.
  intro M. tree_induction t. cbn [pieces_left]. destruct (is_elem (Node h ks)) eqn:El; auto.
  assert (S : forall x, successor m x = successor n x).
  { intro x. unfold successor. destruct (is_elem x); auto. destruct (q_ns _); auto. }
  rewrite S. f_equal. apply flat_map_ext_in. intros k Hk. rewrite S, (IH k Hk). reflexivity.
Qed.

Lemma pieces_left_erase m t : pieces_left m (erase t) = pieces_left m t.
Proof.
  tree_induction t. pose proof (pieces_erase (Node h ks)) as P. cbn [erase] in P |- *. cbn [pieces_left]. unfold is_elem in *. cbn [head set_id h_kind h_text] in *.
  destruct (h_kind h) eqn:K; auto. f_equal.
  - change (successor m (Node (set_id 0 h) (map erase ks))) with (successor m (Node h ks)).
    destruct (successor m (Node h ks)); auto. destruct ks; reflexivity.
  - rewrite flat_map_concat_map, map_map, <- flat_map_concat_map. apply flat_map_ext_in. intros k Hk. rewrite (IH k Hk), successor_erase.
    destruct k. reflexivity.
Qed.

Lemma stix_1_2_left t e : is_elem t = true -> stix_1_2_step t = Ok e -> pieces e = pieces_left oasis_namespaces t.
Proof.
  intros El E. unfold stix_1_2_step in E. apply in_order_ok in E as (m & E1 & E). apply namespaces_ok in E1 as ->.
  apply in_order_ok in E as (m & E1 & E). injection E1 as <-. apply in_order_ok in E as (m & E1 & E). injection E1 as <-.
  rewrite in_order_nil in E. injection E as <-. unfold schemaloc_pass. rewrite !pieces_on_root.
  - rewrite (proj1 (left_ns stix_1_2_ns_map t [] El)). apply pieces_left_table, oasis_table.
  - intro h. destruct (attr_get _ _); auto.
  - auto.
Qed.

Lemma stix_1_2_text_left o opts up d force s t r s' :
  dict_get "1.2" (STIX_UPDATERS o) = Some up -> wf_state s -> denotes s d t -> is_elem t = true ->
  updater_update o up d opts force s = (Ok r, s') ->
  exists t1 new, worked_on o up d opts force s t t1 /\ document s' (r_document r) new /\
    pieces new = pieces_left oasis_namespaces t1.
Proof.
  intros U W Dn El E. on_step U W Dn E f Ef t1 e Wk Fit Fe Doc. exists t1, (erase e). split; auto. split; auto.
  rewrite pieces_erase, <- (pieces_left_erase _ t1), <- (numbered_erase 1 t1), pieces_left_erase.
  apply stix_1_2_left; [eapply fit_elem; eauto|]. apply some_inj in Ef. subst f. exact Fe.
Qed.
