(** * A node once renumbered stays in the memory with its id until the end of
    the step. *)

From Coq Require Import String Ascii List Bool Arith Lia Permutation.
From Verif Require Import Str Xml XPath Utils Base Cybox Stix Ramrod Spec SpecDoc SpecPass SpecStep SpecCheck SpecClean SpecUpdate
  Lib Frame Refine RefineBase RefineTrans RefineCheck RefineClean RefineUpdate Api NoFail.
Import ListNotations.
Local Open Scope string_scope.

Definition peeks {A} (m : M A) : Prop := forall s, snd (m s) = s.

Lemma peeks_ret {A} (a : A) : peeks (ret a). Proof. intro; reflexivity. Qed.
Lemma peeks_raise {A} e : peeks (@raise A e). Proof. intro; reflexivity. Qed.
Lemma peeks_liftr {A} (r : res A) : peeks (liftr r). Proof. intro; reflexivity. Qed.
Lemma peeks_deref i : peeks (deref i).
Proof. intro s. unfold deref. destruct (hfind _ _); reflexivity. Qed.
Lemma peeks_bind {A B} (m : M A) (k : A -> M B) : peeks m -> (forall a, peeks (k a)) -> peeks (bind m k).
Proof. intros R K s. rewrite bind_run. specialize (R s). destruct (m s) as [[a|e] s1]; simpl in *; subst; [apply K|reflexivity]. Qed.
Lemma peeks_map_m {A B} (f : A -> M B) l : (forall x, peeks (f x)) -> peeks (map_m f l).
Proof. intro H. induction l as [|x l IH]; simpl; [apply peeks_ret|]. apply peeks_bind; auto. intro. apply peeks_bind; auto. intro. apply peeks_ret. Qed.
Lemma peeks_filter_m {A} (f : A -> M bool) l : (forall x, peeks (f x)) -> peeks (filter_m f l).
Proof. intro H. induction l as [|x l IH]; simpl; [apply peeks_ret|]. apply peeks_bind; auto. intro. apply peeks_bind; auto. intro. apply peeks_ret. Qed.

Ltac peeking :=
  repeat first
    [ apply peeks_ret | apply peeks_raise | apply peeks_liftr | apply peeks_deref
    | apply peeks_bind; intros | apply peeks_map_m; intros | apply peeks_filter_m; intros
    | match goal with |- peeks (match ?x with _ => _ end) => destruct x end ].

Lemma peeks_get_hdr i : peeks (get_hdr i). Proof. unfold get_hdr. peeking. Qed.
Lemma peeks_xpath i x ns : peeks (xpath i x ns). Proof. unfold xpath. peeking. Qed.
Lemma peeks_type_info i : peeks (get_type_info i). Proof. unfold get_type_info, get_hdr. peeking. Qed.
Lemma peeks_ext i : peeks (get_ext_namespace i). Proof. unfold get_ext_namespace. peeking. Qed.
Lemma peeks_typed r : peeks (get_typed_nodes r). Proof. apply peeks_xpath. Qed.
Lemma peeks_interrogate o k l : peeks (interrogate o k l).
Proof. destruct k; unfold interrogate; peeking; apply peeks_get_hdr. Qed.
Lemma peeks_find_in o d ns l : peeks (find_in o d ns l).
Proof. induction l; simpl; [apply peeks_ret|]. apply peeks_bind; [apply peeks_xpath|]. intro. apply peeks_bind; [apply peeks_interrogate|]. intro. apply peeks_bind; auto. intro. apply peeks_ret. Qed.
Lemma peeks_dfind o d ns r ty : peeks (dfind o d ns r ty).
Proof.
  unfold dfind, get_contexts. apply peeks_bind; [|intro; apply peeks_find_in]. destruct (d_ctx_types d); [apply peeks_ret|].
  apply peeks_bind; [destruct ty; [apply peeks_ret|apply peeks_typed]|]. intro. apply peeks_filter_m. intro.
  apply peeks_bind; [apply peeks_type_info|]. intro. apply peeks_bind; [apply peeks_ext|]. intro. apply peeks_ret.
Qed.

Lemma visits_any t : forall a b x, In (b, x) (visits a t) -> forall a1, exists c, In (c, x) (visits a1 t).
Proof.
  tree_induction t. intros a b x H a1. simpl in H. destruct H as [H|H].
  - injection H as <- <-. exists a1. apply visits_self.
  - apply in_flat_map in H as (k & Hk & H). destruct (IH k Hk _ _ _ H (Node h ks :: a1)) as (c & Hc).
    exists c. simpl. right. apply in_flat_map. eauto.
Qed.

(** ** Programs that only build a new tree *)

Definition makes (m : M tree) : Prop := forall s,
  match m s with
  | (Ok t, s1) => builds s [t] s1
  | (Err _, s1) => heap s1 = heap s /\ next s <= next s1
  end.

Lemma makes_read {A} (m : M A) k : peeks m -> (forall a, makes (k a)) -> makes (bind m k).
Proof.
  intros R K s. rewrite bind_run. specialize (R s). destruct (m s) as [[a|e] s1]; simpl in R; subst s1; [apply K|auto].
Qed.

Lemma makes_copy t : makes (copy_tree t).
Proof. intro s. destruct (copy_builds t s) as (t' & s1 & -> & B & _). exact B. Qed.

Lemma makes_raise e : makes (raise e).
Proof. intro s. simpl. auto. Qed.

Lemma builds_retag s h ks h' s1 : h_id h' = h_id h -> builds s [Node h ks] s1 -> builds s [Node h' ks] s1.
Proof. intros E [A B C D F]. constructor; auto; simpl in *; rewrite E; auto. Qed.

Lemma makes_copy_element j q : makes (copy_xml_element j q).
Proof.
  unfold copy_xml_element. apply makes_read; [apply peeks_deref|]. intros c s. rewrite bind_run.
  destruct (copy_builds (snd c) s) as (t' & s1 & -> & B & _). destruct (is_elem t').
  - destruct t' as [h ks]. simpl. eapply builds_retag; [|exact B]. reflexivity.
  - simpl. split; [apply B|apply B].
Qed.

Lemma makes_elem m q x : makes m -> makes (d <- m ;; new_elem q x [d]).
Proof.
  intros H s. rewrite bind_run. specialize (H s). destruct (m s) as [[t|e] s1]; [|auto].
  destruct (new_elem_builds q x [t] s s1 H) as (t' & s2 & -> & B & _). exact B.
Qed.

Lemma map_m_makes {A} (f : A -> M tree) l : (forall x, makes (f x)) -> forall s,
  match map_m f l s with
  | (Ok ts, s1) => builds s ts s1
  | (Err _, s1) => heap s1 = heap s /\ next s <= next s1
  end.
Proof.
  intro H. induction l as [|x l IH]; intro s; cbn [map_m].
  - simpl. apply builds_nil.
  - rewrite bind_run. pose proof (H x s) as Hx. destruct (f x s) as [[t|e] s1]; [|exact Hx].
    rewrite bind_run. specialize (IH s1). destruct (map_m f l s1) as [[ts|e] s2]; cbn [ret].
    + exact (builds_app s [t] s1 ts s2 Hx IH).
    + destruct IH as [Q R]. split; [rewrite Q; apply Hx|]. pose proof (bd_next _ _ _ Hx). lia.
Qed.

Lemma makes_contributors ns j : makes (translate_contributors ns j).
Proof.
  unfold translate_contributors. apply makes_read; [apply peeks_deref|]. intros c s. rewrite bind_run.
  pose proof (map_m_makes (fun k => dup <- copy_xml_element (tid k) (Some (qn ns "Identity")) ;; new_elem (qn ns "Source") None [dup])
                (kids (snd c)) (fun k => makes_elem _ _ _ (makes_copy_element _ _)) s) as H.
  destruct (map_m _ _ s) as [[ts|e] s1]; [|exact H].
  destruct (new_elem_builds (qn ns "Contributing_Sources") None ts s s1 H) as (t' & s2 & -> & B & _). exact B.
Qed.

Lemma makes_default ns xv q c ov j : makes (translate_default ns xv q c ov j).
Proof.
  unfold translate_default. apply makes_read; [apply peeks_get_hdr|]. intro h. apply makes_read; [apply peeks_xpath|].
  intros [|v vs]; [apply makes_raise|]. apply makes_read; [apply peeks_get_hdr|]. intros hv s. rewrite bind_run. simpl.
  constructor; simpl; auto. repeat constructor; simpl; tauto. intros i [<-|[]]. lia.
Qed.

Lemma makes_source o b j : makes (translate_source o b j).
Proof.
  unfold translate_source. apply makes_read; [apply peeks_get_hdr|]. intro h. destruct (parse_source _ _ _); [apply makes_copy|apply makes_raise].
Qed.

(** ** Keeping a node *)

Section Keep.
  Variable i : nat.
  Variable v : string.

  (** Node [i] exists and its id is [v]. *)
  Definition held (s : st) : Prop := exists a x, located s a x /\ tid x = i /\ id_of x = Some v.

  Definition rooted (j : nat) (s : st) : Prop := exists T, In T (heap s) /\ tid T = j.

  Definition kept (s s' : st) : Prop := wf_state s' /\ held s' /\ forall j, rooted j s -> rooted j s'.

  Definition keeps {A} (m : M A) : Prop := forall s, wf_state s -> held s -> kept s (snd (m s)).

  Lemma kept_refl s : wf_state s -> held s -> kept s s.
  Proof. repeat split; auto; apply H. Qed.

  Lemma kept_trans s s1 s2 : kept s s1 -> kept s1 s2 -> kept s s2.
  Proof. intros (A & B & C) (D & E & F). repeat split; auto; apply D. Qed.

  Lemma keeps_peeks {A} (m : M A) : peeks m -> keeps m.
  Proof. intros R s W H. rewrite R. apply kept_refl; auto. Qed.

  Lemma keeps_bind {A B} (m : M A) (k : A -> M B) : keeps m -> (forall a, keeps (k a)) -> keeps (bind m k).
  Proof.
    intros Hm Hk s W H. rewrite bind_run. specialize (Hm s W H). destruct (m s) as [[a|e] s1]; simpl in *; [|exact Hm].
    eapply kept_trans; [exact Hm|]. apply Hk; apply Hm.
  Qed.

  Lemma keeps_for_each {A} (l : list A) f : (forall x, keeps (f x)) -> keeps (for_each l f).
  Proof.
    intro H. induction l as [|x l IH]; simpl; [apply keeps_peeks, peeks_ret|]. apply keeps_bind; auto.
  Qed.

  Lemma keeps_when (b : bool) (m : M unit) : keeps m -> keeps (if b then m else ret tt).
  Proof. intro H. destruct b; [exact H|apply keeps_peeks, peeks_ret]. Qed.

  Definition keeps_the_id (f : hdr -> hdr) : Prop := keeps_id f /\ forall h, attr_get (lq "id") (h_attr (f h)) = attr_get (lq "id") (h_attr h).

  Lemma keeps_modify j f : keeps_the_id f -> keeps (modify j f).
  Proof.
    intros [K F] s [W1 W2] (a & x & (X & HX & Hx) & E & I). unfold modify. simpl.
    assert (Eh : hids (map (tset j f) (heap s)) = hids (heap s)).
    { apply hids_map_same. intros t _. apply tset_ids. exact K. }
    split; [|split].
    - split; simpl; fold (hids (map (tset j f) (heap s))); rewrite Eh; auto.
    - destruct (visits_tset j f X [] a x Hx) as (b & Hb). exists b, (tset j f x). split; [|split].
      + exists (tset j f X). split; [simpl; apply in_map; auto|exact Hb].
      + rewrite tset_tid by exact K. exact E.
      + unfold id_of in *. destruct x as [h ks]. cbn [tset head] in *. destruct (Nat.eqb _ _); [rewrite F|]; exact I.
    - intros k (T & HT & <-). exists (tset j f T). split; [simpl; apply in_map; auto|]. apply tset_tid. exact K.
  Qed.

  Lemma the_id_set k w : k <> lq "id" -> keeps_the_id (hset_attr k w).
  Proof.
    intro N. split; [intro h; reflexivity|]. intro h. unfold hset_attr, set_attrs. cbn [h_attr]. rewrite attr_get_set.
    destruct (qn_eqb (lq "id") k) eqn:Q; [|reflexivity]. exfalso. apply N. symmetry. apply qn_eqb_eq. exact Q.
  Qed.

  Lemma attr_get_del k k' l : k <> k' -> attr_get k (attr_del k' l) = attr_get k l.
  Proof.
    intro N. induction l as [|[q w] l IH]; simpl; auto. destruct (qn_eqb k' q) eqn:Q.
    - apply qn_eqb_eq in Q. subst q. destruct (qn_eqb k k') eqn:R; auto. apply qn_eqb_eq in R. contradiction.
    - simpl. rewrite IH. reflexivity.
  Qed.

  Lemma the_id_del k : k <> lq "id" -> keeps_the_id (hdel_attr k).
  Proof. intro N. split; [intro h; reflexivity|]. intro h. unfold hdel_attr, set_attrs. cbn [h_attr]. apply attr_get_del. congruence. Qed.

  Lemma the_id_tag q : keeps_the_id (set_tag q). Proof. split; intro h; reflexivity. Qed.
  Lemma the_id_text x : keeps_the_id (set_text x). Proof. split; intro h; reflexivity. Qed.

  Lemma held_same s s1 : heap s1 = heap s -> held s -> held s1.
  Proof. intros E (a & x & (X & HX & H) & K). exists a, x. split; [|exact K]. exists X. rewrite E. auto. Qed.

  Lemma kept_same s s1 : heap s1 = heap s -> next s <= next s1 -> wf_state s -> held s -> kept s s1.
  Proof.
    intros E L [W1 W2] H. split; [|split; [eapply held_same; eauto|]].
    - split; rewrite E; auto. intros j Hj. apply W2 in Hj. lia.
    - intros j (T & HT & R). exists T. rewrite E. auto.
  Qed.

  Lemma kept_supplant s j new : wf_state s -> held s -> loose new s -> kept s (snd (supplant j new s)).
  Proof.
    intros W H L. unfold supplant. rewrite bind_run. unfold deref. destruct (hfind j (heap s)) as [[a x]|] eqn:Hf; [|apply kept_refl; auto].
    apply hfind_some in Hf as (X & HX & Hx & Ex). simpl in Ex. destruct a as [|p a]; [apply kept_refl; auto|]. cbn [parent snd fst].
    assert (Lx : located s (p :: a) x) by (exists X; auto). subst j.
    change (kept s (St (map (tsubst (tid x) new) (heap s) ++ [x])%list (next s) (gen s))).
    split; [apply (supplant_wf s p a x new W Lx L)|]. split.
    - destruct H as (b & y & Ly & Ey & Iy). destruct (supplant_located s p a x new b y W Lx Ly) as [A B].
      destruct (in_dec Nat.eq_dec (tid y) (ids x)) as [D|D].
      + destruct (A D) as (b2 & _ & Q). exists b2, y. auto.
      + exists (map (tsubst (tid x) new) b), (tsubst (tid x) new y). split; [exact (B D)|]. rewrite tsubst_tid.
        split; auto. destruct y. exact Iy.
    - intros k (T & HT & <-). exists (tsubst (tid x) new T). split; [|apply tsubst_tid]. simpl. apply in_app_iff. left. apply in_map. exact HT.
  Qed.

  Lemma keeps_replace m j : makes m -> keeps (new <- m ;; replace_xml_element j new).
  Proof.
    intros Hm s W H. rewrite bind_run. specialize (Hm s). destruct (m s) as [[t|e] s1].
    - assert (K : kept s s1) by (apply kept_same; auto; apply Hm).
      eapply kept_trans; [exact K|]. apply kept_supplant; [apply K|apply K|]. exact (builds_loose s [t] s1 W Hm).
    - apply kept_same; auto; apply Hm.
  Qed.

  Lemma keeps_remove j : keeps (remove_xml_element j).
  Proof. intros s W H. apply kept_supplant; auto. split; [constructor|]. intros k []. Qed.

  Lemma keeps_translate_node o ns k j : keeps (translate_node o ns k j).
  Proof.
    destruct k; simpl.
    - apply keeps_replace, makes_default.
    - apply keeps_modify, the_id_tag.
    - apply keeps_replace, makes_elem, makes_copy_element.
    - apply keeps_replace, makes_contributors.
    - apply keeps_replace, makes_source.
    - apply keeps_replace, makes_source.
    - apply keeps_replace, makes_elem, makes_copy_element.
    - unfold mailslot_replace. apply keeps_bind; [apply keeps_peeks, peeks_deref|]. intro c.
      destruct (parent c) as [p|].
      + apply keeps_replace, makes_copy_element.
      + intros s W H. rewrite bind_run. pose proof (makes_copy_element j (Some new_tag) s) as B.
        destruct (copy_xml_element j (Some new_tag) s) as [[t|e] s1]; simpl; apply kept_same; auto; apply B.
  Qed.

  Lemma keeps_translate_fields o u r : keeps (translate_fields o u r).
  Proof.
    apply keeps_for_each. intro f. unfold translate. apply keeps_bind; [apply keeps_peeks, peeks_xpath|]. intro l.
    apply keeps_for_each. intro j. apply keeps_translate_node.
  Qed.

  Ltac keeping :=
    repeat first
      [ apply keeps_for_each; intro | apply keeps_bind; [|intro]
      | apply keeps_modify | apply the_id_tag | apply the_id_text | apply the_id_set; discriminate | apply the_id_del; discriminate
      | match goal with |- keeps (match ?x with _ => _ end) => destruct x end
      | apply keeps_peeks; first [apply peeks_ret | apply peeks_raise | apply peeks_liftr | apply peeks_deref | apply peeks_get_hdr | apply peeks_xpath
                                 | apply peeks_type_info | apply peeks_ext | apply peeks_typed | apply peeks_dfind ] ].

  Lemma keeps_vocabs u r : keeps (update_vocabs u r).
  Proof.
    unfold update_vocabs. apply keeps_bind; [apply keeps_peeks, peeks_typed|]. intro ty. apply keeps_for_each. intro w.
    unfold vocab_update. apply keeps_bind.
    - apply keeps_peeks. unfold vocab_find. apply peeks_filter_m. intro j. apply peeks_bind; [apply peeks_type_info|]. intro.
      apply peeks_bind; [apply peeks_ext|]. intro. apply peeks_ret.
    - intro l. apply keeps_for_each. intro j. unfold vocab_update_node, set_pystr. keeping.
  Qed.

  Lemma keeps_optionals o u r : c_opt_attrs u = [] -> keeps (update_optionals o u r).
  Proof.
    intro E. unfold update_optionals. rewrite E. apply keeps_bind; [apply keeps_peeks, peeks_typed|]. intro ty.
    apply keeps_bind; [|intro; apply keeps_peeks, peeks_ret]. apply keeps_for_each. intro d.
    apply keeps_bind; [apply keeps_peeks, peeks_dfind|]. intro l. apply keeps_for_each. apply keeps_remove.
  Qed.

  Lemma keeps_schemalocs u r : keeps (update_schemalocs u r).
  Proof. unfold update_schemalocs. keeping. Qed.

  Lemma keeps_stix_versions u a b r : keeps (stix_update_versions u a b r).
  Proof. unfold stix_update_versions, get_versioned_nodes. keeping. Qed.
  Lemma keeps_cybox_2_0_versions u r : keeps (cybox_2_0_update_versions u r).
  Proof. unfold cybox_2_0_update_versions, get_versioned_nodes. keeping. Qed.
  Lemma keeps_cybox_2_0_1_versions u r : keeps (cybox_2_0_1_update_versions u r).
  Proof. unfold cybox_2_0_1_update_versions, get_versioned_nodes. keeping. Qed.
  Lemma keeps_lists u r : keeps (update_lists u r).
  Proof. unfold update_lists. keeping. Qed.

  (** Renaming namespaces moves the children of a node to its replacement; the
      node itself stays behind. *)
  Lemma upd_ns_visits u t : forall anc n a0 b x, In (b, x) (visits a0 t) ->
    (forall a1, exists c y, In (c, y) (visits a1 (fst (upd_ns u anc t n))) /\ head y = head x) \/
    (exists y, In y (husks u t) /\ head y = head x).
  Proof.
    tree_induction t. intros anc n a0 b x H. rewrite upd_ns_node. simpl in H. destruct H as [H|H].
    - injection H as <- <-. destruct (ns_listed u (Node h ks)) eqn:Q.
      + right. exists (Node h []). cbn [husks]. rewrite Q. split; [left; auto|reflexivity].
      + left. intro a1. destruct (upd_kids u (Node h ks :: anc) ks n) as [ks' m]. exists a1, (Node h ks'). split; [apply visits_self|reflexivity].
    - apply in_flat_map in H as (k & Hk & H).
      assert (L : forall l m, incl l ks -> In k l ->
        (exists k', In k' (fst (upd_kids u (Node h ks :: anc) l m)) /\
           forall a1, exists c y, In (c, y) (visits a1 k') /\ head y = head x) \/
        (exists y, In y (husks_of u l) /\ head y = head x)).
      { induction l as [|z l IHl]; intros m Hl Hz; [destruct Hz|]. cbn [upd_kids husks_of flat_map].
        pose (r := if is_elem z then upd_ns u (Node h ks :: anc) z m else (z, m)). fold r.
        destruct Hz as [->|Hz].
        - assert (K : (forall a1, exists c y, In (c, y) (visits a1 (fst r)) /\ head y = head x) \/
                      (exists y, In y (if is_elem k then husks u k else []) /\ head y = head x)).
          { unfold r. destruct (is_elem k); [eapply IH; eauto|]. left. intro a1. simpl.
            destruct (visits_any k _ b x H a1) as (c & Hc). eauto. }
          destruct r as [k' m1]. destruct (upd_kids u (Node h ks :: anc) l m1) as [l'' m2]. simpl fst in *.
          destruct K as [K|(y & Hy & E)].
          + left. exists k'. split; [left; auto|exact K].
          + right. exists y. split; auto. apply in_app_iff. auto.
        - destruct r as [k' m1]. specialize (IHl m1 (fun w Hw => Hl w (or_intror Hw)) Hz).
          destruct (upd_kids u (Node h ks :: anc) l m1) as [l'' m2]. simpl fst in *.
          destruct IHl as [(w & Hw & K)|(y & Hy & E)].
          + left. exists w. split; [right; auto|exact K].
          + right. exists y. split; auto. apply in_app_iff. right. exact Hy. }
      specialize (L ks n (incl_refl _) Hk).
      destruct (upd_kids u (Node h ks :: anc) ks n) as [ks' m]. simpl fst in L.
      destruct L as [(k' & Hk' & K)|(y & Hy & E)].
      + left. intro a1.
        assert (V : forall h', exists c y, In (c, y) (visits a1 (Node h' ks')) /\ head y = head x).
        { intro h'. destruct (K (Node h' ks' :: a1)) as (c & y & Hc & E). exists c, y. split; auto. simpl. right.
          apply in_flat_map. eauto. }
        destruct (ns_listed u (Node h ks)); apply V.
      + right. exists y. split; auto. cbn [husks]. apply in_app_iff. right. exact Hy.
  Qed.

  Definition keeps_from (m : nat -> M nat) : Prop := forall s j, wf_state s -> held s -> rooted j s ->
    kept s (snd (m j s)) /\ forall r, fst (m j s) = Ok r -> rooted r (snd (m j s)).

  Lemma from_seq (m : nat -> M unit) k : (forall j, keeps (m j)) -> keeps_from k -> keeps_from (fun j => m j ;;; k j).
  Proof.
    intros Hm Hk s j W H R. rewrite bind_run. specialize (Hm j s W H). destruct (m j s) as [[a|e] s1]; simpl in *.
    - destruct Hm as (W1 & H1 & R1). destruct (Hk s1 j W1 H1 (R1 j R)) as [A B]. split; auto.
      eapply kept_trans; [|exact A]. repeat split; auto; apply W1.
    - split; [exact Hm|discriminate].
  Qed.

  Lemma from_bind m k : keeps_from m -> keeps_from k -> keeps_from (fun j => r <- m j ;; k r).
  Proof.
    intros Hm Hk s j W H R. rewrite bind_run. destruct (Hm s j W H R) as [A B]. destruct (m j s) as [[r|e] s1]; simpl in *.
    - destruct A as (W1 & H1 & R1). destruct (Hk s1 r W1 H1 (B r eq_refl)) as [A' B']. split; auto.
      eapply kept_trans; [|exact A']. repeat split; auto; apply W1.
    - split; [exact A|discriminate].
  Qed.

  Lemma from_ret : keeps_from (fun j => ret j).
  Proof. intros s j W H R. split; [apply kept_refl; auto|]. intros r E. injection E as <-. exact R. Qed.

  Lemma from_namespaces u : keeps_from (update_namespaces u).
  Proof.
    intros s j W H (T & HT & <-).
    destruct (upd_ns_fails u T) eqn:Fa.
    { unfold update_namespaces. rewrite bind_run, (deref_root s T) by auto. cbn [fst snd]. rewrite Fa. split; [apply kept_refl; auto|discriminate]. }
    pose proof (update_namespaces_computes u s T W HT) as C. unfold namespaces_pass in C. rewrite stuck_erase, <- upd_ns_stuck, Fa in C.
    destruct C as (T' & s' & E & S' & _).
    assert (Es : snd (update_namespaces u (tid T) s) = s') by (rewrite E; reflexivity).
    assert (Hp : heap s' = (map (fun t => if Nat.eqb (tid t) (tid T) then fst (upd_ns u [] T (next s)) else t) (heap s) ++ husks u T)%list).
    { rewrite <- Es. unfold update_namespaces. rewrite bind_run, (deref_root s T) by auto. cbn [fst snd]. rewrite Fa.
      destruct (upd_ns u [] T (next s)); reflexivity. }
    assert (Row : forall X, In X (heap s) -> X <> T -> In X (heap s')) by apply (st_frame _ _ _ _ S').
    assert (New : In (fst (upd_ns u [] T (next s))) (heap s')).
    { rewrite Hp. apply in_app_iff. left. apply in_map_iff. exists T. rewrite Nat.eqb_refl. auto. }
    rewrite E. cbn [fst snd]. split; [split; [apply (st_wf _ _ _ _ S')|split]|].
    - destruct H as (a & x & (X & HX & Hx) & Ex & I).
      destruct (Nat.eq_dec (tid X) (tid T)) as [D|D].
      + assert (X = T) by (apply (wf_same s X T (tid T) W HX HT); [rewrite <- D; apply in_ids_self|apply in_ids_self]). subst X.
        destruct (upd_ns_visits u T [] (next s) [] a x Hx) as [K|(y & Hy & Eh)].
        * destruct (K []) as (c & y & Hy & Eh). exists c, y. split; [eexists; split; [exact New|exact Hy]|].
          unfold tid, id_of in *. rewrite Eh. auto.
        * exists [], y. split; [exists y; split; [rewrite Hp; apply in_app_iff; auto|apply visits_self]|].
          unfold tid, id_of in *. rewrite Eh. auto.
      + exists a, x. split; [|auto]. exists X. split; [|exact Hx]. apply Row; auto. congruence.
    - intros k (X & HX & <-). destruct (Nat.eq_dec (tid X) (tid T)) as [D|D].
      + destruct (upd_ns_visits u T [] (next s) [] [] T (visits_self _ _)) as [_|(y & Hy & Eh)].
        2: { exists y. split; [rewrite Hp; apply in_app_iff; auto|]. unfold tid in *. rewrite Eh. auto. }
        rewrite D. clear X HX D. destruct T as [h ks].
        destruct (ns_listed u (Node h ks)) eqn:Q.
        * exists (Node h []). split; [|reflexivity]. rewrite Hp. apply in_app_iff. right. cbn [husks]. rewrite Q. left. reflexivity.
        * eexists. split; [exact New|]. rewrite upd_ns_node. destruct (upd_kids _ _ _ _) as [ks' m]. rewrite Q. reflexivity.
      + exists X. split; auto. apply Row; auto. congruence.
    - intros r Er. injection Er as <-. exists T'. split; auto. apply (st_in _ _ _ _ S').
  Qed.

  Lemma from_last (m : nat -> M unit) : (forall j, keeps (m j)) -> keeps_from (fun j => m j ;;; ret j).
  Proof. intro H. apply from_seq; [exact H|apply from_ret]. Qed.

  Lemma from_cybox_2_0 u opts : keeps_from (fun j => cybox_2_0_do_update u j opts).
  Proof.
    unfold cybox_2_0_do_update.
    apply (from_seq (update_schemalocs u)); [apply keeps_schemalocs|].
    apply (from_seq (cybox_2_0_update_versions u)); [apply keeps_cybox_2_0_versions|].
    apply (from_seq (update_lists u)); [apply keeps_lists|].
    apply from_last. intro j. apply keeps_when, keeps_vocabs.
  Qed.

  Lemma from_cybox_2_0_1 o u opts : c_opt_attrs u = [] -> keeps_from (fun j => cybox_2_0_1_do_update o u j opts).
  Proof.
    intro N. unfold cybox_2_0_1_do_update. apply (from_bind (update_namespaces u)); [apply from_namespaces|].
    apply (from_seq (update_schemalocs u)); [apply keeps_schemalocs|].
    apply (from_seq (cybox_2_0_1_update_versions u)); [apply keeps_cybox_2_0_1_versions|].
    apply (from_seq (translate_fields o u)); [apply keeps_translate_fields|].
    apply (from_seq (fun j => if update_vocabularies opts then update_vocabs u j else ret tt)); [intro; apply keeps_when, keeps_vocabs|].
    apply from_last. intro j. apply keeps_when, keeps_optionals, N.
  Qed.

  Lemma from_stix_1_0 opts : keeps_from (fun j => stix_1_0_do_update j opts).
  Proof.
    unfold stix_1_0_do_update. apply (from_bind (fun j => cybox_2_0_do_update Cybox_in_1_0 j opts)); [apply from_cybox_2_0|].
    apply (from_bind (update_namespaces STIX_1_0)); [apply from_namespaces|].
    apply (from_seq (update_schemalocs STIX_1_0)); [apply keeps_schemalocs|].
    apply (from_seq (stix_update_versions STIX_1_0 "2.0.1" "1.0.1")); [apply keeps_stix_versions|].
    apply from_last. intro j. apply keeps_when, keeps_vocabs.
  Qed.

  Lemma from_stix_1_0_1 o opts : keeps_from (fun j => stix_1_0_1_do_update o j opts).
  Proof.
    unfold stix_1_0_1_do_update.
    apply (from_bind (fun j => cybox_2_0_1_do_update o Cybox_in_1_0_1 j opts)); [apply from_cybox_2_0_1; reflexivity|].
    apply (from_bind (update_namespaces STIX_1_0_1)); [apply from_namespaces|].
    apply (from_seq (update_schemalocs STIX_1_0_1)); [apply keeps_schemalocs|].
    apply (from_seq (stix_update_versions STIX_1_0_1 "2.1" "1.1")); [apply keeps_stix_versions|].
    apply (from_seq (translate_fields o STIX_1_0_1)); [apply keeps_translate_fields|].
    apply (from_seq (fun j => if update_vocabularies opts then update_vocabs STIX_1_0_1 j else ret tt)); [intro; apply keeps_when, keeps_vocabs|].
    apply from_last. intro j. apply keeps_when, keeps_optionals. reflexivity.
  Qed.

  Lemma from_stix_1_1 o opts : keeps_from (fun j => stix_1_1_do_update o j opts).
  Proof.
    unfold stix_1_1_do_update.
    apply (from_seq (update_schemalocs Cybox_2_0_1)); [apply keeps_schemalocs|].
    apply (from_seq (update_schemalocs STIX_1_1)); [apply keeps_schemalocs|].
    apply (from_seq (stix_update_versions STIX_1_1 "2.1.1" "1.1.1")); [apply keeps_stix_versions|].
    apply (from_seq (translate_fields o STIX_1_1)); [apply keeps_translate_fields|].
    apply (from_seq (fun j => if update_vocabularies opts then update_vocabs STIX_1_1 j else ret tt)); [intro; apply keeps_when, keeps_vocabs|].
    apply from_last. intro j. apply keeps_when, keeps_optionals. reflexivity.
  Qed.

  Lemma from_stix_1_1_1 opts : keeps_from (fun j => stix_1_1_1_do_update j opts).
  Proof.
    unfold stix_1_1_1_do_update.
    apply (from_seq (update_schemalocs STIX_1_1_1)); [apply keeps_schemalocs|].
    apply (from_seq (stix_update_versions STIX_1_1_1 "2.2" "1.2")); [apply keeps_stix_versions|].
    apply from_last. intro j. apply keeps_when, keeps_vocabs.
  Qed.

  Lemma from_stix_1_2 opts : keeps_from (fun j => stix_1_2_do_update j opts).
  Proof.
    unfold stix_1_2_do_update. apply (from_bind (update_namespaces STIX_1_2)); [apply from_namespaces|].
    apply (from_seq (update_schemalocs STIX_1_2)); [apply keeps_schemalocs|].
    apply (from_last (fun j => modify j (hset_attr (lq "version") "1.2.1"))). intro j.
    apply keeps_modify, the_id_set. discriminate.
  Qed.

  (** *** Taking out disallowed nodes *)
  Lemma keeps_clean_disallowed l : keeps (clean_disallowed l).
  Proof.
    induction l as [|j l IH]; [apply keeps_peeks, peeks_ret|]. unfold clean_disallowed. cbn [map_m].
    apply keeps_bind; [|intro; apply keeps_bind; [exact IH|intro; apply keeps_peeks, peeks_ret]].
    intros s W H. rewrite bind_run. pose proof (makes_copy_element j None s) as B.
    destruct (copy_xml_element j None s) as [[t|e] s1]; [|apply kept_same; auto; apply B].
    assert (K1 : kept s s1) by (apply kept_same; auto; apply B).
    eapply kept_trans; [exact K1|]. destruct K1 as (W1 & H1 & _).
    rewrite bind_run. pose proof (keeps_remove j s1 W1 H1) as K2.
    destruct (remove_xml_element j s1) as [[[]|e] s2] eqn:E2; [|exact K2].
    eapply kept_trans; [exact K2|]. destruct K2 as (W2 & H2 & _). simpl in *.
    assert (N2 : next s2 = next s1).
    { revert E2. unfold remove_xml_element, supplant. rewrite bind_run. unfold deref. destruct (hfind j (heap s1)) as [[b y]|]; [|discriminate].
      destruct (parent (b, y)); intro Q; injection Q as <-; reflexivity. }
    destruct (builds_loose s [t] s1 W B) as [L1 L2]. destruct W2 as [W2 W3].
    split; [split; simpl|split].
    - fold (hids (heap s2 ++ [t])). rewrite hids_app. apply NoDup_app. split; auto. split; [exact L1|].
      intros k Hk Hk'. destruct (L2 k Hk') as [_ L]. apply L. eapply remove_ids_incl; eauto.
    - intros k Hk. fold (hids (heap s2 ++ [t])) in Hk. rewrite hids_app in Hk. apply in_app_iff in Hk as [Hk|Hk]; auto.
      destruct (L2 k Hk) as [L _]. lia.
    - destruct H2 as (a & x & (X & HX & Hx) & K). exists a, x. split; auto. exists X. split; auto. simpl. apply in_app_iff. auto.
    - intros k (X & HX & Ek). exists X. split; auto. simpl. apply in_app_iff. auto.
  Qed.
End Keep.

Lemma registered_keeps o up opts i v : In up (map snd (STIX_UPDATERS o) ++ map snd (CYBOX_UPDATERS o)) ->
  keeps_from i v (fun r => up_update up r opts).
Proof.
  simpl. intros [<-|[<-|[<-|[<-|[<-|[<-|[<-|[]]]]]]]]; cbn [up_update STIX_1_0_Updater STIX_1_0_1_Updater
    STIX_1_1_Updater STIX_1_1_1_Updater STIX_1_2_Updater Cybox_2_0_Updater Cybox_2_0_1_Updater].
  - apply from_stix_1_0.
  - apply from_stix_1_0_1.
  - apply from_stix_1_1.
  - apply from_stix_1_1_1.
  - apply from_stix_1_2.
  - apply from_cybox_2_0.
  - apply from_cybox_2_0_1. reflexivity.
Qed.

(** ** Cleaning *)

Lemma position_in i l : In i l -> exists k, position i l = Some k /\ k < length l.
Proof.
  induction l as [|j l IH]; [intros []|]. intro H. simpl. destruct (Nat.eqb_spec i j); [exists 0; split; auto; lia|].
  destruct H as [->|H]; [contradiction|]. destruct (IH H) as (k & -> & L). exists (S k). split; auto. lia.
Qed.

Lemma position_inj l : forall i j k, position i l = Some k -> position j l = Some k -> i = j.
Proof.
  induction l as [|x l IH]; intros i j k; simpl; [discriminate|].
  destruct (Nat.eqb_spec i x), (Nat.eqb_spec j x); subst; auto.
  - intro H. injection H as <-. destruct (position j l); discriminate.
  - intros H Q. injection Q as <-. destruct (position i l); discriminate.
  - destruct (position i l) as [a|] eqn:A; [|discriminate]. destruct (position j l) as [b|] eqn:B; [|discriminate].
    simpl. intros H Q. injection H as <-. injection Q as ->. eapply IH; eauto.
Qed.

(** The nodes listed in [d] hold the ids made from their keys, numbered from [g]. *)
Definition renamed_from (f : nat -> string -> string) (g : nat) (d : dict (list nat)) (s : st) : Prop :=
  forall old l i, In (old, l) d -> In i l ->
    exists k, position i (flat_map snd d) = Some k /\ held i (f (g + k) old) s.

Definition remaps (up : updater) (opts : options) : Prop := forall s T r s', wf_state s -> In T (heap s) ->
  clean_root up (tid T) opts s = (Ok r, s') ->
  renamed_from (new_id_func opts) (gen s) (coll_dict (r_remapped r)) s' /\
  incl (flat_map snd (coll_dict (r_remapped r))) (ids T).

Lemma fresh_ids_held f g d s T s1 : steps T s (fresh_ids f g (flat_map snd d) T) s1 ->
  (forall old l i, In (old, l) d -> In i l -> exists a x, In (a, x) (visits [] T) /\ tid x = i /\ id_of x = Some old) ->
  renamed_from f g d s1.
Proof.
  intros S1 H old l i Hd Hi. destruct (H old l i Hd Hi) as (a & x & Hx & Ex & Ix).
  destruct (position_in i (flat_map snd d)) as (k & Hk & _); [apply in_flat_map; exists (old, l); auto|].
  exists k. split; auto. pose proof (st_in _ _ _ _ S1) as HT. rewrite fresh_ids_tmap in HT.
  exists (map (tmap (renumber f g (flat_map snd d))) a), (tmap (renumber f g (flat_map snd d)) x). split; [|split].
  - eexists. split; [exact HT|]. pose proof (tmap_visits (renumber f g (flat_map snd d)) T []) as Q. simpl in Q. rewrite Q.
    apply in_map_iff. exists (a, x). auto.
  - rewrite tmap_tid by apply renumber_keeps. exact Ex.
  - unfold id_of in *. rewrite tmap_head. unfold renumber. rewrite Ex, Hk, Ix. cbn [hset_attr set_attrs h_attr].
    rewrite attr_get_set, qn_eqb_refl. reflexivity.
Qed.

Lemma clean_remaps up opts (dup : tree -> dict (list nat))
  (Pdis : forall r, peeks (up_get_disallowed up r))
  (Rdup : forall s T, wf_state s -> In T (heap s) -> up_get_duplicates up (tid T) s = (Ok (Some (dup T)), s))
  (Cdis : forall l, up_clean_disallowed up l opts = clean_disallowed l)
  (Cdup : forall d, up_clean_duplicates up d opts = clean_duplicates opts d)
  (Ndup : forall T, NoDup (ids T) -> NoDup (flat_map snd (dup T)))
  (Edup : forall T old l i, In (old, l) (dup T) -> In i l ->
     exists a x, In (a, x) (visits [] T) /\ tid x = i /\ id_of x = Some old) :
  remaps up opts.
Proof.
  intros s T r s' W HT. unfold clean_root. rewrite bind_run. specialize (Pdis (tid T) s).
  destruct (up_get_disallowed up (tid T) s) as [[dis|e] s0]; [|discriminate]. simpl in Pdis. subst s0.
  rewrite bind_run, (Rdup s T W HT), bind_run.
  destruct (clean_duplicates_steps opts (dup T) s T W HT (Ndup T (wf_NoDup s T W HT))) as (s1 & E1 & S1 & _).
  { intros i Hi. apply in_flat_map in Hi as ([old l] & Hd & Hi). destruct (Edup T old l i Hd Hi) as (a & x & A & B & C). eauto 6. }
  assert (Q : (match Some (dup T) with Some (x :: l) => up_clean_duplicates up (x :: l) opts | _ => ret [] end) s = (Ok (dup T), s1)).
  { etransitivity; [|exact E1]. destruct (dup T); [reflexivity|]. rewrite Cdup. reflexivity. }
  rewrite Q, bind_run.
  set (m := match dis with Some (x :: l) => up_clean_disallowed up (x :: l) opts | _ => ret [] end).
  assert (K : forall i v, keeps i v m).
  { intros i v. unfold m. destruct dis as [[|x l]|]; try apply keeps_peeks, peeks_ret. rewrite Cdis. apply keeps_clean_disallowed. }
  destruct (m s1) as [[removed|e] s2] eqn:E2; [|discriminate]. intro R. injection R as <- <-. cbn [r_remapped coll_dict]. split.
  - intros old l i Hd Hi.
    destruct (fresh_ids_held _ _ _ _ _ _ S1 (Edup T) old l i Hd Hi) as (k & Hk & Hh). exists k. split; auto.
    specialize (K _ _ s1 (st_wf _ _ _ _ S1) Hh). rewrite E2 in K. apply K.
  - intros i Hi. apply in_flat_map in Hi as ([old l] & Hd & Hi). destruct (Edup T old l i Hd Hi) as (a & x & A & <- & _).
    eapply visits_tid_in; eauto.
Qed.

Lemma no_remaps up opts : (forall r s d s', up_get_duplicates up r s = (Ok d, s') -> d = None) -> remaps up opts.
Proof.
  intros N s T r s' _ _. unfold clean_root. rewrite bind_run. destruct (up_get_disallowed up (tid T) s) as [[dis|e] s0]; [|discriminate].
  rewrite bind_run. destruct (up_get_duplicates up (tid T) s0) as [[d|e] s1] eqn:E; [|discriminate]. apply N in E. subst d.
  rewrite bind_run. cbn [ret]. rewrite bind_run.
  destruct ((match dis with Some (x :: l) => up_clean_disallowed up (x :: l) opts | _ => ret [] end) s1) as [[l|e] s2]; [|discriminate].
  intro R. injection R as <- <-. split; [intros old l' i []|intros i []].
Qed.

Lemma with_bearers_entry nss T l old b i : In (old, b) (with_bearers nss T l) -> In i b ->
  exists a x, In (a, x) (visits [] T) /\ tid x = i /\ id_of x = Some old.
Proof. intros H Hi. apply in_map_iff in H as (k & E & _). injection E as <- <-. apply bearers_in in Hi. exact Hi. Qed.

Lemma peeks_find_disallowed o ns l r : peeks (find_disallowed o ns l r).
Proof. induction l; simpl; [apply peeks_ret|]. apply peeks_bind; [apply peeks_dfind|]. intro. apply peeks_bind; auto. intro. apply peeks_ret. Qed.

Lemma registered_remaps o up opts : In up (map snd (STIX_UPDATERS o) ++ map snd (CYBOX_UPDATERS o)) -> remaps up opts.
Proof.
  simpl. intros [<-|[<-|[<-|[<-|[<-|[<-|[<-|[]]]]]]]].
  - apply no_remaps. intros r s d s' E. injection E; auto.
  - apply (clean_remaps _ _ stix_duplicates); auto.
    + intro r. cbn [up_get_disallowed STIX_1_0_1_Updater Cybox_2_0_1_Updater]. unfold stix_1_0_1_get_disallowed, cybox_2_0_1_get_disallowed.
      repeat first [apply peeks_find_disallowed | apply peeks_ret | apply peeks_bind; intros].
    + intros s T W HT. cbn [STIX_1_0_1_Updater up_get_duplicates].
      rewrite bind_run, (stix_1_0_1_get_duplicates_reads s T W HT). reflexivity.
    + intros T N. apply with_bearers_NoDup; auto. apply shared_keys_NoDup.
    + intros T old l i. apply with_bearers_entry.
  - apply no_remaps. intros r s d s' E. injection E; auto.
  - apply no_remaps. intros r s d s' E. injection E; auto.
  - intros s T r s' _ _ E. discriminate.
  - apply no_remaps. intros r s d s' E. injection E; auto.
  - apply (clean_remaps _ _ cybox_duplicates); auto.
    + intro r. cbn [up_get_disallowed STIX_1_0_1_Updater Cybox_2_0_1_Updater]. unfold cybox_2_0_1_get_disallowed.
      repeat first [apply peeks_find_disallowed | apply peeks_ret | apply peeks_bind; intros].
    + intros s T W HT. cbn [Cybox_2_0_1_Updater up_get_duplicates].
      rewrite bind_run, (cybox_2_0_1_get_duplicates_reads s T W HT). reflexivity.
    + intros T N. apply with_bearers_NoDup; auto. apply shared_NoDup.
    + intros T old l i. apply with_bearers_entry.
Qed.

(** ** One step *)

Lemma numbered_range n t i : In i (ids (numbered n t)) -> n <= i.
Proof.
  intro H. pose proof (copy_builds t (St [] n 0)) as (t' & s1 & E & B & _).
  unfold copy_tree in E. simpl in E. unfold numbered in H. destruct (renum n t) as [t0 m]. injection E as -> <-.
  pose proof (bd_range _ _ _ B i) as R. simpl in R. rewrite app_nil_r in R. apply R in H. lia.
Qed.

Lemma coll_dict_remapped i c a : coll_dict (r_remapped (create_update_results i (Some c) a)) = coll_dict c.
Proof. destruct c as [[|]|[|]|[|]]; reflexivity. Qed.

Definition listed_in (f : nat -> string -> string) (s s' : st) (d : dict (list nat)) (call : nat -> nat) : Prop :=
  (forall old l i, In (old, l) d -> In i l -> gen s <= call i < gen s' /\ held i (f (call i) old) s') /\
  (forall i j, In i (flat_map snd d) -> In j (flat_map snd d) -> call i = call j -> i = j).

Lemma listed_nil f s s' c : listed_in f s s' [] c.
Proof. split; [intros old l i []|intros i j []]. Qed.

(** Node [i] is a tree of its own. *)
Definition standing (s : st) (i : nat) : Prop := exists e, document s i e.

Lemma step_lists o up c D f d opts force s t r s' :
  In up (map snd (STIX_UPDATERS o) ++ map snd (CYBOX_UPDATERS o)) ->
  describes up (or_default o opts) c D f -> wf_state s -> denotes s d t ->
  updater_update o up d opts force s = (Ok r, s') ->
  wf_state s' /\ gen s <= gen s' /\ Forall (standing s') (coll_items (r_removed r)) /\
  (forall i, In i (flat_map snd (coll_dict (r_remapped r))) -> next s <= i) /\
  exists call, listed_in (new_id_func (or_default o opts)) s s' (coll_dict (r_remapped r)) call.
Proof.
  intros Reg Des W Dn E. pose proof (update_performs o up opts c D f d force s t Des W Dn) as P. unfold performs in P.
  destruct (single c D f (new_id_func (or_default o opts)) force (gen s) (numbered (next s) t)) as [oc|x];
    [|destruct P as (s0 & E0); congruence].
  destruct P as (r0 & s0 & E0 & W' & _ & F' & _ & G' & C' & _). rewrite E in E0. injection E0 as <- <-.
  split; [exact W'|]. split; [lia|]. split.
  { rewrite C'. clear -F'. induction F'; constructor; auto. exists y. exact H. } revert E. unfold updater_update.
  destruct (copied s d t W Dn) as (n1 & E1 & W1). rewrite bind_run, E1. cbv beta zeta.
  set (T := numbered (next s) t) in *. set (s1 := St _ n1 _) in *.
  assert (HT : In T (heap s1)) by (simpl; apply in_app_iff; right; left; auto).
  pose proof Des as (HC & HD & HF & HN). unfold try_catch. rewrite bind_run, (HC s1 T W1 HT). destruct (c T) as [u|x].
  - rewrite bind_run. pose proof (HN (tid T) s1) as N.
    destruct (up_update up (tid T) (or_default o opts) s1) as [[j|y] s2].
    + intro Q. injection Q as <- <-. split; [intros i []|]. exists (fun i => i). apply listed_nil.
    + rewrite (other_not_failure y) by (eapply N; reflexivity). simpl. discriminate.
  - destruct (is_update_failure x && force); [|discriminate]. unfold force_update. rewrite bind_run.
    pose proof (HD s1 T W1 HT) as Dt. destruct (D T) as [dt|y]; [|rewrite Dt; discriminate].
    destruct Dt as (copies & s2 & E2 & S2 & G2 & _). 
    destruct (registered_remaps o up (or_default o opts) Reg s1 T _ s2 W1 HT E2) as [Rn Inc].
    rewrite E2. cbn [r_document r_removed r_remapped coll_dict] in *.
    set (T2 := cleaned _ _ _ _) in *. pose proof (st_wf _ _ _ _ S2) as W2. pose proof (st_in _ _ _ _ S2) as HT2.
    assert (I2 : tid T2 = tid T).
    { unfold T2, cleaned. rewrite without_rwm, rwm_tid, fresh_ids_tmap. apply tmap_tid, renumber_keeps. }
    rewrite <- I2, bind_run, (as_element_root s2 T2), bind_run by auto.
    destruct (up_update up (tid T2) (or_default o opts) s2) as [[j|y] s3] eqn:E3; [|discriminate].
    intro Q. injection Q as <- <-. rewrite coll_dict_remapped. cbn [coll_dict].
    assert (G3 : gen s3 = gen s2).
    { pose proof (HF s2 T2 W2 HT2) as F. destruct (f (erase T2)).
      - destruct F as (T' & s4 & E4 & _ & G4 & _). rewrite E3 in E4. injection E4 as _ ->. exact G4.
      - destruct F as (s4 & E4). rewrite E3 in E4. discriminate. }
    split.
    + intros i Hi. apply Inc in Hi. exact (numbered_range _ _ _ Hi).
    + exists (fun i => gen s + match position i (flat_map snd (snd dt)) with Some k => k | None => 0 end). split.
      * intros old l i Hd Hi. destruct (Rn old l i Hd Hi) as (k & Hk & Hh). rewrite Hk.
        destruct (position_in i (flat_map snd (snd dt))) as (k' & Hk' & L); [apply in_flat_map; exists (old, l); auto|].
        rewrite Hk in Hk'. injection Hk' as <-. unfold renumbered in G2. change (gen s1) with (gen s) in *.
        split; [rewrite G3, G2; lia|].
        destruct (registered_keeps o up (or_default o opts) i _ Reg s2 (tid T2) W2 Hh) as [K _]; [exists T2; auto|].
        rewrite E3 in K. apply K.
      * intros i i' Hi Hi'. destruct (position_in i _ Hi) as (k & Hk & _). destruct (position_in i' _ Hi') as (k' & Hk' & _).
        rewrite Hk, Hk'. intro Q. assert (k = k') by lia. subst k'. eapply position_inj; eauto.
Qed.

(** ** Several steps *)

Lemma dict_set_in {A} k (v : A) d k' v' : In (k', v') (dict_set k v d) -> In (k', v') d \/ v' = v /\ k' = k.
Proof.
  induction d as [|[a b] d IH]; simpl.
  - intros [H|[]]. injection H as <- <-. auto.
  - destruct (String.eqb_spec k a) as [->|]; simpl; intros [H|H]; auto.
    + injection H as <- <-. auto.
    + destruct (IH H); auto.
Qed.

Lemma dict_update_in {A} (e d : dict A) k v : In (k, v) (dict_update d e) -> In (k, v) d \/ In (k, v) e.
Proof.
  revert d. induction e as [|[a b] e IH]; intros d H; [left; exact H|]. simpl in H. apply IH in H as [H|H]; [|right; right; auto].
  apply dict_set_in in H as [H|[-> ->]]; auto. right; left; auto.
Qed.

Lemma held_extends i v s s' new : heap s' = (heap s ++ new)%list -> held i v s -> held i v s'.
Proof.
  intros E (a & x & (X & HX & Hx) & K). exists a, x. split; auto. exists X. split; auto. rewrite E. apply in_app_iff. auto.
Qed.

Lemma held_below i v s : wf_state s -> held i v s -> i < next s.
Proof. intros [_ W] (a & x & L & <- & _). apply W. eapply located_in; eauto. Qed.

Lemma root_node X b y s : In X (heap s) -> In (b, y) (visits [] X) ->
  exists anc t, node_at s (tid (root_of (b, y))) anc t.
Proof.
  intros HX Hy. unfold root_of. cbn [fst snd]. destruct b as [|z0 b0]; [exists [], y; exists X; auto|].
  set (z := last (z0 :: b0) y). assert (Hz : In z (z0 :: b0)).
  { destruct (exists_last (l := z0 :: b0)) as (l0 & z1 & El); [discriminate|]. unfold z. rewrite El, last_last. apply in_app_iff. right. left. auto. }
  destruct (visits_anc_ctx X [] _ y z Hy Hz) as [[]|(a1 & a2 & _ & Q & _)]. exists a2, z. exists X. auto.
Qed.

Lemma steps_list o table opts force
  (Hreg : forall v up, dict_get v table = Some up -> In up (map snd (STIX_UPDATERS o) ++ map snd (CYBOX_UPDATERS o)))
  (Hdes : forall v up, dict_get v table = Some up -> exists c D f, describes up (or_default o opts) c D f) :
  forall vs s0 root removed remapped s t anc i l d s' call, wf_state s -> node_at s root anc t -> gen s0 <= gen s ->
  run_steps o table vs root opts force removed remapped s = (Ok (i, l, d), s') ->
  listed_in (new_id_func (or_default o opts)) s0 s remapped call -> Forall (standing s) removed ->
  wf_state s' /\ Forall (standing s') l /\ exists call', listed_in (new_id_func (or_default o opts)) s0 s' d call'.
Proof.
  set (f := new_id_func (or_default o opts)).
  induction vs as [|v vs IH]; intros s0 root removed remapped s t anc i l d s' call W At G E C R; simpl in E.
  - injection E as _ <- <- <-. eauto.
  - destruct (dict_get v table) as [up|] eqn:Eup; [|discriminate]. rewrite bind_run in E.
    destruct (updater_update o up (DElem root) opts force s) as [[r|e] s1] eqn:E1; [|discriminate].
    destruct (Hdes v up Eup) as (c & D & g & Des). pose proof (Hreg v up Eup) as Reg.
    assert (Dn : denotes s (DElem root) t) by (exists anc; exact At).
    destruct (step_lists o up c D g (DElem root) opts force s t r s1 Reg Des W Dn E1) as (W1 & G1 & R1 & New & call1 & C1a & C1b).
    pose proof (bounded_extends _ s W (fun old => safe_updater_update old o up (DElem root) opts force (registered_safe o up Reg old))) as (new & Hnew).
    rewrite E1 in Hnew. simpl in Hnew.
    rewrite bind_run in E. unfold as_element in E at 1. rewrite bind_run in E. unfold deref in E.
    destruct (hfind (r_document r) (heap s1)) as [[b y]|] eqn:Hf; [|discriminate]. cbn [ret] in E.
    apply hfind_some in Hf as (X & HX & Hy & Ey).
    pose proof (root_node X b y s1 HX Hy) as AtR.
    destruct AtR as (a2 & t2 & At2). destruct C as [Ca Cb].
    assert (Old : forall j, In j (flat_map snd remapped) -> j < next s).
    { intros j Hj. apply in_flat_map in Hj as ([old l0] & Hd & Hj). destruct (Ca old l0 j Hd Hj) as [_ Hh]. eapply held_below; eauto. }
    refine (IH s0 _ _ _ s1 t2 a2 i l d s' (fun j => if Nat.ltb j (next s) then call j else call1 j) W1 At2 ltac:(lia) E _ _).
    2: { apply Forall_app. split; auto. eapply Forall_impl; [|exact R]. intros z (e & He). exists e. eapply document_kept; eauto. }
    assert (Split : forall j, In j (flat_map snd (dict_update remapped (coll_dict (r_remapped r)))) ->
              In j (flat_map snd remapped) \/ In j (flat_map snd (coll_dict (r_remapped r)))).
    { intros j Hj. apply in_flat_map in Hj as ([old l0] & Hd & Hj). apply dict_update_in in Hd as [Hd|Hd]; [left|right];
        apply in_flat_map; exists (old, l0); auto. }
    split.
    + intros old l0 j Hd Hj. apply dict_update_in in Hd as [Hd|Hd].
      * destruct (Ca old l0 j Hd Hj) as [Q Hh]. pose proof (held_below _ _ _ W Hh) as Lt.
        destruct (Nat.ltb_spec j (next s)); [|lia]. split; [lia|]. eapply held_extends; eauto.
      * destruct (C1a old l0 j Hd Hj) as [Q Hh]. assert (next s <= j) by (apply New; apply in_flat_map; exists (old, l0); auto).
        destruct (Nat.ltb_spec j (next s)); [lia|]. split; [lia|]. exact Hh.
    + assert (Rng : forall j, In j (flat_map snd remapped) -> call j < gen s).
      { intros j Hj. apply in_flat_map in Hj as ([old l0] & Hd & Hj). destruct (Ca old l0 j Hd Hj). lia. }
      assert (Rng1 : forall j, In j (flat_map snd (coll_dict (r_remapped r))) -> gen s <= call1 j).
      { intros j Hj. apply in_flat_map in Hj as ([old l0] & Hd & Hj). destruct (C1a old l0 j Hd Hj). lia. }
      intros j k Hj Hk. apply Split in Hj. apply Split in Hk.
      destruct Hj as [Hj|Hj], Hk as [Hk|Hk];
        repeat match goal with
        | H : In ?z (flat_map snd remapped) |- _ => pose proof (Old z H); pose proof (Rng z H); revert H
        | H : In ?z (flat_map snd (coll_dict _)) |- _ => pose proof (New z H); pose proof (Rng1 z H); revert H
        end; intros ? ?;
        destruct (Nat.ltb_spec j (next s)), (Nat.ltb_spec k (next s)); try lia; auto.
Qed.

(** ** The entry points *)

Lemma held_holds i v s : held i v s <-> holds_id s i v.
Proof.
  split; intros (a & x & H & K).
  - destruct H as (X & HX & Hx), K as [E I]. exists a, x. split; auto. exists X. auto.
  - destruct H as (X & HX & Hx & E). exists a, x. split; auto. exists X. auto.
Qed.

Lemma listed_renumbering f s s' d call : listed_in f s s' d call -> renumbering f s s' d.
Proof.
  intros [A B]. exists call. split; auto. intros old l i Hd Hi. destruct (A old l i Hd Hi) as [R H]. split; auto. apply held_holds. exact H.
Qed.

Lemma peeks_cybox_version r : peeks (cybox_node_version r).
Proof. unfold cybox_node_version. peeking; try apply peeks_get_hdr. Qed.
Lemma peeks_stix_version r : peeks (stix_node_version r).
Proof. unfold stix_node_version. peeking; try apply peeks_get_hdr. Qed.

Lemma versioned_renumbers o versions table get_version
  (Hreg : forall v up, dict_get v table = Some up -> In up (map snd (STIX_UPDATERS o) ++ map snd (CYBOX_UPDATERS o)))
  (Hdes : forall v up opts, dict_get v table = Some up -> exists c D f, describes up opts c D f)
  (Hv : forall r, peeks (get_version r)) :
  forall d from to opts force s t r s', wf_state s -> denotes s d t ->
  versioned_update o versions table get_version d from to opts force s = (Ok r, s') ->
  wf_state s' /\ renumbering (new_id_func (or_default o opts)) s s' (remapped_ids r) /\
  coll_dict (r_remapped r) = remapped_ids r /\ Forall (standing s') (coll_items (r_removed r)).
Proof.
  intros d from to opts force s t r s' W D. unfold versioned_update. rewrite bind_run.
  destruct (get_etree_root d false s) as [[root|e] s1] eqn:E1; [|discriminate].
  assert (L : s1 = loaded s d).
  { destruct d as [i|i|[p|]]; cbn in E1; try (injection E1 as <- <-; reflexivity); try discriminate.
    rewrite copy_push_eq in E1. injection E1 as <- <-. reflexivity. }
  subst s1. destruct (loaded_node s d t root W D E1) as (W1 & G1 & anc & t' & At & _).
  rewrite bind_run.
  assert (P : peeks (if truthy from then ret from else get_version root)) by (destruct (truthy from); [apply peeks_ret|apply Hv]).
  specialize (P (loaded s d)). destruct ((if truthy from then ret from else get_version root) (loaded s d)) as [[a|e] s1]; [|discriminate].
  simpl in P. subst s1. cbv zeta. rewrite bind_run. unfold liftr at 1. destruct (validate_versions _ _ _) as [[]|e]; [|discriminate].
  destruct a as [a|]; [|discriminate]. destruct (if truthy to then to else Some (last versions "")) as [b|]; [|discriminate].
  rewrite bind_run. destruct (run_steps _ _ _ _ _ _ _ _ _) as [[[[doc l] dd]|e] s2] eqn:E2; [|discriminate].
  intro Q. injection Q as <- <-.
  destruct (steps_list o table opts force Hreg (fun v up => Hdes v up _) _ s root [] [] (loaded s d) t' anc doc l dd s2 (fun i => i) W1 At ltac:(lia) E2 (listed_nil _ _ _ _) (Forall_nil _))
    as (W2 & R2 & call & C).
  split; auto. rewrite update_results_remapped. split; [eapply listed_renumbering; eauto|]. split; [destruct dd; reflexivity|]. destruct l; exact R2.
Qed.

Lemma stix_renumbers o d from to opts force s t r s' : wf_state s -> denotes s d t ->
  stix_update o d from to opts force s = (Ok r, s') ->
  wf_state s' /\ renumbering (new_id_func (or_default o opts)) s s' (remapped_ids r) /\ coll_dict (r_remapped r) = remapped_ids r /\
  Forall (standing s') (coll_items (r_removed r)).
Proof.
  apply versioned_renumbers.
  - intros v up H. apply in_app_iff. left. eapply dict_get_in; eauto.
  - intros v up op H. destruct (stix_described o op v up H) as (c & D & f & _ & _ & _ & X). eauto.
  - apply peeks_stix_version.
Qed.

Lemma cybox_renumbers o d from to opts force s t r s' : wf_state s -> denotes s d t ->
  cybox_update o d from to opts force s = (Ok r, s') ->
  wf_state s' /\ renumbering (new_id_func (or_default o opts)) s s' (remapped_ids r) /\ coll_dict (r_remapped r) = remapped_ids r /\
  Forall (standing s') (coll_items (r_removed r)).
Proof.
  apply versioned_renumbers.
  - intros v up H. apply in_app_iff. right. eapply dict_get_in; eauto.
  - intros v up op H. destruct (cybox_described o op v up H) as (c & D & f & _ & _ & _ & X). eauto.
  - intro r0. apply peeks_bind; [apply peeks_cybox_version|]. intro. apply peeks_ret.
Qed.

Lemma ramrod_renumbers o d from to opts force s t r s' : wf_state s -> denotes s d t ->
  ramrod_update o d from to opts force s = (Ok r, s') ->
  wf_state s' /\ renumbering (new_id_func (or_default o opts)) s s' (remapped_ids r) /\ coll_dict (r_remapped r) = remapped_ids r /\
  Forall (standing s') (coll_items (r_removed r)).
Proof.
  intros W D E. destruct (String.eqb_spec (q_local (h_tag (head t))) "STIX_Package") as [N|N].
  - rewrite (ramrod_is_stix o d from to opts force s t W D N) in E. eapply stix_renumbers; eauto.
  - destruct (String.eqb_spec (q_local (h_tag (head t))) "Observables") as [N'|N'].
    + rewrite (ramrod_is_cybox o d from to opts force s t W D N') in E. eapply cybox_renumbers; eauto.
    + pose proof (ramrod_other o d from to opts force s t W D N N') as Q. rewrite E in Q. discriminate.
Qed.
