(** * The trees that exist before a call are never touched by it. *)

From Coq Require Import String Ascii List Bool Arith Lia.
From Verif Require Import Str Xml XPath Utils Base Cybox Stix Ramrod Lib.
Import ListNotations.

Section Frame.
  (** The trees to be protected. *)
  Variable old : list tree.

  Definition yid (i : nat) : Prop := ~ In i (hids old).
  Definition ytree (t : tree) : Prop := forall i, In i (ids t) -> yid i.
  Definition yctx (c : ctx) : Prop := ytree (snd c) /\ Forall ytree (fst c).

  Definition inv (s : st) : Prop :=
    (exists rest, heap s = old ++ rest /\ Forall ytree rest)
    /\ (forall i, In i (hids old) -> i < next s).

  Definition safe {A} (m : M A) (Q : A -> Prop) : Prop :=
    forall s, inv s -> inv (snd (m s)) /\ (forall a, fst (m s) = Ok a -> Q a).

  Lemma safe_weaken {A} (m : M A) (P Q : A -> Prop) :
    safe m P -> (forall a, P a -> Q a) -> safe m Q.
  Proof. intros H HPQ s Hs. destruct (H s Hs) as [H1 H2]. split; auto. Qed.

  Definition T {A} : A -> Prop := fun _ => True.

  Lemma safe_T {A} (m : M A) P : safe m P -> safe m T.
  Proof. intro H; eapply safe_weaken; eauto. unfold T; auto. Qed.

  Lemma safe_ret {A} (a : A) (Q : A -> Prop) : Q a -> safe (ret a) Q.
  Proof. intros H s Hs; simpl; split; auto. intros a' E; inversion E; subst; auto. Qed.

  Lemma safe_raise {A} e (Q : A -> Prop) : safe (raise e) Q.
  Proof. intros s Hs; simpl; split; auto. intros a' E; discriminate. Qed.

  Lemma safe_liftr {A} (r : res A) : safe (liftr r) T.
  Proof. intros s Hs; simpl; split; auto. unfold T; auto. Qed.

  Lemma safe_bind {A B} (m : M A) (k : A -> M B) P Q :
    safe m P -> (forall a, P a -> safe (k a) Q) -> safe (bind m k) Q.
  Proof.
    intros Hm Hk s Hs. unfold bind. destruct (Hm s Hs) as [H1 H2].
    destruct (m s) as [[a|e] s']; simpl in *.
    - apply Hk; auto.
    - split; auto. intros; discriminate.
  Qed.

  Lemma safe_try {A} (m : M A) h P :
    safe m P -> (forall e k, h e = Some k -> safe k P) -> safe (try_catch m h) P.
  Proof.
    intros Hm Hk s Hs. unfold try_catch. destruct (Hm s Hs) as [H1 H2].
    destruct (m s) as [[a|e] s'] eqn:E; simpl in *; [auto|].
    destruct (h e) as [k|] eqn:Eh.
    - apply (Hk e k Eh s' H1).
    - split; [exact H1|intros; discriminate].
  Qed.

  Lemma safe_for_each {A} (l : list A) (f : A -> M unit) :
    (forall x, In x l -> safe (f x) T) -> safe (for_each l f) T.
  Proof.
    induction l as [|x l IH]; intro H; simpl.
    - apply safe_ret; exact I.
    - eapply safe_bind; [apply H; left; auto|]. intros _ _.
      apply IH. intros; apply H; right; auto.
  Qed.

  Lemma safe_map_m {A B} (f : A -> M B) (Q : B -> Prop) l :
    (forall x, In x l -> safe (f x) Q) -> safe (map_m f l) (Forall Q).
  Proof.
    induction l as [|x l IH]; intro H; simpl.
    - apply safe_ret; constructor.
    - eapply safe_bind; [apply H; left; auto|]. intros y Hy.
      eapply safe_bind; [apply IH; intros; apply H; right; auto|]. intros ys Hys.
      apply safe_ret; constructor; auto.
  Qed.

  Lemma safe_filter_m {A} (f : A -> M bool) (Q : A -> Prop) l :
    (forall x, In x l -> safe (f x) T) -> Forall Q l -> safe (filter_m f l) (Forall Q).
  Proof.
    induction l as [|x l IH]; intros H HQ; simpl.
    - apply safe_ret; constructor.
    - inversion HQ; subst.
      eapply safe_bind; [apply H; left; auto|]. intros b _.
      eapply safe_bind; [apply IH; auto; intros; apply H; right; auto|]. intros ys Hys.
      apply safe_ret. destruct b; auto.
  Qed.

  (** ** Reading *)

  Lemma safe_deref_any i : safe (deref i) T.
  Proof.
    intros s Hs. unfold deref. destruct (hfind i (heap s)); simpl; split; auto; unfold T; auto.
  Qed.

  Lemma ytree_sub t a x : ytree t -> In (a, x) (visits [] t) -> yctx (a, x).
  Proof.
    intros Ht Hx. split; simpl.
    - intros i Hi. apply Ht. eapply visits_sub; eauto.
    - apply Forall_forall. intros p Hp i Hi.
      destruct (visits_anc_sub _ _ _ _ _ Hx Hp) as [[]|[H1 _]]. apply Ht, H1, Hi.
  Qed.

  Lemma safe_deref i : yid i -> safe (deref i) yctx.
  Proof.
    intros Hi s Hs. unfold deref. destruct (hfind i (heap s)) as [[a x]|] eqn:E; simpl.
    - split; auto. intros c Ec; inversion Ec; subst; clear Ec.
      apply hfind_some in E as (t & Ht & Hc & Hx). simpl in Hx.
      destruct Hs as [(rest & Hh & Hr) _]. rewrite Hh in Ht.
      apply in_app_or in Ht as [Ht|Ht].
      + exfalso. apply Hi. apply in_flat_map. exists t; split; auto.
        eapply visits_sub; eauto. rewrite <- Hx. apply in_ids_self.
      + eapply ytree_sub; eauto. rewrite Forall_forall in Hr; auto.
    - split; auto. intros; discriminate.
  Qed.

  Lemma safe_get_hdr i : safe (get_hdr i) T.
  Proof.
    eapply safe_bind; [apply safe_deref_any|]. intros; apply safe_ret; exact I.
  Qed.

  Lemma ytree_tid t : ytree t -> yid (tid t).
  Proof. intro H; apply H, in_ids_self. Qed.

  (** ** Writing *)

  Lemma safe_modify i f : yid i -> keeps_id f -> safe (modify i f) T.
  Proof.
    intros Hi K s [(rest & Hh & Hr) Hn]. unfold modify; simpl. split; [|unfold T; auto].
    split; simpl; auto. exists (map (tset i f) rest). rewrite Hh, map_app. split.
    - f_equal. rewrite <- (map_id old) at 2. apply map_ext_in. intros t Ht.
      apply tset_id_notin. intro H; apply Hi. apply in_flat_map; eauto.
    - apply Forall_forall. intros t Ht. apply in_map_iff in Ht as (t0 & <- & Ht).
      intros j Hj. rewrite tset_ids in Hj by auto.
      rewrite Forall_forall in Hr. exact (Hr t0 Ht j Hj).
  Qed.

  Lemma safe_fresh : safe fresh yid.
  Proof.
    intros s [Hh Hn]. unfold fresh; simpl. split.
    - split; simpl; auto. intros i Hi. apply Hn in Hi; lia.
    - intros a E; inversion E; subst. intro Hi. apply Hn in Hi; lia.
  Qed.

  Lemma safe_copy_tree t : safe (copy_tree t) ytree.
  Proof.
    intros s [Hh Hn]. unfold copy_tree.
    pose proof (renum_ids t (next s)) as Hi. pose proof (renum_next t (next s)) as Hx.
    destruct (renum (next s) t) as [t' n]; simpl in *. split.
    - split; simpl; auto. intros i H. apply Hn in H; lia.
    - intros a E; inversion E; subst a; clear E. intros i H Ho. rewrite Hi in H.
      apply in_seq in H. apply Hn in Ho. lia.
  Qed.

  Lemma safe_push t : ytree t -> safe (push t) yid.
  Proof.
    intros Ht s [(rest & Hh & Hr) Hn]. unfold push; simpl. split.
    - split; simpl; auto. exists (rest ++ [t]). rewrite Hh, app_assoc. split; auto.
      apply Forall_app; auto.
    - intros a E; inversion E; subst. apply ytree_tid; auto.
  Qed.

  Lemma safe_supplant i new : yid i -> Forall ytree new -> safe (supplant i new) T.
  Proof.
    intros Hi Hnew. unfold supplant. eapply safe_bind; [apply safe_deref; auto|].
    intros c Hc. destruct (parent c); [|apply safe_ret; exact I].
    intros s [(rest & Hh & Hr) Hn]; simpl. split; [|unfold T; auto].
    split; simpl; auto. exists (map (tsubst i new) rest ++ [snd c]).
    rewrite Hh, map_app, <- app_assoc. split.
    - f_equal. rewrite <- (map_id old) at 2. apply map_ext_in. intros t' Ht.
      apply tsubst_id_notin. intro H; apply Hi. apply in_flat_map; eauto.
    - apply Forall_app; split; [|constructor; [apply Hc|constructor]].
      apply Forall_forall. intros t' Ht. apply in_map_iff in Ht as (t0 & <- & Ht).
      intros j Hj. apply tsubst_ids_in in Hj as [Hj|Hj].
      + rewrite Forall_forall in Hr. exact (Hr t0 Ht j Hj).
      + apply in_flat_map in Hj as (x & Hx & Hj).
        rewrite Forall_forall in Hnew. exact (Hnew x Hx j Hj).
  Qed.

  Lemma safe_new_elem tag text ks : Forall ytree ks -> safe (new_elem tag text ks) ytree.
  Proof.
    intro Hk. unfold new_elem. eapply safe_bind; [apply safe_fresh|].
    intros n Hn. apply safe_ret. intros i [<-|Hi]; auto.
    apply in_flat_map in Hi as (k & Hk' & Hi). rewrite Forall_forall in Hk.
    exact (Hk k Hk' i Hi).
  Qed.

  (** ** XPath *)

  Lemma select_ids_young p t : ytree t -> Forall yid (select_ids p t).
  Proof.
    intro Ht. apply Forall_forall. intros i Hi.
    apply in_map_iff in Hi as ([a x] & <- & Hc). apply filter_In in Hc as [Hc _].
    apply (ytree_sub t a x) in Hc; auto. apply ytree_tid, Hc.
  Qed.

  Lemma yctx_root c : yctx c -> ytree (root_of c).
  Proof.
    destruct c as [a x]; intros [H1 H2]; simpl in *. unfold root_of; simpl.
    destruct a as [|p a]; simpl; auto.
    rewrite Forall_forall in H2.
    assert (H : In (last (p :: a) x) (p :: a)).
    { clear. revert p. induction a as [|q a IH]; intro p; simpl; auto.
      right. apply IH. }
    exact (H2 _ H).
  Qed.

  Lemma safe_xpath i x ns : yid i -> safe (xpath i x ns) (Forall yid).
  Proof.
    intro Hi. unfold xpath. eapply safe_bind; [apply safe_deref; auto|].
    intros c Hc. destruct (xcompile ns x); [|apply safe_raise].
    destruct (forallb alt_abs l).
    - apply safe_ret, select_ids_young, yctx_root, Hc.
    - destruct (existsb alt_abs l); [apply safe_raise|].
      apply safe_ret, select_ids_young, Hc.
  Qed.

  Lemma safe_get_type_info i : safe (get_type_info i) T.
  Proof. eapply safe_bind; [apply safe_get_hdr|]. intros; apply safe_liftr. Qed.

  Lemma safe_get_ext_namespace i : safe (get_ext_namespace i) T.
  Proof. eapply safe_bind; [apply safe_deref_any|]. intros; apply safe_liftr. Qed.

  Ltac ysafe :=
    repeat match goal with
    | |- safe (ret _) T => apply safe_ret; exact I
    | |- safe (raise _) _ => apply safe_raise
    | |- safe (liftr _) T => apply safe_liftr
    | |- safe (get_hdr _) T => apply safe_get_hdr
    | |- safe (deref _) T => apply safe_deref_any
    | |- safe (modify _ _) T => apply safe_modify; auto with keeps
    | |- safe (get_type_info _) T => apply safe_get_type_info
    | |- safe (get_ext_namespace _) T => apply safe_get_ext_namespace
    | |- safe (for_each _ _) T => apply safe_for_each; intros
    | |- safe (bind _ _) T => eapply (safe_bind _ _ T); [|intros]
    | |- safe (if ?b then _ else _) _ => destruct b
    | |- safe (match ?b with _ => _ end) _ => destruct b
    end.

  (** ** base.py *)

  Lemma safe_remove_xml_elements l : Forall yid l -> safe (remove_xml_elements l) T.
  Proof.
    intro H. apply safe_for_each. intros i Hi. apply safe_supplant; auto.
    rewrite Forall_forall in H; auto.
  Qed.

  Lemma safe_copy_xml_element i tag : safe (copy_xml_element i tag) ytree.
  Proof.
    unfold copy_xml_element. eapply safe_bind; [apply safe_deref_any|]. intros c _.
    eapply safe_bind; [apply safe_copy_tree|]. intros t Ht.
    destruct (is_elem t); [|apply safe_raise]. destruct t as [h ks].
    apply safe_ret. exact Ht.
  Qed.

  Lemma safe_vocab_update v typed : Forall yid typed -> safe (vocab_update v typed) T.
  Proof.
    intro H. unfold vocab_update, vocab_find.
    eapply safe_bind; [apply (safe_filter_m _ yid); auto; intros; ysafe|].
    intros vs Hvs. apply safe_for_each. intros i Hi.
    rewrite Forall_forall in Hvs. specialize (Hvs i Hi).
    unfold vocab_update_node, set_pystr. ysafe.
  Qed.

  Lemma safe_interrogate o k nodes :
    Forall yid nodes -> safe (interrogate o k nodes) (Forall yid).
  Proof.
    intro H. destruct k; simpl.
    - apply safe_ret; auto.
    - apply (safe_filter_m _ yid); auto; intros; ysafe.
    - apply (safe_filter_m _ yid); auto; intros; ysafe.
    - apply (safe_filter_m _ yid); auto; intros; ysafe.
    - apply (safe_filter_m _ yid); auto; intros; ysafe.
    - eapply safe_bind; [apply (safe_filter_m _ yid); auto; intros; ysafe|].
      intros bad Hbad. apply safe_map_m. intros i Hi.
      rewrite Forall_forall in Hbad. specialize (Hbad i Hi).
      eapply safe_bind; [apply safe_deref; auto|]. intros c Hc.
      unfold parent. destruct c as [[|p a] x]; simpl; [apply safe_raise|].
      apply safe_ret, ytree_tid. destruct Hc as [_ Hc]; simpl in Hc.
      inversion Hc; auto.
  Qed.

  Lemma safe_get_typed_nodes i : yid i -> safe (get_typed_nodes i) (Forall yid).
  Proof. apply safe_xpath. Qed.

  Lemma safe_get_contexts d root typed :
    yid root -> (forall l, typed = Some l -> Forall yid l) ->
    safe (get_contexts d root typed) (Forall yid).
  Proof.
    intros Hr Ht. unfold get_contexts. destruct (d_ctx_types d).
    - apply safe_ret; auto.
    - eapply (safe_bind _ _ (Forall yid)).
      + destruct typed; [apply safe_ret; auto|apply safe_get_typed_nodes; auto].
      + intros ty Hty. apply (safe_filter_m _ yid); auto; intros; ysafe.
  Qed.

  Lemma safe_find_in o d ns l : Forall yid l -> safe (find_in o d ns l) (Forall yid).
  Proof.
    induction l as [|c l IH]; intro H; simpl.
    - apply safe_ret; constructor.
    - inversion H; subst.
      eapply safe_bind; [apply safe_xpath; auto|]. intros nodes Hn.
      eapply safe_bind; [apply safe_interrogate; auto|]. intros f Hf.
      eapply safe_bind; [apply IH; auto|]. intros r Hr.
      apply safe_ret, Forall_app; auto.
  Qed.

  Lemma safe_dfind o d ns root typed :
    yid root -> (forall l, typed = Some l -> Forall yid l) ->
    safe (dfind o d ns root typed) (Forall yid).
  Proof.
    intros Hr Ht. unfold dfind. eapply safe_bind; [apply safe_get_contexts; auto|].
    intros; apply safe_find_in; auto.
  Qed.

  Lemma safe_replace i new : yid i -> ytree new -> safe (replace_xml_element i new) T.
  Proof. intros; apply safe_supplant; auto. Qed.

  Lemma safe_translate_node o ns k i : yid i -> safe (translate_node o ns k i) T.
  Proof.
    intro Hi. destruct k; simpl.
    - unfold translate_default.
      eapply (safe_bind _ _ ytree); [|intros; apply safe_replace; auto].
      eapply (safe_bind _ _ T); [apply safe_get_hdr|]. intros h _.
      eapply (safe_bind _ _ T); [eapply safe_T, safe_xpath; auto|]. intros [|v vs] _.
      + apply safe_raise.
      + eapply (safe_bind _ _ T); [apply safe_get_hdr|]. intros hv _.
        eapply (safe_bind _ _ yid); [apply safe_fresh|]. intros n Hn.
        apply safe_ret. intros j [<-|[]]. exact Hn.
    - ysafe.
    - eapply (safe_bind _ _ ytree); [|intros; apply safe_replace; auto].
      unfold translate_wrap. eapply safe_bind; [apply safe_copy_xml_element|].
      intros dup Hd. apply safe_new_elem; auto.
    - eapply (safe_bind _ _ ytree); [|intros; apply safe_replace; auto].
      unfold translate_contributors. eapply safe_bind; [apply safe_deref_any|].
      intros c _. eapply safe_bind; [apply (safe_map_m _ ytree)|].
      + intros k _. eapply safe_bind; [apply safe_copy_xml_element|].
        intros dup Hd. apply safe_new_elem; auto.
      + intros; apply safe_new_elem; auto.
    - eapply (safe_bind _ _ ytree); [|intros; apply safe_replace; auto].
      unfold translate_source. eapply safe_bind; [apply safe_get_hdr|].
      intros h _. destruct (parse_source _ _ _); [apply safe_copy_tree|apply safe_raise].
    - eapply (safe_bind _ _ ytree); [|intros; apply safe_replace; auto].
      unfold translate_source. eapply safe_bind; [apply safe_get_hdr|].
      intros h _. destruct (parse_source _ _ _); [apply safe_copy_tree|apply safe_raise].
    - eapply (safe_bind _ _ ytree); [|intros; apply safe_replace; auto].
      unfold translate_wrap. eapply safe_bind; [apply safe_copy_xml_element|].
      intros dup Hd. apply safe_new_elem; auto.
    - unfold mailslot_replace. eapply safe_bind; [apply safe_deref; auto|].
      intros c Hc. eapply safe_bind; [apply safe_copy_xml_element|].
      intros dup Hd. unfold parent. destruct c as [[|p a] x]; simpl; [apply safe_raise|].
      apply safe_replace; auto. apply ytree_tid. destruct Hc as [_ Hc]; simpl in Hc.
      inversion Hc; auto.
  Qed.

  Lemma safe_translate_fields o u root : yid root -> safe (translate_fields o u root) T.
  Proof.
    intro Hr. apply safe_for_each. intros f _. unfold translate.
    eapply safe_bind; [apply safe_xpath; auto|]. intros nodes Hn.
    apply safe_for_each. intros i Hi. apply safe_translate_node.
    rewrite Forall_forall in Hn; auto.
  Qed.

  Lemma safe_update_vocabs u root : yid root -> safe (update_vocabs u root) T.
  Proof.
    intro Hr. unfold update_vocabs. eapply safe_bind; [apply safe_get_typed_nodes; auto|].
    intros typed Ht. apply safe_for_each. intros; apply safe_vocab_update; auto.
  Qed.

  Lemma safe_update_schemalocs u root : yid root -> safe (update_schemalocs u root) T.
  Proof. intro Hr. unfold update_schemalocs. ysafe. Qed.

  Lemma upd_ns_props u t : forall anc n,
    n <= snd (upd_ns u anc t n) /\
    (forall i, In i (ids (fst (upd_ns u anc t n))) ->
               In i (ids t) \/ (n <= i < snd (upd_ns u anc t n))).
  Proof.
    tree_induction t. intros anc n. cbn [upd_ns].
    set (go := fix go (l : list tree) (m : nat) : list tree * nat := _).
    assert (G : forall l, (forall k, In k l -> In k ks) -> forall m,
      m <= snd (go l m) /\
      (forall i, In i (hids (fst (go l m))) -> In i (hids l) \/ (m <= i < snd (go l m)))).
    { induction l as [|k l IHl]; intros Hl m; cbn [go].
      - simpl; auto.
      - assert (Hk : forall r, r = (if is_elem k then upd_ns u (Node h ks :: anc) k m else (k, m)) ->
           m <= snd r /\ (forall i, In i (ids (fst r)) -> In i (ids k) \/ m <= i < snd r)).
        { intros r ->. destruct (is_elem k); [apply IH; apply Hl; left; auto|].
          simpl; auto. }
        specialize (Hk _ eq_refl).
        destruct (if is_elem k then _ else _) as [k' m1]. simpl in Hk.
        specialize (IHl (fun x Hx => Hl x (or_intror Hx)) m1). 
        destruct (go l m1) as [l'' m2]. simpl in *. destruct Hk as [Hk1 Hk2], IHl as [H1 H2].
        split; [lia|]. intros i Hi. apply in_app_or in Hi as [Hi|Hi].
        + destruct (Hk2 i Hi) as [H|H]; [left; apply in_or_app; auto|right; lia].
        + destruct (H2 i Hi) as [H|H]; [left; apply in_or_app; auto|right; lia]. }
    specialize (G ks (fun _ H => H) n). destruct (go ks n) as [ks' m]. simpl in G.
    destruct G as [G1 G2]. destruct (ns_listed u (Node h ks)); simpl.
    - split; [lia|]. intros i [<-|Hi]; [right; simpl; lia|].
      destruct (G2 i Hi) as [H|H]; [left; right; auto|right; lia].
    - split; [lia|]. intros i [<-|Hi]; [auto|].
      destruct (G2 i Hi) as [H|H]; [left; right; auto|right; lia].
  Qed.

  Lemma husks_ids u t i : In i (hids (husks u t)) -> In i (ids t).
  Proof.
    tree_induction t. cbn [husks]. rewrite hids_app. intro H. apply in_app_or in H as [H|H].
    - destruct (ns_listed u (Node h ks)); simpl in H; [|contradiction].
      destruct H as [<-|[]]. apply (in_ids_self (Node h ks)).
    - unfold hids in H. rewrite flat_map_flat_map in H.
      apply in_flat_map in H as (k & Hk & Hi). simpl. right. apply in_flat_map.
      exists k; split; auto. destruct (is_elem k); [apply (IH k Hk Hi)|contradiction].
  Qed.

  Lemma safe_update_namespaces u root : yid root -> safe (update_namespaces u root) yid.
  Proof.
    intro Hr. unfold update_namespaces. eapply safe_bind; [apply safe_deref; auto|].
    intros [a x] Hc. cbn [fst snd]. destruct (upd_ns_fails u x); [apply safe_raise|]. intros s [(rest & Hh & Hy) Hn].
    pose proof (upd_ns_props u x a (next s)) as [H1 H2].
    destruct (upd_ns u a x (next s)) as [t' n]; simpl in *.
    assert (Ht' : ytree t').
    { intros i Hi Ho. destruct (H2 i Hi) as [H|H].
      - apply (proj1 Hc i H Ho).
      - apply Hn in Ho. lia. }
    split.
    - split; simpl.
      + exists (map (fun t => if Nat.eqb (tid t) root then t' else t) rest ++ husks u x).
        rewrite Hh, map_app, <- app_assoc. split.
        * f_equal. rewrite <- (map_id old) at 2. apply map_ext_in. intros t Ht.
          destruct (Nat.eqb_spec (tid t) root) as [E|E]; auto.
          exfalso. apply Hr. subst root. apply in_flat_map. exists t; split; auto.
          apply in_ids_self.
        * apply Forall_app; split.
          -- apply Forall_forall. intros t Ht. apply in_map_iff in Ht as (t0 & <- & Ht).
             destruct (Nat.eqb (tid t0) root); auto. rewrite Forall_forall in Hy; auto.
          -- apply Forall_forall. intros t Ht i Hi. apply (proj1 Hc i).
             apply (husks_ids u). apply in_flat_map; eauto.
      + intros i Hi. apply Hn in Hi. lia.
    - intros b E; inversion E; subst. apply ytree_tid; auto.
  Qed.

  Lemma safe_update_optionals o u root : yid root -> safe (update_optionals o u root) T.
  Proof.
    intro Hr. unfold update_optionals.
    eapply safe_bind; [apply safe_get_typed_nodes; auto|]. intros typed Ht.
    assert (Hty : forall l, Some typed = Some l -> Forall yid l).
    { intros l E; inversion E; subst; auto. }
    eapply (safe_bind _ _ T).
    - apply safe_for_each. intros d _.
      eapply safe_bind; [apply safe_dfind; auto|]. intros; apply safe_remove_xml_elements; auto.
    - intros _ _. apply safe_for_each. intros d _.
      eapply safe_bind; [apply safe_dfind; auto|]. intros found Hf.
      apply safe_for_each. intros i Hi. apply safe_for_each. intros q _.
      apply safe_modify; auto with keeps. rewrite Forall_forall in Hf; auto.
  Qed.

  Lemma safe_find_disallowed o ns l root :
    yid root -> safe (find_disallowed o ns l root) (Forall yid).
  Proof.
    intro Hr. induction l as [|d l IH]; simpl.
    - apply safe_ret; constructor.
    - eapply safe_bind; [apply safe_dfind; auto; intros; discriminate|]. intros f Hf.
      eapply safe_bind; [exact IH|]. intros r Hr'. apply safe_ret, Forall_app; auto.
  Qed.

  Lemma safe_clean_disallowed l : Forall yid l -> safe (clean_disallowed l) T.
  Proof.
    intro H. eapply safe_T, (safe_map_m _ T). intros i Hi.
    rewrite Forall_forall in H.
    eapply safe_bind; [apply safe_copy_xml_element|]. intros dup Hd.
    eapply (safe_bind _ _ T); [apply safe_supplant; auto|]. intros _ _.
    eapply safe_T, safe_push; auto.
  Qed.

  Definition ydict (d : dict (list nat)) : Prop := Forall (fun kv => Forall yid (snd kv)) d.

  Lemma safe_apply_new_id f i : yid i -> safe (apply_new_id f i) T.
  Proof.
    intro Hi. unfold apply_new_id. eapply safe_bind; [apply safe_get_hdr|].
    intros h _. destruct (attr_get _ _); [|apply safe_raise].
    intros s0 Hs0. cbv beta. apply (safe_modify i _ Hi (keeps_hset _ _)). exact Hs0.
  Qed.

  Lemma safe_clean_duplicates opts d : ydict d -> safe (clean_duplicates opts d) T.
  Proof.
    intro H. unfold clean_duplicates. eapply (safe_bind _ _ T); [|intros; ysafe].
    apply safe_for_each. intros kv Hkv. apply safe_for_each. intros i Hi.
    apply safe_apply_new_id. unfold ydict in H. rewrite Forall_forall in H.
    specialize (H kv Hkv). rewrite Forall_forall in H; auto.
  Qed.

  Lemma ydict_set k v d : ydict d -> Forall yid v -> ydict (dict_set k v d).
  Proof.
    intros H Hv. induction d as [|[k' v'] d IH]; simpl.
    - repeat constructor; auto.
    - inversion H; subst. destruct (String.eqb k k'); constructor; auto.
      apply IH; auto.
  Qed.

  Lemma ydict_get k v d : ydict d -> dict_get k d = Some v -> Forall yid v.
  Proof.
    intro H. induction d as [|[k' v'] d IH]; simpl; [discriminate|].
    inversion H; subst. destruct (String.eqb k k'); intro E; [inversion E; subst|]; auto.
  Qed.

  Lemma ydict_update d e : ydict d -> ydict e -> ydict (dict_update d e).
  Proof.
    unfold dict_update. revert d. induction e as [|[k v] e IH]; intros d Hd He; simpl; auto.
    inversion He; subst. apply IH; auto. apply ydict_set; auto.
  Qed.

  Lemma id_groups_young namespaces t : ytree t -> ydict (id_groups namespaces t).
  Proof.
    intro Ht. unfold id_groups.
    assert (H : forall l, (forall c, In c l -> In c (visits [] t)) ->
      forall acc, ydict acc -> ydict (fold_left (fun acc c =>
        let h := head (snd c) in
        if is_elem (snd c) then
          match attr_get (lq "id") (h_attr h), q_ns (h_tag h) with
          | Some id_, Some ns =>
              if mem_str ns namespaces
              then dict_set id_ (match dict_get id_ acc with
                                 | Some l => (l ++ [h_id h])%list
                                 | None => [h_id h]
                                 end) acc
              else acc
          | _, _ => acc
          end
        else acc) l acc)).
    { induction l as [|c l IH]; intros Hl acc Hacc; [exact Hacc|]. cbn [fold_left].
      apply IH; [intros; apply Hl; right; auto|]. cbv zeta.
      destruct (is_elem (snd c)); auto. destruct (attr_get _ _) as [id_|]; auto.
      destruct (q_ns _) as [ns|]; auto. destruct (mem_str _ _); auto.
      assert (Hy : yid (h_id (head (snd c)))).
      { destruct c as [a x]. specialize (Hl (a, x) (or_introl eq_refl)).
        apply (ytree_sub t a x Ht) in Hl. apply (ytree_tid x), Hl. }
      apply ydict_set; auto. destruct (dict_get id_ acc) eqn:E; auto.
      apply Forall_app; split; auto. eapply ydict_get; eauto. }
    apply H; [|constructor]. intros c Hc. destruct t as [h ks]. simpl in *. auto.
  Qed.

  Lemma safe_get_duplicates u root : yid root -> safe (get_duplicates u root) ydict.
  Proof.
    intro Hr. unfold get_duplicates. eapply safe_bind; [apply safe_deref; auto|].
    intros c Hc. apply safe_ret. unfold duplicate_groups.
    apply Forall_forall. intros kv Hkv. apply filter_In in Hkv as [Hkv _].
    pose proof (id_groups_young (map snd (c_nsmap u)) (snd c) (proj1 Hc)) as H.
    unfold ydict in H. rewrite Forall_forall in H; auto.
  Qed.

  (** ** Updaters *)

  Record safe_updater (up : updater) : Prop := {
    su_check : forall root opts, yid root -> safe (up_check up root opts) T;
    su_update : forall root opts, yid root -> safe (up_update up root opts) T;
    su_dis : forall root, yid root ->
      safe (up_get_disallowed up root) (fun o => forall l, o = Some l -> Forall yid l);
    su_dup : forall root, yid root ->
      safe (up_get_duplicates up root) (fun o => forall l, o = Some l -> ydict l);
    su_cdis : forall l opts, Forall yid l -> safe (up_clean_disallowed up l opts) T;
    su_cdup : forall d opts, ydict d -> safe (up_clean_duplicates up d opts) T
  }.

  Lemma safe_get_etree_root_copy d : safe (get_etree_root d true) yid.
  Proof.
    destruct d as [i|i|[t|]]; simpl; try apply safe_raise.
    - eapply safe_bind; [apply safe_deref_any|]. intros c _.
      eapply safe_bind; [apply safe_copy_tree|]. intros; apply safe_push; auto.
    - eapply safe_bind; [apply safe_deref_any|]. intros c _.
      eapply safe_bind; [apply safe_copy_tree|]. intros; apply safe_push; auto.
    - eapply safe_bind; [apply safe_copy_tree|]. intros; apply safe_push; auto.
  Qed.

  Lemma safe_get_etree_root d : safe (get_etree_root d false) T.
  Proof.
    destruct d as [i|i|[t|]]; simpl; try apply safe_raise; try (apply safe_ret; exact I).
    eapply safe_bind; [apply safe_copy_tree|]. intros; eapply safe_T, safe_push; auto.
  Qed.

  Lemma safe_clean_root up root opts : safe_updater up -> yid root ->
    safe (clean_root up root opts) (fun r => r_document r = root).
  Proof.
    intros Hu Hr. unfold clean_root.
    eapply safe_bind; [apply su_dis; auto|]. intros dis Hdis.
    eapply safe_bind; [apply su_dup; auto|]. intros dup Hdup.
    eapply (safe_bind _ _ T).
    - destruct dup as [[|x l]|]; try (apply safe_ret; exact I). apply su_cdup; auto.
    - intros rem _. eapply (safe_bind _ _ T).
      + destruct dis as [[|x l]|]; try (apply safe_ret; exact I). apply su_cdis; auto.
      + intros rmv _. apply safe_ret. reflexivity.
  Qed.

  Lemma safe_clean o up doc opts : safe_updater up -> safe (clean o up doc opts) T.
  Proof.
    intro Hu. unfold clean. eapply safe_bind; [apply safe_get_etree_root_copy|].
    intros root Hr. eapply safe_T, safe_clean_root; auto.
  Qed.

  Lemma safe_as_element i : yid i -> safe (as_element i) yid.
  Proof.
    intro Hi. unfold as_element. eapply safe_bind; [apply safe_deref; auto|].
    intros c Hc. apply safe_ret, ytree_tid, yctx_root, Hc.
  Qed.

  Lemma safe_as_element_any i : safe (as_element i) T.
  Proof. unfold as_element. ysafe. Qed.

  Lemma safe_updater_update o up doc opts force :
    safe_updater up -> safe (updater_update o up doc opts force) T.
  Proof.
    intro Hu. unfold updater_update. eapply safe_bind; [apply safe_get_etree_root_copy|].
    intros root Hr. apply safe_try.
    - eapply (safe_bind _ _ T); [apply su_check; auto|]. intros _ _.
      eapply (safe_bind _ _ T); [apply su_update; auto|]. intros; ysafe.
    - intros e k E. destruct (_ && force); [|discriminate].
      injection E as <-. unfold force_update.
      eapply safe_bind; [apply safe_clean_root; auto|]. intros r Hr'. rewrite Hr'.
      eapply safe_bind; [apply safe_as_element; auto|]. intros doc' Hd.
      eapply (safe_bind _ _ T); [apply su_update; auto|]. intros; ysafe.
  Qed.

  (** ** The seven updaters *)

  Lemma safe_cybox_check_version u root : yid root -> safe (cybox_check_version u root) T.
  Proof.
    intro Hr. unfold cybox_check_version, cybox_node_version.
    eapply safe_bind; [apply safe_xpath; auto|]. intros l Hl. ysafe.
  Qed.

  Lemma safe_stix_check_version u root : yid root -> safe (stix_check_version u root) T.
  Proof.
    intro Hr. unfold stix_check_version, stix_node_version.
    eapply safe_bind; [apply safe_xpath; auto|]. intros l Hl. ysafe.
  Qed.

  Lemma safe_stix_update_versions u a b root :
    yid root -> safe (stix_update_versions u a b root) T.
  Proof.
    intro Hr. unfold stix_update_versions.
    eapply safe_bind; [apply safe_xpath; auto|]. intros l Hl.
    apply safe_for_each. intros i Hi. rewrite Forall_forall in Hl. specialize (Hl i Hi).
    ysafe.
  Qed.

  Lemma safe_update_lists u root : yid root -> safe (update_lists u root) T.
  Proof.
    intro Hr. unfold update_lists. eapply safe_bind; [apply safe_xpath; auto|].
    intros props Hp. apply safe_for_each. intros p Hpi.
    rewrite Forall_forall in Hp. specialize (Hp p Hpi).
    eapply safe_bind; [apply safe_deref; auto|]. intros c Hc.
    apply safe_for_each. intros i Hi.
    assert (Hy : yid i).
    { apply in_map_iff in Hi as ([a x] & <- & Hx). apply filter_In in Hx as [Hx _].
      assert (Hv : In (a, x) (visits [] (snd c))).
      { destruct (snd c); simpl in *; auto. }
      apply (ytree_sub _ _ _ (proj1 Hc)) in Hv. apply ytree_tid, Hv. }
    ysafe.
  Qed.

  Lemma safe_cybox_2_0_do_update u root opts :
    yid root -> safe (cybox_2_0_do_update u root opts) yid.
  Proof.
    intro Hr. unfold cybox_2_0_do_update.
    eapply (safe_bind _ _ T); [apply safe_update_schemalocs; auto|]. intros _ _.
    eapply (safe_bind _ _ T).
    { unfold cybox_2_0_update_versions. eapply safe_bind; [apply safe_xpath; auto|].
      intros l Hl. apply safe_for_each. intros i Hi.
      rewrite Forall_forall in Hl. specialize (Hl i Hi). ysafe. }
    intros _ _.
    eapply (safe_bind _ _ T); [apply safe_update_lists; auto|]. intros _ _.
    eapply (safe_bind _ _ T).
    { destruct (update_vocabularies opts); [apply safe_update_vocabs; auto|ysafe]. }
    intros _ _. apply safe_ret; auto.
  Qed.

  Lemma safe_cybox_2_0_1_do_update o u root opts :
    yid root -> safe (cybox_2_0_1_do_update o u root opts) yid.
  Proof.
    intro Hr. unfold cybox_2_0_1_do_update.
    eapply safe_bind; [apply safe_update_namespaces; auto|]. intros r Hy.
    eapply (safe_bind _ _ T); [apply safe_update_schemalocs; auto|]. intros _ _.
    eapply (safe_bind _ _ T).
    { unfold cybox_2_0_1_update_versions. eapply safe_bind; [apply safe_xpath; auto|].
      intros l Hl. apply safe_for_each. intros i Hi.
      rewrite Forall_forall in Hl. specialize (Hl i Hi). ysafe. }
    intros _ _.
    eapply (safe_bind _ _ T); [apply safe_translate_fields; auto|]. intros _ _.
    eapply (safe_bind _ _ T).
    { destruct (update_vocabularies opts); [apply safe_update_vocabs; auto|ysafe]. }
    intros _ _.
    eapply (safe_bind _ _ T).
    { destruct (remove_optionals opts); [apply safe_update_optionals; auto|ysafe]. }
    intros _ _. apply safe_ret; auto.
  Qed.

  Lemma safe_report a b : safe (report a b) T.
  Proof. unfold report. ysafe. Qed.

  Lemma su_cybox_2_0 : safe_updater Cybox_2_0_Updater.
  Proof.
    constructor; simpl; intros.
    - unfold cybox_2_0_check. destruct (check_versions opts);
        [apply safe_cybox_check_version; auto|ysafe].
    - eapply safe_T, safe_cybox_2_0_do_update; auto.
    - apply safe_ret; intros; discriminate.
    - apply safe_ret; intros; discriminate.
    - apply safe_raise.
    - apply safe_raise.
  Qed.

  Lemma su_cybox_2_0_1 o : safe_updater (Cybox_2_0_1_Updater o).
  Proof.
    constructor; simpl; intros.
    - unfold cybox_2_0_1_check, cybox_2_0_1_get_disallowed.
      eapply (safe_bind _ _ T).
      { destruct (check_versions opts); [apply safe_cybox_check_version; auto|ysafe]. }
      intros _ _. eapply safe_bind; [apply safe_get_duplicates; auto|]. intros d Hd.
      eapply safe_bind; [apply safe_find_disallowed; auto|]. intros; apply safe_report.
    - eapply safe_T, safe_cybox_2_0_1_do_update; auto.
    - eapply safe_bind; [apply safe_find_disallowed; auto|]. intros l Hl.
      apply safe_ret. intros l' E; inversion E; subst; auto.
    - eapply safe_bind; [apply safe_get_duplicates; auto|]. intros l Hl.
      apply safe_ret. intros l' E; inversion E; subst; auto.
    - apply safe_clean_disallowed; auto.
    - apply safe_clean_duplicates; auto.
  Qed.

  Lemma safe_stix_1_0_dis o root :
    yid root -> safe (stix_1_0_get_disallowed o root) (Forall yid).
  Proof. intro; apply safe_find_disallowed; auto. Qed.

  Lemma safe_stix_1_0_1_dis o root :
    yid root -> safe (stix_1_0_1_get_disallowed o root) (Forall yid).
  Proof.
    intro Hr. eapply safe_bind; [apply safe_find_disallowed; auto|]. intros a Ha.
    eapply safe_bind; [apply safe_find_disallowed; auto|]. intros b Hb.
    apply safe_ret, Forall_app; auto.
  Qed.

  Lemma safe_stix_1_0_1_dup root :
    yid root -> safe (stix_1_0_1_get_duplicates root) ydict.
  Proof.
    intro Hr. eapply safe_bind; [apply safe_get_duplicates; auto|]. intros a Ha.
    eapply safe_bind; [apply safe_get_duplicates; auto|]. intros b Hb.
    apply safe_ret, ydict_update; auto.
  Qed.

  Lemma su_stix_1_0 o : safe_updater (STIX_1_0_Updater o).
  Proof.
    constructor; simpl; intros.
    - unfold stix_1_0_check. eapply (safe_bind _ _ T).
      { destruct (check_versions opts); [|ysafe].
        eapply (safe_bind _ _ T); [apply safe_stix_check_version; auto|]. intros _ _.
        apply safe_cybox_check_version; auto. }
      intros _ _. eapply safe_bind; [apply safe_stix_1_0_dis; auto|].
      intros [|x l] _; ysafe.
    - unfold stix_1_0_do_update.
      eapply safe_bind; [apply safe_cybox_2_0_do_update; auto|]. intros r1 H1.
      eapply safe_bind; [apply safe_update_namespaces; auto|]. intros r2 H2.
      eapply (safe_bind _ _ T); [apply safe_update_schemalocs; auto|]. intros _ _.
      eapply (safe_bind _ _ T); [apply safe_stix_update_versions; auto|]. intros _ _.
      eapply (safe_bind _ _ T).
      { destruct (update_vocabularies opts); [apply safe_update_vocabs; auto|ysafe]. }
      intros _ _. ysafe.
    - eapply safe_bind; [apply safe_stix_1_0_dis; auto|]. intros l Hl.
      apply safe_ret. intros l' E; inversion E; subst; auto.
    - apply safe_ret; intros; discriminate.
    - apply safe_clean_disallowed; auto.
    - apply safe_raise.
  Qed.

  Lemma su_stix_1_0_1 o : safe_updater (STIX_1_0_1_Updater o).
  Proof.
    constructor; simpl; intros.
    - unfold stix_1_0_1_check. eapply (safe_bind _ _ T).
      { destruct (check_versions opts); [|ysafe].
        eapply (safe_bind _ _ T); [apply safe_stix_check_version; auto|]. intros _ _.
        apply safe_cybox_check_version; auto. }
      intros _ _. eapply safe_bind; [apply safe_stix_1_0_1_dup; auto|]. intros d Hd.
      eapply safe_bind; [apply safe_stix_1_0_1_dis; auto|]. intros; apply safe_report.
    - unfold stix_1_0_1_do_update.
      eapply safe_bind; [apply safe_cybox_2_0_1_do_update; auto|]. intros r1 H1.
      eapply safe_bind; [apply safe_update_namespaces; auto|]. intros r2 H2.
      eapply (safe_bind _ _ T); [apply safe_update_schemalocs; auto|]. intros _ _.
      eapply (safe_bind _ _ T); [apply safe_stix_update_versions; auto|]. intros _ _.
      eapply (safe_bind _ _ T); [apply safe_translate_fields; auto|]. intros _ _.
      eapply (safe_bind _ _ T).
      { destruct (update_vocabularies opts); [apply safe_update_vocabs; auto|ysafe]. }
      intros _ _.
      eapply (safe_bind _ _ T).
      { destruct (remove_optionals opts); [apply safe_update_optionals; auto|ysafe]. }
      intros _ _. ysafe.
    - eapply safe_bind; [apply safe_stix_1_0_1_dis; auto|]. intros l Hl.
      apply safe_ret. intros l' E; inversion E; subst; auto.
    - eapply safe_bind; [apply safe_stix_1_0_1_dup; auto|]. intros l Hl.
      apply safe_ret. intros l' E; inversion E; subst; auto.
    - apply safe_clean_disallowed; auto.
    - apply safe_clean_duplicates; auto.
  Qed.

  Lemma su_stix_1_1 o : safe_updater (STIX_1_1_Updater o).
  Proof.
    constructor; simpl; intros.
    - unfold stix_1_1_check. destruct (check_versions opts);
        [apply safe_stix_check_version; auto|ysafe].
    - unfold stix_1_1_do_update.
      eapply (safe_bind _ _ T); [apply safe_update_schemalocs; auto|]. intros _ _.
      eapply (safe_bind _ _ T); [apply safe_update_schemalocs; auto|]. intros _ _.
      eapply (safe_bind _ _ T); [apply safe_stix_update_versions; auto|]. intros _ _.
      eapply (safe_bind _ _ T); [apply safe_translate_fields; auto|]. intros _ _.
      eapply (safe_bind _ _ T).
      { destruct (update_vocabularies opts); [apply safe_update_vocabs; auto|ysafe]. }
      intros _ _.
      eapply (safe_bind _ _ T).
      { destruct (remove_optionals opts); [apply safe_update_optionals; auto|ysafe]. }
      intros _ _. ysafe.
    - apply safe_ret; intros; discriminate.
    - apply safe_ret; intros; discriminate.
    - apply safe_raise.
    - apply safe_raise.
  Qed.

  Lemma su_stix_1_1_1 : safe_updater STIX_1_1_1_Updater.
  Proof.
    constructor; simpl; intros.
    - unfold stix_1_1_1_check. destruct (check_versions opts);
        [apply safe_stix_check_version; auto|ysafe].
    - unfold stix_1_1_1_do_update.
      eapply (safe_bind _ _ T); [apply safe_update_schemalocs; auto|]. intros _ _.
      eapply (safe_bind _ _ T); [apply safe_stix_update_versions; auto|]. intros _ _.
      eapply (safe_bind _ _ T).
      { destruct (update_vocabularies opts); [apply safe_update_vocabs; auto|ysafe]. }
      intros _ _. ysafe.
    - apply safe_ret; intros; discriminate.
    - apply safe_ret; intros; discriminate.
    - apply safe_raise.
    - apply safe_raise.
  Qed.

  Lemma su_stix_1_2 : safe_updater STIX_1_2_Updater.
  Proof.
    constructor; simpl; intros.
    - unfold stix_1_2_check. destruct (check_versions opts);
        [apply safe_stix_check_version; auto|ysafe].
    - unfold stix_1_2_do_update.
      eapply safe_bind; [apply safe_update_namespaces; auto|]. intros r2 H2.
      eapply (safe_bind _ _ T); [apply safe_update_schemalocs; auto|]. intros _ _.
      ysafe.
    - apply safe_raise.
    - eapply safe_bind; [apply safe_get_duplicates; auto|]. intros l Hl.
      apply safe_ret. intros l' E; inversion E; subst; auto.
    - apply safe_raise.
    - apply safe_raise.
  Qed.

  (** ** Chains of steps *)

  Definition safe_table (table : dict updater) : Prop :=
    forall v up, dict_get v table = Some up -> safe_updater up.

  Lemma safe_run_steps o table opts force steps : safe_table table ->
    forall root removed remapped,
    safe (run_steps o table steps root opts force removed remapped) T.
  Proof.
    intro Ht. induction steps as [|v vs IH]; intros root removed remapped; simpl.
    - ysafe.
    - destruct (dict_get v table) eqn:E; [|apply safe_raise].
      eapply (safe_bind _ _ T); [apply safe_updater_update; eapply Ht; eauto|]. intros r _.
      eapply (safe_bind _ _ T); [apply safe_as_element_any|]. intros root' _.
      apply IH.
  Qed.

  Lemma safe_versioned_update o versions table gv d from to opts force :
    safe_table table -> (forall i, safe (gv i) T) ->
    safe (versioned_update o versions table gv d from to opts force) T.
  Proof.
    intros Ht Hg. unfold versioned_update.
    eapply (safe_bind _ _ T); [apply safe_get_etree_root|]. intros root _.
    eapply (safe_bind _ _ T).
    { destruct (truthy from); [ysafe|apply Hg]. }
    intros from' _. cbv zeta.
    eapply (safe_bind _ _ T); [ysafe|]. intros _ _.
    destruct from' as [a|]; [|apply safe_raise].
    destruct (if truthy to then to else _) as [b|]; [|apply safe_raise].
    eapply (safe_bind _ _ T); [apply safe_run_steps; auto|].
    intros [[r1 r2] r3] _. ysafe.
  Qed.

  Lemma safe_stix_table o : safe_table (STIX_UPDATERS o).
  Proof.
    intros v up. unfold STIX_UPDATERS. simpl.
    repeat match goal with |- context [String.eqb v ?s] => destruct (String.eqb v s) end;
      intro E; inversion E; subst.
    - apply su_stix_1_0.
    - apply su_stix_1_0_1.
    - apply su_stix_1_1.
    - apply su_stix_1_1_1.
    - apply su_stix_1_2.
  Qed.

  Lemma safe_cybox_table o : safe_table (CYBOX_UPDATERS o).
  Proof.
    intros v up. unfold CYBOX_UPDATERS. simpl.
    repeat match goal with |- context [String.eqb v ?s] => destruct (String.eqb v s) end;
      intro E; inversion E; subst.
    - apply su_cybox_2_0.
    - apply su_cybox_2_0_1.
  Qed.

  Lemma safe_stix_update o d from to opts force :
    safe (stix_update o d from to opts force) T.
  Proof.
    apply safe_versioned_update; [apply safe_stix_table|].
    intro i. unfold stix_node_version. ysafe.
  Qed.

  Lemma safe_cybox_update o d from to opts force :
    safe (cybox_update o d from to opts force) T.
  Proof.
    apply safe_versioned_update; [apply safe_cybox_table|].
    intro i. unfold cybox_node_version. ysafe.
  Qed.

  Lemma safe_ramrod_update o d from to opts force :
    safe (ramrod_update o d from to opts force) T.
  Proof.
    unfold ramrod_update. eapply (safe_bind _ _ T); [apply safe_get_etree_root|].
    intros root _. eapply (safe_bind _ _ T); [apply safe_get_hdr|]. intros h _. cbv zeta.
    destruct (String.eqb _ _); [|destruct (String.eqb _ _)]; [| |apply safe_raise].
    - eapply (safe_bind _ _ T); [|intros; apply safe_stix_update].
      destruct (truthy from); [ysafe|]. unfold stix_get_version, stix_node_version. simpl.
      ysafe.
    - eapply (safe_bind _ _ T); [|intros; apply safe_cybox_update].
      destruct (truthy from); [ysafe|]. unfold cybox_get_version, cybox_node_version. simpl.
      ysafe.
  Qed.
End Frame.

(** From [safe] to the statement about any call made in any state. *)
Lemma safe_extends {A} (m : M A) (s : st) :
  (forall i, In i (hids (heap s)) -> i < next s) ->
  safe (heap s) m T ->
  exists new, heap (snd (m s)) = heap s ++ new.
Proof.
  intros Hn H. destruct (H s) as [[(rest & Hr & _) _] _].
  - split; auto. exists []. rewrite app_nil_r; split; auto.
  - exists rest; auto.
Qed.
