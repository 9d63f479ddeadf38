(** * What a call looks at and what it changes.

    Every access of a call is of one of these kinds: it looks at a node of a
    document that was there before or at a node of its own making, or it
    changes a node of its own making.  The assertions are about the identities
    of nodes and not about the memory, so they hold whatever other calls do
    between the accesses. *)

From Coq Require Import String Ascii List Bool Arith Lia.
From Verif Require Import Str Xml XPath Utils Base Cybox Stix Ramrod SpecSession SpecThreads Lib.
From Verif Require Frame.
From Verif Require Import Steps Stepwise.
Import ListNotations.

Section Owned.
  (** The identities the call may draw, and the documents that were there
      before. *)
  Variable yid : nat -> Prop.
  Variable old : list tree.

  Definition oid (i : nat) : Prop := In i (hids old).
  Definition seen (i : nat) : Prop := yid i \/ oid i.
  Definition ytree (t : tree) : Prop := forall i, In i (ids t) -> yid i.
  Definition yctx (c : ctx) : Prop := ytree (snd c) /\ Forall ytree (fst c).

  Definition allowed {X} (a : op X) : Prop :=
    match a with
    | Read i => seen i
    | Write i f => yid i /\ keeps_id f
    | Fresh | Copy _ | Tick => True
    | Push t => ytree t
    | Put i new x => yid i /\ Forall ytree new /\ ytree x
    | Rebuild _ root c => yid root /\ ytree (snd c)
    end.

  (** What the call may rely on. *)
  Definition answers {X} (a : op X) : res X -> Prop :=
    match a in op X return res X -> Prop with
    | Read i => fun r => forall c, r = Ok c -> yid i -> yctx c
    | Write _ _ => fun r => True
    | Fresh => fun r => forall n, r = Ok n -> yid n
    | Copy _ => fun r => forall t, r = Ok t -> ytree t
    | Push t => fun r => r = Ok (tid t)
    | Put _ _ _ => fun r => True
    | Tick => fun r => True
    | Rebuild _ _ _ => fun r => forall n, r = Ok n -> yid n
    end.

  Fixpoint owns {A} (p : prog A) (Q : A -> Prop) : Prop :=
    match p with
    | Done r => forall a, r = Ok a -> Q a
    | Do a k => allowed a /\ forall r, answers a r -> owns (k r) Q
    end.

  Lemma owns_weaken {A} (m : prog A) (P Q : A -> Prop) :
    owns m P -> (forall a, P a -> Q a) -> owns m Q.
  Proof.
    intros H HPQ. induction m as [r|X a k IH]; cbn [owns] in *; auto.
    destruct H as [H1 H2]. split; auto.
  Qed.

  Definition T {A} : A -> Prop := fun _ => True.

  Lemma owns_T {A} (m : prog A) P : owns m P -> owns m T.
  Proof. intro H; eapply owns_weaken; eauto. unfold T; auto. Qed.

  Lemma owns_ret {A} (a : A) (Q : A -> Prop) : Q a -> owns (ret a) Q.
  Proof. intros H a' E; inversion E; subst; auto. Qed.

  Lemma owns_raise {A} e (Q : A -> Prop) : owns (raise e) Q.
  Proof. intros a' E; discriminate. Qed.

  Lemma owns_liftr {A} (r : res A) : owns (liftr r) T.
  Proof. intros a E; exact I. Qed.

  Lemma owns_bind {A B} (m : prog A) (k : A -> prog B) P Q :
    owns m P -> (forall a, P a -> owns (k a) Q) -> owns (bind m k) Q.
  Proof.
    intros Hm Hk. induction m as [[a|e]|X a q IH]; cbn [bind owns] in *; auto.
    - intros; discriminate.
    - destruct Hm as [H1 H2]. split; auto.
  Qed.

  Lemma owns_try {A} (m : prog A) h P :
    owns m P -> (forall e k, h e = Some k -> owns k P) -> owns (try_catch m h) P.
  Proof.
    intros Hm Hk. induction m as [[a|e]|X a q IH]; cbn [try_catch owns] in *; auto.
    - destruct (h e) as [k|] eqn:E; [eauto|]. intros; discriminate.
    - destruct Hm as [H1 H2]. split; auto.
  Qed.

  Lemma owns_for_each {A} (l : list A) (f : A -> prog unit) :
    (forall x, In x l -> owns (f x) T) -> owns (for_each l f) T.
  Proof.
    induction l as [|x l IH]; intro H; simpl.
    - apply owns_ret; exact I.
    - eapply owns_bind; [apply H; left; auto|]. intros _ _.
      apply IH. intros; apply H; right; auto.
  Qed.

  Lemma owns_map_m {A B} (f : A -> prog B) (Q : B -> Prop) l :
    (forall x, In x l -> owns (f x) Q) -> owns (map_m f l) (Forall Q).
  Proof.
    induction l as [|x l IH]; intro H; simpl.
    - apply owns_ret; constructor.
    - eapply owns_bind; [apply H; left; auto|]. intros y Hy.
      eapply owns_bind; [apply IH; intros; apply H; right; auto|]. intros ys Hys.
      apply owns_ret; constructor; auto.
  Qed.

  Lemma owns_filter_m {A} (f : A -> prog bool) (Q : A -> Prop) l :
    (forall x, Q x -> owns (f x) T) -> Forall Q l -> owns (filter_m f l) (Forall Q).
  Proof.
    intro H. induction l as [|x l IH]; intros HQ; cbn [filter_m].
    - apply owns_ret; constructor.
    - inversion HQ; subst.
      eapply owns_bind; [apply H; auto|]. intros b _.
      eapply owns_bind; [apply IH; auto|]. intros ys Hys.
      apply owns_ret. destruct b; auto.
  Qed.

  Local Arguments owns : simpl never.
  Local Arguments bind : simpl never.
  Local Arguments filter_m : simpl never.
  Local Arguments map_m : simpl never.
  Local Arguments for_each : simpl never.

  (** ** Single accesses *)

  Lemma owns_act {X} (a : op X) (Q : X -> Prop) :
    allowed a -> (forall x, answers a (Ok x) -> Q x) -> owns (act a) Q.
  Proof. intros H1 H2. split; auto. intros r Hr x E. subst r. auto. Qed.

  Lemma owns_deref_any i : seen i -> owns (deref i) T.
  Proof. intro H. apply owns_act; [exact H|]. intros; exact I. Qed.

  Lemma ytree_sub t a x : ytree t -> In (a, x) (visits [] t) -> yctx (a, x).
  Proof.
    intros Ht Hx. split; simpl.
    - intros i Hi. apply Ht. eapply visits_sub; eauto.
    - apply Forall_forall. intros p Hp i Hi.
      destruct (visits_anc_sub _ _ _ _ _ Hx Hp) as [[]|[H1 _]]. apply Ht, H1, Hi.
  Qed.

  Lemma owns_deref i : yid i -> owns (deref i) yctx.
  Proof. intro H. apply owns_act; [left; exact H|]. intros c Hc. apply Hc; auto. Qed.

  Lemma owns_get_hdr i : seen i -> owns (get_hdr i) T.
  Proof.
    intro H. eapply owns_bind; [apply owns_deref_any; auto|]. intros; apply owns_ret; exact I.
  Qed.

  Lemma ytree_tid t : ytree t -> yid (tid t).
  Proof. intro H; apply H, in_ids_self. Qed.

  Lemma owns_modify i f : yid i -> keeps_id f -> owns (modify i f) T.
  Proof. intros H K. apply owns_act; [split; auto|]. intros; exact I. Qed.

  Lemma owns_fresh : owns fresh yid.
  Proof. apply owns_act; [exact I|]. intros n H. apply H; auto. Qed.

  Lemma owns_copy_tree t : owns (copy_tree t) ytree.
  Proof. apply owns_act; [exact I|]. intros n H. apply H; auto. Qed.

  Lemma owns_push t : ytree t -> owns (push t) yid.
  Proof.
    intro H. apply owns_act; [exact H|]. intros n E. inversion E; subst. apply ytree_tid; auto.
  Qed.

  Lemma owns_supplant i new : yid i -> Forall ytree new -> owns (supplant i new) T.
  Proof.
    intros Hi Hnew. unfold supplant. eapply owns_bind; [apply owns_deref; auto|].
    intros c Hc. destruct (parent c); [|apply owns_ret; exact I].
    apply owns_act; [|intros; exact I]. split; [exact Hi|]. split; [exact Hnew|apply Hc].
  Qed.

  Lemma owns_new_elem tag text ks : Forall ytree ks -> owns (new_elem tag text ks) ytree.
  Proof.
    intro Hk. unfold new_elem. eapply owns_bind; [apply owns_fresh|].
    intros n Hn. apply owns_ret. intros i [<-|Hi]; auto.
    apply in_flat_map in Hi as (k & Hk' & Hi). rewrite Forall_forall in Hk.
    exact (Hk k Hk' i Hi).
  Qed.

  (** ** XPath *)

  Lemma select_ids_young p t : ytree t -> Forall yid (select_ids p t).
  Proof.
    intro Ht. apply Forall_forall. intros i Hi.
    apply in_map_iff in Hi as ([a x] & <- & Hc). apply filter_In in Hc as [Hc _].
    apply (ytree_sub t a x) in Hc; auto. apply ytree_tid, Hc.
  Qed.

  Lemma yctx_root c : yctx c -> ytree (root_of c).
  Proof.
    destruct c as [a x]; intros [H1 H2]; simpl in *. unfold root_of; simpl.
    destruct a as [|p a]; simpl; auto.
    rewrite Forall_forall in H2.
    assert (H : In (last (p :: a) x) (p :: a)).
    { clear. revert p. induction a as [|q a IH]; intro p; simpl; auto.
      right. apply IH. }
    exact (H2 _ H).
  Qed.

  Lemma owns_xpath i x ns : yid i -> owns (xpath i x ns) (Forall yid).
  Proof.
    intro Hi. unfold xpath. eapply owns_bind; [apply owns_deref; auto|].
    intros c Hc. destruct (xcompile ns x); [|apply owns_raise].
    destruct (forallb alt_abs l).
    - apply owns_ret, select_ids_young, yctx_root, Hc.
    - destruct (existsb alt_abs l); [apply owns_raise|].
      apply owns_ret, select_ids_young, Hc.
  Qed.

  Lemma owns_get_type_info i : seen i -> owns (get_type_info i) T.
  Proof. intro. eapply owns_bind; [apply owns_get_hdr; auto|]. intros; apply owns_liftr. Qed.

  Lemma owns_get_ext_namespace i : seen i -> owns (get_ext_namespace i) T.
  Proof. intro. eapply owns_bind; [apply owns_deref_any; auto|]. intros; apply owns_liftr. Qed.

  Lemma yid_seen i : yid i -> seen i.
  Proof. left; auto. Qed.
  Hint Resolve yid_seen : core.

  Ltac yowns :=
    repeat lazymatch goal with
    | |- owns (ret _) T => apply owns_ret; exact I
    | |- owns (raise _) _ => apply owns_raise
    | |- owns (liftr _) T => apply owns_liftr
    | |- owns (get_hdr _) T => apply owns_get_hdr; auto
    | |- owns (deref _) T => apply owns_deref_any; auto
    | |- owns (modify _ _) T => apply owns_modify; auto with keeps
    | |- owns (get_type_info _) T => apply owns_get_type_info; auto
    | |- owns (get_ext_namespace _) T => apply owns_get_ext_namespace; auto
    | |- owns (for_each _ _) T => apply owns_for_each; intros
    | |- owns (bind _ _) T => eapply (owns_bind _ _ T); [|intros]
    | |- owns (if ?b then _ else _) _ => destruct b
    | |- owns (match ?b with _ => _ end) _ => destruct b
    end.

  (** ** base.py *)

  Lemma owns_remove_xml_elements l : Forall yid l -> owns (remove_xml_elements l) T.
  Proof.
    intro H. apply owns_for_each. intros i Hi. apply owns_supplant; auto.
    rewrite Forall_forall in H; auto.
  Qed.

  Lemma owns_copy_xml_element i tag : seen i -> owns (copy_xml_element i tag) ytree.
  Proof.
    intro Hi. unfold copy_xml_element. eapply owns_bind; [apply owns_deref_any; auto|]. intros c _.
    eapply owns_bind; [apply owns_copy_tree|]. intros t Ht.
    destruct (is_elem t); [|apply owns_raise]. destruct t as [h ks].
    apply owns_ret. exact Ht.
  Qed.

  Lemma owns_vocab_update v typed : Forall yid typed -> owns (vocab_update v typed) T.
  Proof.
    intro H. unfold vocab_update, vocab_find.
    eapply owns_bind; [apply (owns_filter_m _ yid); auto; intros; cbv beta; yowns|].
    intros vs Hvs. apply owns_for_each. intros i Hi.
    rewrite Forall_forall in Hvs. specialize (Hvs i Hi).
    unfold vocab_update_node, set_pystr. yowns.
  Qed.

  Lemma owns_interrogate o k nodes :
    Forall yid nodes -> owns (interrogate o k nodes) (Forall yid).
  Proof.
    intro H. destruct k; simpl.
    - apply owns_ret; auto.
    - apply (owns_filter_m _ yid); auto; intros; cbv beta; yowns.
    - apply (owns_filter_m _ yid); auto; intros; cbv beta; yowns.
    - apply (owns_filter_m _ yid); auto; intros; cbv beta; yowns.
    - apply (owns_filter_m _ yid); auto; intros; cbv beta; yowns.
    - eapply owns_bind; [apply (owns_filter_m _ yid); auto; intros; cbv beta; yowns|].
      intros bad Hbad. apply owns_map_m. intros i Hi.
      rewrite Forall_forall in Hbad. specialize (Hbad i Hi).
      eapply owns_bind; [apply owns_deref; auto|]. intros c Hc.
      unfold parent. destruct c as [[|p a] x]; simpl; [apply owns_raise|].
      apply owns_ret, ytree_tid. destruct Hc as [_ Hc]; simpl in Hc.
      inversion Hc; auto.
  Qed.

  Lemma owns_get_typed_nodes i : yid i -> owns (get_typed_nodes i) (Forall yid).
  Proof. apply owns_xpath. Qed.

  Lemma owns_get_contexts d root typed :
    yid root -> (forall l, typed = Some l -> Forall yid l) ->
    owns (get_contexts d root typed) (Forall yid).
  Proof.
    intros Hr Ht. unfold get_contexts. destruct (d_ctx_types d).
    - apply owns_ret; auto.
    - eapply (owns_bind _ _ (Forall yid)).
      + destruct typed; [apply owns_ret; auto|apply owns_get_typed_nodes; auto].
      + intros ty Hty. apply (owns_filter_m _ yid); auto; intros; cbv beta; yowns.
  Qed.

  Lemma owns_find_in o d ns l : Forall yid l -> owns (find_in o d ns l) (Forall yid).
  Proof.
    induction l as [|c l IH]; intro H; simpl.
    - apply owns_ret; constructor.
    - inversion H; subst.
      eapply owns_bind; [apply owns_xpath; auto|]. intros nodes Hn.
      eapply owns_bind; [apply owns_interrogate; auto|]. intros f Hf.
      eapply owns_bind; [apply IH; auto|]. intros r Hr.
      apply owns_ret, Forall_app; auto.
  Qed.

  Lemma owns_dfind o d ns root typed :
    yid root -> (forall l, typed = Some l -> Forall yid l) ->
    owns (dfind o d ns root typed) (Forall yid).
  Proof.
    intros Hr Ht. unfold dfind. eapply owns_bind; [apply owns_get_contexts; auto|].
    intros; apply owns_find_in; auto.
  Qed.

  Lemma owns_replace i new : yid i -> ytree new -> owns (replace_xml_element i new) T.
  Proof. intros; apply owns_supplant; auto. Qed.

  Lemma owns_translate_node o ns k i : yid i -> owns (translate_node o ns k i) T.
  Proof.
    intro Hi. destruct k; simpl.
    - unfold translate_default.
      eapply (owns_bind _ _ ytree); [|intros; apply owns_replace; auto].
      eapply (owns_bind _ _ T); [apply owns_get_hdr; auto|]. intros h _.
      eapply owns_bind; [apply owns_xpath; auto|]. intros [|v vs] Hv.
      + apply owns_raise.
      + inversion Hv; subst.
        eapply (owns_bind _ _ T); [apply owns_get_hdr; auto|]. intros hv _.
        eapply (owns_bind _ _ yid); [apply owns_fresh|]. intros n Hn.
        apply owns_ret. intros j [<-|[]]. exact Hn.
    - yowns.
    - eapply (owns_bind _ _ ytree); [|intros; apply owns_replace; auto].
      unfold translate_wrap. eapply owns_bind; [apply owns_copy_xml_element; auto|].
      intros dup Hd. apply owns_new_elem; auto.
    - eapply (owns_bind _ _ ytree); [|intros; apply owns_replace; auto].
      unfold translate_contributors. eapply owns_bind; [apply owns_deref; auto|].
      intros c Hc. eapply owns_bind; [apply (owns_map_m _ ytree)|].
      + intros k Hk.
        assert (yid (tid k)).
        { apply (proj1 Hc). destruct (snd c) as [h' ks']. simpl in *. right.
          apply in_flat_map. exists k; split; auto. apply in_ids_self. }
        eapply owns_bind; [apply owns_copy_xml_element; auto|].
        intros dup Hd. apply owns_new_elem; auto.
      + intros; apply owns_new_elem; auto.
    - eapply (owns_bind _ _ ytree); [|intros; apply owns_replace; auto].
      unfold translate_source. eapply owns_bind; [apply owns_get_hdr; auto|].
      intros h _. destruct (parse_source _ _ _); [apply owns_copy_tree|apply owns_raise].
    - eapply (owns_bind _ _ ytree); [|intros; apply owns_replace; auto].
      unfold translate_source. eapply owns_bind; [apply owns_get_hdr; auto|].
      intros h _. destruct (parse_source _ _ _); [apply owns_copy_tree|apply owns_raise].
    - eapply (owns_bind _ _ ytree); [|intros; apply owns_replace; auto].
      unfold translate_wrap. eapply owns_bind; [apply owns_copy_xml_element; auto|].
      intros dup Hd. apply owns_new_elem; auto.
    - unfold mailslot_replace. eapply owns_bind; [apply owns_deref; auto|].
      intros c Hc. eapply owns_bind; [apply owns_copy_xml_element; auto|].
      intros dup Hd. unfold parent. destruct c as [[|p a] x]; simpl; [apply owns_raise|].
      apply owns_replace; auto. apply ytree_tid. destruct Hc as [_ Hc]; simpl in Hc.
      inversion Hc; auto.
  Qed.

  Lemma owns_translate_fields o u root : yid root -> owns (translate_fields o u root) T.
  Proof.
    intro Hr. apply owns_for_each. intros f _. unfold translate.
    eapply owns_bind; [apply owns_xpath; auto|]. intros nodes Hn.
    apply owns_for_each. intros i Hi. apply owns_translate_node.
    rewrite Forall_forall in Hn; auto.
  Qed.

  Lemma owns_update_vocabs u root : yid root -> owns (update_vocabs u root) T.
  Proof.
    intro Hr. unfold update_vocabs. eapply owns_bind; [apply owns_get_typed_nodes; auto|].
    intros typed Ht. apply owns_for_each. intros; apply owns_vocab_update; auto.
  Qed.

  Lemma owns_update_schemalocs u root : yid root -> owns (update_schemalocs u root) T.
  Proof. intro Hr. unfold update_schemalocs. yowns. Qed.

  Lemma owns_update_namespaces u root : yid root -> owns (update_namespaces u root) yid.
  Proof.
    intro Hr. unfold update_namespaces. eapply owns_bind; [apply owns_deref; auto|].
    intros c Hc. destruct (upd_ns_fails u (snd c)); [apply owns_raise|].
    apply owns_act; [split; [exact Hr|apply Hc]|]. intros n H. apply H; auto.
  Qed.

  Lemma owns_update_optionals o u root : yid root -> owns (update_optionals o u root) T.
  Proof.
    intro Hr. unfold update_optionals.
    eapply owns_bind; [apply owns_get_typed_nodes; auto|]. intros typed Ht.
    assert (Hty : forall l, Some typed = Some l -> Forall yid l).
    { intros l E; inversion E; subst; auto. }
    eapply (owns_bind _ _ T).
    - apply owns_for_each. intros d _.
      eapply owns_bind; [apply owns_dfind; auto|]. intros; apply owns_remove_xml_elements; auto.
    - intros _ _. apply owns_for_each. intros d _.
      eapply owns_bind; [apply owns_dfind; auto|]. intros found Hf.
      apply owns_for_each. intros i Hi. apply owns_for_each. intros q _.
      apply owns_modify; auto with keeps. rewrite Forall_forall in Hf; auto.
  Qed.

  Lemma owns_find_disallowed o ns l root :
    yid root -> owns (find_disallowed o ns l root) (Forall yid).
  Proof.
    intro Hr. induction l as [|d l IH]; simpl.
    - apply owns_ret; constructor.
    - eapply owns_bind; [apply owns_dfind; auto; intros; discriminate|]. intros f Hf.
      eapply owns_bind; [exact IH|]. intros r Hr'. apply owns_ret, Forall_app; auto.
  Qed.

  Lemma owns_clean_disallowed l : Forall yid l -> owns (clean_disallowed l) (Forall yid).
  Proof.
    intro H. apply (owns_map_m _ yid). intros i Hi.
    rewrite Forall_forall in H.
    eapply owns_bind; [apply owns_copy_xml_element; auto|]. intros dup Hd.
    eapply (owns_bind _ _ T); [apply owns_supplant; auto|]. intros _ _.
    apply owns_push; auto.
  Qed.

  Definition ydict (d : dict (list nat)) : Prop := Forall (fun kv => Forall yid (snd kv)) d.

  Lemma owns_apply_new_id f i : yid i -> owns (apply_new_id f i) T.
  Proof.
    intro Hi. unfold apply_new_id. eapply owns_bind; [apply owns_get_hdr; auto|].
    intros h _. destruct (attr_get _ _); [|apply owns_raise].
    eapply (owns_bind _ _ T); [apply owns_act; [exact I|intros; exact I]|].
    intros n _. apply (owns_modify i _ Hi (keeps_hset _ _)).
  Qed.

  Lemma owns_clean_duplicates opts d : ydict d -> owns (clean_duplicates opts d) ydict.
  Proof.
    intro H. unfold clean_duplicates.
    eapply (owns_bind _ _ T); [|intros; apply owns_ret; exact H].
    apply owns_for_each. intros kv Hkv. apply owns_for_each. intros i Hi.
    apply owns_apply_new_id. unfold ydict in H. rewrite Forall_forall in H.
    specialize (H kv Hkv). rewrite Forall_forall in H; auto.
  Qed.

  Lemma ydict_set k v d : ydict d -> Forall yid v -> ydict (dict_set k v d).
  Proof.
    intros H Hv. induction d as [|[k' v'] d IH]; simpl.
    - repeat constructor; auto.
    - inversion H; subst. destruct (String.eqb k k'); constructor; auto.
      apply IH; auto.
  Qed.

  Lemma ydict_get k v d : ydict d -> dict_get k d = Some v -> Forall yid v.
  Proof.
    intro H. induction d as [|[k' v'] d IH]; simpl; [discriminate|].
    inversion H; subst. destruct (String.eqb k k'); intro E; [inversion E; subst|]; auto.
  Qed.

  Lemma ydict_update d e : ydict d -> ydict e -> ydict (dict_update d e).
  Proof.
    unfold dict_update. revert d. induction e as [|[k v] e IH]; intros d Hd He; simpl; auto.
    inversion He; subst. apply IH; auto. apply ydict_set; auto.
  Qed.

  Lemma id_groups_young namespaces t : ytree t -> ydict (id_groups namespaces t).
  Proof.
    intro Ht. unfold id_groups.
    assert (H : forall l, (forall c, In c l -> In c (visits [] t)) ->
      forall acc, ydict acc -> ydict (fold_left (fun acc c =>
        let h := head (snd c) in
        if is_elem (snd c) then
          match attr_get (lq "id") (h_attr h), q_ns (h_tag h) with
          | Some id_, Some ns =>
              if mem_str ns namespaces
              then dict_set id_ (match dict_get id_ acc with
                                 | Some l => (l ++ [h_id h])%list
                                 | None => [h_id h]
                                 end) acc
              else acc
          | _, _ => acc
          end
        else acc) l acc)).
    { induction l as [|c l IH]; intros Hl acc Hacc; [exact Hacc|]. cbn [fold_left].
      apply IH; [intros; apply Hl; right; auto|]. cbv zeta.
      destruct (is_elem (snd c)); auto. destruct (attr_get _ _) as [id_|]; auto.
      destruct (q_ns _) as [ns|]; auto. destruct (mem_str _ _); auto.
      assert (Hy : yid (h_id (head (snd c)))).
      { destruct c as [a x]. specialize (Hl (a, x) (or_introl eq_refl)).
        apply (ytree_sub t a x Ht) in Hl. apply (ytree_tid x), Hl. }
      apply ydict_set; auto. destruct (dict_get id_ acc) eqn:E; auto.
      apply Forall_app; split; auto. eapply ydict_get; eauto. }
    apply H; [|constructor]. intros c Hc. destruct t as [h ks]. simpl in *. auto.
  Qed.

  Lemma owns_get_duplicates u root : yid root -> owns (get_duplicates u root) ydict.
  Proof.
    intro Hr. unfold get_duplicates. eapply owns_bind; [apply owns_deref; auto|].
    intros c Hc. apply owns_ret. unfold duplicate_groups.
    apply Forall_forall. intros kv Hkv. apply filter_In in Hkv as [Hkv _].
    pose proof (id_groups_young (map snd (c_nsmap u)) (snd c) (proj1 Hc)) as H.
    unfold ydict in H. rewrite Forall_forall in H; auto.
  Qed.

  (** ** Updaters *)

  Record owns_updater (up : updater) : Prop := {
    su_check : forall root opts, yid root -> owns (up_check up root opts) T;
    su_update : forall root opts, yid root -> owns (up_update up root opts) yid;
    su_dis : forall root, yid root ->
      owns (up_get_disallowed up root) (fun o => forall l, o = Some l -> Forall yid l);
    su_dup : forall root, yid root ->
      owns (up_get_duplicates up root) (fun o => forall l, o = Some l -> ydict l);
    su_cdis : forall l opts, Forall yid l -> owns (up_clean_disallowed up l opts) (Forall yid);
    su_cdup : forall d opts, ydict d -> owns (up_clean_duplicates up d opts) ydict
  }.

  (** The document of an argument was there before. *)
  Definition odoc (d : docarg) : Prop :=
    match d with DElem i | DTree i => seen i | DFile _ => True end.

  Definition ycoll (c : coll) : Prop :=
    match c with CTuple l | CList l => Forall yid l | CDict d => ydict d end.
  Definition yresults (r : results) : Prop :=
    yid (r_document r) /\ ycoll (r_removed r) /\ ycoll (r_remapped r).
  Definition sresults (r : results) : Prop :=
    seen (r_document r) /\ ycoll (r_removed r) /\ ycoll (r_remapped r).

  Lemma owns_get_etree_root_copy d : odoc d -> owns (get_etree_root d true) yid.
  Proof.
    destruct d as [i|i|[t|]]; simpl; intro H; try apply owns_raise.
    - eapply owns_bind; [apply owns_deref_any; auto|]. intros c _.
      eapply owns_bind; [apply owns_copy_tree|]. intros; apply owns_push; auto.
    - eapply owns_bind; [apply owns_deref_any; auto|]. intros c _.
      eapply owns_bind; [apply owns_copy_tree|]. intros; apply owns_push; auto.
    - eapply owns_bind; [apply owns_copy_tree|]. intros; apply owns_push; auto.
  Qed.

  Lemma owns_get_etree_root d : odoc d -> owns (get_etree_root d false) seen.
  Proof.
    destruct d as [i|i|[t|]]; simpl; intro H; try apply owns_raise; try (apply owns_ret; exact H).
    eapply owns_bind; [apply owns_copy_tree|]. intros.
    eapply owns_weaken; [apply owns_push; auto|]. auto.
  Qed.

  Lemma owns_clean_root up root opts : owns_updater up -> yid root ->
    owns (clean_root up root opts) (fun r => r_document r = root /\ yresults r).
  Proof.
    intros Hu Hr. unfold clean_root.
    eapply owns_bind; [apply su_dis; auto|]. intros dis Hdis.
    eapply owns_bind; [apply su_dup; auto|]. intros dup Hdup.
    eapply (owns_bind _ _ ydict).
    - destruct dup as [[|x l]|]; try (apply owns_ret; constructor). apply su_cdup; auto.
    - intros rem Hrem. eapply (owns_bind _ _ (Forall yid)).
      + destruct dis as [[|x l]|]; try (apply owns_ret; constructor). apply su_cdis; auto.
      + intros rmv Hrmv. apply owns_ret. split; [reflexivity|].
        split; [exact Hr|]. split; [exact Hrmv|exact Hrem].
  Qed.

  Lemma owns_clean o up doc opts : owns_updater up -> odoc doc ->
    owns (clean o up doc opts) yresults.
  Proof.
    intros Hu Hd. unfold clean. eapply owns_bind; [apply owns_get_etree_root_copy; auto|].
    intros root Hr. eapply owns_weaken; [apply owns_clean_root; auto|]. intros r H; apply H.
  Qed.

  Lemma owns_as_element i : yid i -> owns (as_element i) yid.
  Proof.
    intro Hi. unfold as_element. eapply owns_bind; [apply owns_deref; auto|].
    intros c Hc. apply owns_ret, ytree_tid, yctx_root, Hc.
  Qed.

  Lemma ycoll_or c d : ycoll c -> ycoll d -> ycoll (coll_or c d).
  Proof. intros H1 H2. unfold coll_or. destruct (coll_empty c); auto. Qed.

  Lemma owns_updater_update o up doc opts force :
    owns_updater up -> odoc doc -> owns (updater_update o up doc opts force) yresults.
  Proof.
    intros Hu Ho. unfold updater_update. eapply owns_bind; [apply owns_get_etree_root_copy; auto|].
    intros root Hr. apply owns_try.
    - eapply (owns_bind _ _ T); [apply su_check; auto|]. intros _ _.
      eapply (owns_bind _ _ yid); [apply su_update; auto|]. intros r Hy.
      apply owns_ret. split; [exact Hy|]. split; constructor.
    - intros e k E. destruct (_ && force); [|discriminate].
      injection E as <-. unfold force_update.
      eapply owns_bind; [apply owns_clean_root; auto|]. intros r (Hr' & _ & Hrm & Hrp). rewrite Hr'.
      eapply owns_bind; [apply owns_as_element; auto|]. intros doc' Hd.
      eapply (owns_bind _ _ yid); [apply su_update; auto|]. intros u Hy.
      apply owns_ret. split; [exact Hy|].
      split; apply ycoll_or; auto; constructor.
  Qed.

  (** ** The seven updaters *)

  Lemma owns_cybox_check_version u root : yid root -> owns (cybox_check_version u root) T.
  Proof.
    intro Hr. unfold cybox_check_version, cybox_node_version.
    eapply owns_bind; [apply owns_xpath; auto|]. intros l Hl.
    apply owns_for_each. intros i Hi. rewrite Forall_forall in Hl. specialize (Hl i Hi). yowns.
  Qed.

  Lemma owns_stix_check_version u root : yid root -> owns (stix_check_version u root) T.
  Proof.
    intro Hr. unfold stix_check_version, stix_node_version.
    eapply owns_bind; [apply owns_xpath; auto|]. intros [|i l] Hl; [yowns|].
    inversion Hl; subst. yowns.
  Qed.

  Lemma owns_stix_update_versions u a b root :
    yid root -> owns (stix_update_versions u a b root) T.
  Proof.
    intro Hr. unfold stix_update_versions.
    eapply owns_bind; [apply owns_xpath; auto|]. intros l Hl.
    apply owns_for_each. intros i Hi. rewrite Forall_forall in Hl. specialize (Hl i Hi).
    yowns.
  Qed.

  Lemma owns_update_lists u root : yid root -> owns (update_lists u root) T.
  Proof.
    intro Hr. unfold update_lists. eapply owns_bind; [apply owns_xpath; auto|].
    intros props Hp. apply owns_for_each. intros p Hpi.
    rewrite Forall_forall in Hp. specialize (Hp p Hpi).
    eapply owns_bind; [apply owns_deref; auto|]. intros c Hc.
    apply owns_for_each. intros i Hi.
    assert (Hy : yid i).
    { apply in_map_iff in Hi as ([a x] & <- & Hx). apply filter_In in Hx as [Hx _].
      assert (Hv : In (a, x) (visits [] (snd c))).
      { destruct (snd c); simpl in *; auto. }
      apply (ytree_sub _ _ _ (proj1 Hc)) in Hv. apply ytree_tid, Hv. }
    yowns.
  Qed.

  Lemma owns_cybox_2_0_do_update u root opts :
    yid root -> owns (cybox_2_0_do_update u root opts) yid.
  Proof.
    intro Hr. unfold cybox_2_0_do_update.
    eapply (owns_bind _ _ T); [apply owns_update_schemalocs; auto|]. intros _ _.
    eapply (owns_bind _ _ T).
    { unfold cybox_2_0_update_versions. eapply owns_bind; [apply owns_xpath; auto|].
      intros l Hl. apply owns_for_each. intros i Hi.
      rewrite Forall_forall in Hl. specialize (Hl i Hi). yowns. }
    intros _ _.
    eapply (owns_bind _ _ T); [apply owns_update_lists; auto|]. intros _ _.
    eapply (owns_bind _ _ T).
    { destruct (update_vocabularies opts); [apply owns_update_vocabs; auto|yowns]. }
    intros _ _. apply owns_ret; auto.
  Qed.

  Lemma owns_cybox_2_0_1_do_update o u root opts :
    yid root -> owns (cybox_2_0_1_do_update o u root opts) yid.
  Proof.
    intro Hr. unfold cybox_2_0_1_do_update.
    eapply owns_bind; [apply owns_update_namespaces; auto|]. intros r Hy.
    eapply (owns_bind _ _ T); [apply owns_update_schemalocs; auto|]. intros _ _.
    eapply (owns_bind _ _ T).
    { unfold cybox_2_0_1_update_versions. eapply owns_bind; [apply owns_xpath; auto|].
      intros l Hl. apply owns_for_each. intros i Hi.
      rewrite Forall_forall in Hl. specialize (Hl i Hi). yowns. }
    intros _ _.
    eapply (owns_bind _ _ T); [apply owns_translate_fields; auto|]. intros _ _.
    eapply (owns_bind _ _ T).
    { destruct (update_vocabularies opts); [apply owns_update_vocabs; auto|yowns]. }
    intros _ _.
    eapply (owns_bind _ _ T).
    { destruct (remove_optionals opts); [apply owns_update_optionals; auto|yowns]. }
    intros _ _. apply owns_ret; auto.
  Qed.

  Lemma owns_report a b : owns (report a b) T.
  Proof. unfold report. yowns. Qed.

  Lemma su_cybox_2_0 : owns_updater Cybox_2_0_Updater.
  Proof.
    constructor; simpl; intros.
    - unfold cybox_2_0_check. destruct (check_versions opts);
        [apply owns_cybox_check_version; auto|yowns].
    - apply owns_cybox_2_0_do_update; auto.
    - apply owns_ret; intros; discriminate.
    - apply owns_ret; intros; discriminate.
    - apply owns_raise.
    - apply owns_raise.
  Qed.

  Lemma su_cybox_2_0_1 o : owns_updater (Cybox_2_0_1_Updater o).
  Proof.
    constructor; simpl; intros.
    - unfold cybox_2_0_1_check, cybox_2_0_1_get_disallowed.
      eapply (owns_bind _ _ T).
      { destruct (check_versions opts); [apply owns_cybox_check_version; auto|yowns]. }
      intros _ _. eapply owns_bind; [apply owns_get_duplicates; auto|]. intros d Hd.
      eapply owns_bind; [apply owns_find_disallowed; auto|]. intros; apply owns_report.
    - apply owns_cybox_2_0_1_do_update; auto.
    - eapply owns_bind; [apply owns_find_disallowed; auto|]. intros l Hl.
      apply owns_ret. intros l' E; inversion E; subst; auto.
    - eapply owns_bind; [apply owns_get_duplicates; auto|]. intros l Hl.
      apply owns_ret. intros l' E; inversion E; subst; auto.
    - apply owns_clean_disallowed; auto.
    - apply owns_clean_duplicates; auto.
  Qed.

  Lemma owns_stix_1_0_dis o root :
    yid root -> owns (stix_1_0_get_disallowed o root) (Forall yid).
  Proof. intro; apply owns_find_disallowed; auto. Qed.

  Lemma owns_stix_1_0_1_dis o root :
    yid root -> owns (stix_1_0_1_get_disallowed o root) (Forall yid).
  Proof.
    intro Hr. eapply owns_bind; [apply owns_find_disallowed; auto|]. intros a Ha.
    eapply owns_bind; [apply owns_find_disallowed; auto|]. intros b Hb.
    apply owns_ret, Forall_app; auto.
  Qed.

  Lemma owns_stix_1_0_1_dup root :
    yid root -> owns (stix_1_0_1_get_duplicates root) ydict.
  Proof.
    intro Hr. eapply owns_bind; [apply owns_get_duplicates; auto|]. intros a Ha.
    eapply owns_bind; [apply owns_get_duplicates; auto|]. intros b Hb.
    apply owns_ret, ydict_update; auto.
  Qed.

  Lemma su_stix_1_0 o : owns_updater (STIX_1_0_Updater o).
  Proof.
    constructor; simpl; intros.
    - unfold stix_1_0_check. eapply (owns_bind _ _ T).
      { destruct (check_versions opts); [|yowns].
        eapply (owns_bind _ _ T); [apply owns_stix_check_version; auto|]. intros _ _.
        apply owns_cybox_check_version; auto. }
      intros _ _. eapply owns_bind; [apply owns_stix_1_0_dis; auto|].
      intros [|x l] _; yowns.
    - unfold stix_1_0_do_update.
      eapply owns_bind; [apply owns_cybox_2_0_do_update; auto|]. intros r1 H1.
      eapply owns_bind; [apply owns_update_namespaces; auto|]. intros r2 H2.
      eapply (owns_bind _ _ T); [apply owns_update_schemalocs; auto|]. intros _ _.
      eapply (owns_bind _ _ T); [apply owns_stix_update_versions; auto|]. intros _ _.
      eapply (owns_bind _ _ T).
      { destruct (update_vocabularies opts); [apply owns_update_vocabs; auto|yowns]. }
      intros _ _. apply owns_ret; auto.
    - eapply owns_bind; [apply owns_stix_1_0_dis; auto|]. intros l Hl.
      apply owns_ret. intros l' E; inversion E; subst; auto.
    - apply owns_ret; intros; discriminate.
    - apply owns_clean_disallowed; auto.
    - apply owns_raise.
  Qed.

  Lemma su_stix_1_0_1 o : owns_updater (STIX_1_0_1_Updater o).
  Proof.
    constructor; simpl; intros.
    - unfold stix_1_0_1_check. eapply (owns_bind _ _ T).
      { destruct (check_versions opts); [|yowns].
        eapply (owns_bind _ _ T); [apply owns_stix_check_version; auto|]. intros _ _.
        apply owns_cybox_check_version; auto. }
      intros _ _. eapply owns_bind; [apply owns_stix_1_0_1_dup; auto|]. intros d Hd.
      eapply owns_bind; [apply owns_stix_1_0_1_dis; auto|]. intros; apply owns_report.
    - unfold stix_1_0_1_do_update.
      eapply owns_bind; [apply owns_cybox_2_0_1_do_update; auto|]. intros r1 H1.
      eapply owns_bind; [apply owns_update_namespaces; auto|]. intros r2 H2.
      eapply (owns_bind _ _ T); [apply owns_update_schemalocs; auto|]. intros _ _.
      eapply (owns_bind _ _ T); [apply owns_stix_update_versions; auto|]. intros _ _.
      eapply (owns_bind _ _ T); [apply owns_translate_fields; auto|]. intros _ _.
      eapply (owns_bind _ _ T).
      { destruct (update_vocabularies opts); [apply owns_update_vocabs; auto|yowns]. }
      intros _ _.
      eapply (owns_bind _ _ T).
      { destruct (remove_optionals opts); [apply owns_update_optionals; auto|yowns]. }
      intros _ _. apply owns_ret; auto.
    - eapply owns_bind; [apply owns_stix_1_0_1_dis; auto|]. intros l Hl.
      apply owns_ret. intros l' E; inversion E; subst; auto.
    - eapply owns_bind; [apply owns_stix_1_0_1_dup; auto|]. intros l Hl.
      apply owns_ret. intros l' E; inversion E; subst; auto.
    - apply owns_clean_disallowed; auto.
    - apply owns_clean_duplicates; auto.
  Qed.

  Lemma su_stix_1_1 o : owns_updater (STIX_1_1_Updater o).
  Proof.
    constructor; simpl; intros.
    - unfold stix_1_1_check. destruct (check_versions opts);
        [apply owns_stix_check_version; auto|yowns].
    - unfold stix_1_1_do_update.
      eapply (owns_bind _ _ T); [apply owns_update_schemalocs; auto|]. intros _ _.
      eapply (owns_bind _ _ T); [apply owns_update_schemalocs; auto|]. intros _ _.
      eapply (owns_bind _ _ T); [apply owns_stix_update_versions; auto|]. intros _ _.
      eapply (owns_bind _ _ T); [apply owns_translate_fields; auto|]. intros _ _.
      eapply (owns_bind _ _ T).
      { destruct (update_vocabularies opts); [apply owns_update_vocabs; auto|yowns]. }
      intros _ _.
      eapply (owns_bind _ _ T).
      { destruct (remove_optionals opts); [apply owns_update_optionals; auto|yowns]. }
      intros _ _. apply owns_ret; auto.
    - apply owns_ret; intros; discriminate.
    - apply owns_ret; intros; discriminate.
    - apply owns_raise.
    - apply owns_raise.
  Qed.

  Lemma su_stix_1_1_1 : owns_updater STIX_1_1_1_Updater.
  Proof.
    constructor; simpl; intros.
    - unfold stix_1_1_1_check. destruct (check_versions opts);
        [apply owns_stix_check_version; auto|yowns].
    - unfold stix_1_1_1_do_update.
      eapply (owns_bind _ _ T); [apply owns_update_schemalocs; auto|]. intros _ _.
      eapply (owns_bind _ _ T); [apply owns_stix_update_versions; auto|]. intros _ _.
      eapply (owns_bind _ _ T).
      { destruct (update_vocabularies opts); [apply owns_update_vocabs; auto|yowns]. }
      intros _ _. apply owns_ret; auto.
    - apply owns_ret; intros; discriminate.
    - apply owns_ret; intros; discriminate.
    - apply owns_raise.
    - apply owns_raise.
  Qed.

  Lemma su_stix_1_2 : owns_updater STIX_1_2_Updater.
  Proof.
    constructor; simpl; intros.
    - unfold stix_1_2_check. destruct (check_versions opts);
        [apply owns_stix_check_version; auto|yowns].
    - unfold stix_1_2_do_update.
      eapply owns_bind; [apply owns_update_namespaces; auto|]. intros r2 H2.
      eapply (owns_bind _ _ T); [apply owns_update_schemalocs; auto|]. intros _ _.
      eapply (owns_bind _ _ T); [yowns|]. intros _ _. apply owns_ret; auto.
    - apply owns_raise.
    - eapply owns_bind; [apply owns_get_duplicates; auto|]. intros l Hl.
      apply owns_ret. intros l' E; inversion E; subst; auto.
    - apply owns_raise.
    - apply owns_raise.
  Qed.

  (** ** Chains of steps *)

  Definition owns_table (table : dict updater) : Prop :=
    forall v up, dict_get v table = Some up -> owns_updater up.

  Lemma owns_run_steps o table opts force steps : owns_table table ->
    forall root removed remapped, seen root -> Forall yid removed -> ydict remapped ->
    owns (run_steps o table steps root opts force removed remapped)
         (fun r => seen (fst (fst r)) /\ Forall yid (snd (fst r)) /\ ydict (snd r)).
  Proof.
    intro Ht. induction steps as [|v vs IH]; intros root removed remapped H1 H2 H3; cbn [run_steps].
    - apply owns_ret; auto.
    - destruct (dict_get v table) eqn:E; [|apply owns_raise].
      eapply owns_bind; [apply owns_updater_update; [eapply Ht; eauto|exact H1]|].
      intros r (Hd & Hrm & Hrp).
      eapply owns_bind; [apply owns_as_element; auto|]. intros root' Hr'.
      apply IH; auto.
      + apply Forall_app; split; auto. destruct (r_removed r); simpl in *; auto.
      + apply ydict_update; auto. destruct (r_remapped r); simpl in *; auto; constructor.
  Qed.

  Lemma owns_versioned_update o versions table gv d from to opts force :
    owns_table table -> (forall i, seen i -> owns (gv i) T) -> odoc d ->
    owns (versioned_update o versions table gv d from to opts force) sresults.
  Proof.
    intros Ht Hg Hd. unfold versioned_update.
    eapply owns_bind; [apply owns_get_etree_root; auto|]. intros root Hr.
    eapply (owns_bind _ _ T).
    { destruct (truthy from); [yowns|apply Hg; auto]. }
    intros from' _. cbv zeta.
    eapply (owns_bind _ _ T); [yowns|]. intros _ _.
    destruct from' as [a|]; [|apply owns_raise].
    destruct (if truthy to then to else _) as [b|]; [|apply owns_raise].
    eapply owns_bind; [apply owns_run_steps; auto; constructor|].
    intros [[r1 r2] r3] (H1 & H2 & H3). apply owns_ret. split; [exact H1|].
    split; apply ycoll_or; auto; constructor.
  Qed.

  Lemma owns_stix_table o : owns_table (STIX_UPDATERS o).
  Proof.
    intros v up. unfold STIX_UPDATERS. simpl.
    repeat match goal with |- context [String.eqb v ?s] => destruct (String.eqb v s) end;
      intro E; inversion E; subst.
    - apply su_stix_1_0.
    - apply su_stix_1_0_1.
    - apply su_stix_1_1.
    - apply su_stix_1_1_1.
    - apply su_stix_1_2.
  Qed.

  Lemma owns_cybox_table o : owns_table (CYBOX_UPDATERS o).
  Proof.
    intros v up. unfold CYBOX_UPDATERS. simpl.
    repeat match goal with |- context [String.eqb v ?s] => destruct (String.eqb v s) end;
      intro E; inversion E; subst.
    - apply su_cybox_2_0.
    - apply su_cybox_2_0_1.
  Qed.

  Lemma owns_stix_update o d from to opts force :
    odoc d -> owns (stix_update o d from to opts force) sresults.
  Proof.
    intro Hd. apply owns_versioned_update; [apply owns_stix_table| |exact Hd].
    intros i Hi. unfold stix_node_version. yowns.
  Qed.

  Lemma owns_cybox_update o d from to opts force :
    odoc d -> owns (cybox_update o d from to opts force) sresults.
  Proof.
    intro Hd. apply owns_versioned_update; [apply owns_cybox_table| |exact Hd].
    intros i Hi. unfold cybox_node_version. yowns.
  Qed.

  Lemma owns_ramrod_update o d from to opts force :
    odoc d -> owns (ramrod_update o d from to opts force) sresults.
  Proof.
    intro Hd. unfold ramrod_update. eapply owns_bind; [apply owns_get_etree_root; auto|].
    intros root Hr. eapply (owns_bind _ _ T); [apply owns_get_hdr; auto|]. intros h _. cbv zeta.
    destruct (String.eqb _ _); [|destruct (String.eqb _ _)]; [| |apply owns_raise].
    - eapply (owns_bind _ _ T); [|intros; apply owns_stix_update; exact Hr].
      destruct (truthy from); [yowns|]. unfold stix_get_version, stix_node_version.
      eapply owns_bind; [apply owns_get_etree_root; exact Hr|]. intros i Hi. yowns.
    - eapply (owns_bind _ _ T); [|intros; apply owns_cybox_update; exact Hr].
      destruct (truthy from); [yowns|]. unfold cybox_get_version, cybox_node_version.
      eapply (owns_bind _ _ T); [|intros; yowns].
      eapply owns_bind; [apply owns_get_etree_root; exact Hr|]. intros i Hi. yowns.
  Qed.

  Lemma yresults_s r : yresults r -> sresults r.
  Proof. intros (H1 & H2 & H3). split; auto. Qed.

  Lemma owns_with_class table v f Q : owns_table table ->
    (forall up, owns_updater up -> owns (f up) Q) -> owns (with_class table v f) Q.
  Proof.
    intros Ht H. unfold with_class. destruct (dict_get v table) eqn:E; [|apply owns_raise].
    apply H. eapply Ht; eauto.
  Qed.

  Lemma owns_perform o c : odoc (subject c) -> owns (perform o c) sresults.
  Proof.
    destruct c; cbn [perform subject]; intro Hd.
    - eapply owns_bind; [apply owns_get_etree_root; exact Hd|]. intros i Hi.
      apply owns_ret. split; [exact Hi|]. split; constructor.
    - apply owns_ramrod_update; auto.
    - apply owns_stix_update; auto.
    - apply owns_cybox_update; auto.
    - apply owns_with_class; [apply owns_stix_table|]. intros up Hu.
      eapply owns_weaken; [apply owns_updater_update; auto|apply yresults_s].
    - apply owns_with_class; [apply owns_cybox_table|]. intros up Hu.
      eapply owns_weaken; [apply owns_updater_update; auto|apply yresults_s].
    - apply owns_with_class; [apply owns_stix_table|]. intros up Hu.
      eapply owns_weaken; [apply owns_clean; auto|apply yresults_s].
    - apply owns_with_class; [apply owns_cybox_table|]. intros up Hu.
      eapply owns_weaken; [apply owns_clean; auto|apply yresults_s].
  Qed.
End Owned.
