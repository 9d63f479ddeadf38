(** * Proofs about id functions of any kind. *)

From Coq Require Import String Ascii List Bool Arith.
From Verif Require Import Str Xml XPath Utils Base Tables Cybox Stix Ramrod IdFunc Spec SpecDoc SpecCheck SpecUpdate SpecContract SpecIdFunc
  Lib Frame Api RefineCheck RefineClean RefineUpdate Contract.
Import ListNotations.
Local Open Scope string_scope.

(** ** Programs that do the same *)

Definition eqv {A} (m n : M A) : Prop := forall s, m s = n s.

Lemma eqv_refl {A} (m : M A) : eqv m m.
Proof. intro; reflexivity. Qed.

Lemma eqv_bind {A B} (m n : M A) (k l : A -> M B) : eqv m n -> (forall a, eqv (k a) (l a)) -> eqv (bind m k) (bind n l).
Proof. intros H K s. rewrite !bind_run, H. destruct (n s) as [[a|e] s1]; auto. apply K. Qed.

(** Two classes that differ in [_clean_duplicates] at most. *)
Record twins (u v : updater) : Prop := {
  tw_check : up_check u = up_check v;
  tw_update : up_update u = up_update v;
  tw_dis : up_get_disallowed u = up_get_disallowed v;
  tw_dup : up_get_duplicates u = up_get_duplicates v;
  tw_cdis : up_clean_disallowed u = up_clean_disallowed v
}.

Lemma twins_refl u : twins u u.
Proof. split; reflexivity. Qed.

Lemma eqv_clean_root u v root opts : twins u v ->
  (forall d, eqv (up_clean_duplicates u d opts) (up_clean_duplicates v d opts)) ->
  eqv (clean_root u root opts) (clean_root v root opts).
Proof.
  intros [_ _ E3 E4 E5] K. unfold clean_root. rewrite E3, E4, E5.
  apply eqv_bind; [apply eqv_refl|]. intro dis. apply eqv_bind; [apply eqv_refl|]. intro dup.
  apply eqv_bind; [|intro; apply eqv_refl]. destruct dup as [[|x l]|]; try apply eqv_refl. apply K.
Qed.

Lemma eqv_updater_update o u v d opts force : twins u v ->
  (force = true -> forall d, eqv (up_clean_duplicates u d (or_default o opts)) (up_clean_duplicates v d (or_default o opts))) ->
  eqv (updater_update o u d opts force) (updater_update o v d opts force).
Proof.
  intros T K. unfold updater_update. rewrite (tw_check _ _ T), (tw_update _ _ T).
  apply eqv_bind; [apply eqv_refl|]. intros root s. unfold try_catch.
  match goal with |- context [match ?x with _ => _ end] => destruct x as [[a|e] s1] end; auto. destruct force; [|rewrite andb_false_r; auto].
  destruct (is_update_failure e); simpl; auto.
  unfold force_update. rewrite (tw_update _ _ T). apply eqv_bind; [|intro; apply eqv_refl].
  apply eqv_clean_root; auto.
Qed.

Section Tables.
  Variables (o : oracle) (t1 t2 : dict updater) (opts : option options) (force : bool).
  Hypothesis same : forall v, match dict_get v t1, dict_get v t2 with
    | Some u1, Some u2 => forall d, eqv (updater_update o u1 d opts force) (updater_update o u2 d opts force)
    | None, None => True
    | _, _ => False
    end.

  Lemma eqv_run_steps : forall vs root removed remapped,
    eqv (run_steps o t1 vs root opts force removed remapped) (run_steps o t2 vs root opts force removed remapped).
  Proof.
    induction vs as [|v vs IH]; intros root removed remapped; cbn [run_steps]; [apply eqv_refl|].
    specialize (same v). destruct (dict_get v t1) as [u1|], (dict_get v t2) as [u2|]; try tauto; [|apply eqv_refl].
    apply eqv_bind; [apply same|]. intro r. apply eqv_bind; [apply eqv_refl|]. intro root'. apply IH.
  Qed.

  Lemma eqv_versioned_update versions gv d from to :
    eqv (versioned_update o versions t1 gv d from to opts force) (versioned_update o versions t2 gv d from to opts force).
  Proof.
    unfold versioned_update. apply eqv_bind; [apply eqv_refl|]. intro root. apply eqv_bind; [apply eqv_refl|]. intro from'.
    cbv zeta. apply eqv_bind; [apply eqv_refl|]. intros _. destruct from'; [|apply eqv_refl].
    destruct (if truthy to then to else _); [|apply eqv_refl].
    apply eqv_bind; [apply eqv_run_steps|]. intro; apply eqv_refl.
  Qed.
End Tables.

(** ** The classes *)

Lemma cybox_table f g o opts force :
  (force = true -> forall d, eqv (clean_duplicates_by f d) (clean_duplicates_by g d)) ->
  forall v, match dict_get v (CYBOX_UPDATERS_by f o), dict_get v (CYBOX_UPDATERS_by g o) with
    | Some u1, Some u2 => forall d, eqv (updater_update o u1 d opts force) (updater_update o u2 d opts force)
    | None, None => True
    | _, _ => False
    end.
Proof.
  intros K v. unfold CYBOX_UPDATERS_by. cbn [dict_get].
  destruct (String.eqb v "2.0"); [intro; apply eqv_refl|].
  destruct (String.eqb v "2.0.1"); [|exact I]. intro d. apply eqv_updater_update; [split; reflexivity|]. exact K.
Qed.

Lemma stix_table f g o opts force :
  (force = true -> forall d, eqv (clean_duplicates_by f d) (clean_duplicates_by g d)) ->
  forall v, match dict_get v (STIX_UPDATERS_by f o), dict_get v (STIX_UPDATERS_by g o) with
    | Some u1, Some u2 => forall d, eqv (updater_update o u1 d opts force) (updater_update o u2 d opts force)
    | None, None => True
    | _, _ => False
    end.
Proof.
  intros K v. unfold STIX_UPDATERS_by. cbn [dict_get].
  destruct (String.eqb v "1.0"); [intro; apply eqv_refl|].
  destruct (String.eqb v "1.0.1").
  { intro d. apply eqv_updater_update; [split; reflexivity|]. exact K. }
  destruct (String.eqb v "1.1"); [intro; apply eqv_refl|].
  destruct (String.eqb v "1.1.1"); [intro; apply eqv_refl|].
  destruct (String.eqb v "1.2"); [intro; apply eqv_refl|]. exact I.
Qed.

(** The same with the shipped classes on one side. *)
Lemma cybox_table_shipped o opts force :
  forall v, match dict_get v (CYBOX_UPDATERS_by (apply_new_id (new_id_func (or_default o opts))) o), dict_get v (CYBOX_UPDATERS o) with
    | Some u1, Some u2 => forall d, eqv (updater_update o u1 d opts force) (updater_update o u2 d opts force)
    | None, None => True
    | _, _ => False
    end.
Proof.
  intro v. unfold CYBOX_UPDATERS_by, CYBOX_UPDATERS. cbn [dict_get].
  destruct (String.eqb v "2.0"); [intro; apply eqv_refl|].
  destruct (String.eqb v "2.0.1"); [|exact I]. intro d. apply eqv_updater_update; [split; reflexivity|].
  intros _ d'. apply eqv_refl.
Qed.

Lemma stix_table_shipped o opts force :
  forall v, match dict_get v (STIX_UPDATERS_by (apply_new_id (new_id_func (or_default o opts))) o), dict_get v (STIX_UPDATERS o) with
    | Some u1, Some u2 => forall d, eqv (updater_update o u1 d opts force) (updater_update o u2 d opts force)
    | None, None => True
    | _, _ => False
    end.
Proof.
  intro v. unfold STIX_UPDATERS_by, STIX_UPDATERS. cbn [dict_get].
  destruct (String.eqb v "1.0"); [intro; apply eqv_refl|].
  destruct (String.eqb v "1.0.1").
  { intro d. apply eqv_updater_update; [split; reflexivity|]. intros _ d'. apply eqv_refl. }
  destruct (String.eqb v "1.1"); [intro; apply eqv_refl|].
  destruct (String.eqb v "1.1.1"); [intro; apply eqv_refl|].
  destruct (String.eqb v "1.2"); [intro; apply eqv_refl|]. exact I.
Qed.

(** ** The entry points *)

Lemma eqv_entry f g o d from to opts force :
  (forall d' from', eqv (stix_update_by f o d' from' to (Some (or_default o opts)) force) (stix_update_by g o d' from' to (Some (or_default o opts)) force)) ->
  (forall d' from', eqv (cybox_update_by f o d' from' to (Some (or_default o opts)) force) (cybox_update_by g o d' from' to (Some (or_default o opts)) force)) ->
  eqv (ramrod_update_by f o d from to opts force) (ramrod_update_by g o d from to opts force).
Proof.
  intros S C. unfold ramrod_update_by. apply eqv_bind; [apply eqv_refl|]. intro root. apply eqv_bind; [apply eqv_refl|]. intro h.
  cbv zeta. destruct (String.eqb _ "STIX_Package").
  - apply eqv_bind; [apply eqv_refl|]. intro from'. apply S.
  - destruct (String.eqb _ "Observables"); [|apply eqv_refl]. apply eqv_bind; [apply eqv_refl|]. intro from'. apply C.
Qed.

Lemma stix_unforced f g o d from to opts s :
  stix_update_by f o d from to opts false s = stix_update_by g o d from to opts false s.
Proof. apply eqv_versioned_update. apply stix_table. discriminate. Qed.

Lemma cybox_unforced f g o d from to opts s :
  cybox_update_by f o d from to opts false s = cybox_update_by g o d from to opts false s.
Proof. apply eqv_versioned_update. apply cybox_table. discriminate. Qed.

Lemma ramrod_unforced f g o d from to opts s :
  ramrod_update_by f o d from to opts false s = ramrod_update_by g o d from to opts false s.
Proof. apply eqv_entry; intros d' from' s'; [apply stix_unforced|apply cybox_unforced]. Qed.

Lemma stix_modelled o d from to opts force s :
  stix_update_by (apply_new_id (new_id_func (or_default o opts))) o d from to opts force s = stix_update o d from to opts force s.
Proof. apply eqv_versioned_update. apply stix_table_shipped. Qed.

Lemma cybox_modelled o d from to opts force s :
  cybox_update_by (apply_new_id (new_id_func (or_default o opts))) o d from to opts force s = cybox_update o d from to opts force s.
Proof. apply eqv_versioned_update. apply cybox_table_shipped. Qed.

Lemma ramrod_modelled o d from to opts force s :
  ramrod_update_by (apply_new_id (new_id_func (or_default o opts))) o d from to opts force s = ramrod_update o d from to opts force s.
Proof.
  unfold ramrod_update_by, ramrod_update. revert s. change (or_default o opts) with (or_default o (Some (or_default o opts))) at 1 3.
  apply eqv_bind; [apply eqv_refl|]. intro root. apply eqv_bind; [apply eqv_refl|]. intro h.
  cbv zeta. destruct (String.eqb _ "STIX_Package").
  - apply eqv_bind; [apply eqv_refl|]. intros from' s. apply stix_modelled.
  - destruct (String.eqb _ "Observables"); [|apply eqv_refl]. apply eqv_bind; [apply eqv_refl|]. intros from' s. apply cybox_modelled.
Qed.

(** ** The caller's documents *)

Lemma by_safe f old d : keeps_to_its_document f -> ydict old d -> safe old (clean_duplicates_by f d) T.
Proof.
  intros K Y. unfold clean_duplicates_by. eapply (safe_bind _ _ _ T); [|intros; apply safe_ret; exact I].
  apply safe_for_each. intros kv Hkv. apply safe_for_each. intros i Hi.
  unfold ydict in Y. rewrite Forall_forall in Y. specialize (Y kv Hkv). rewrite Forall_forall in Y.
  eapply safe_T, minds_safe; [apply K|apply one; auto].
Qed.

Lemma stix_by_well_behaved f o : keeps_to_its_document f -> well_behaved (STIX_1_0_1_by f o).
Proof.
  intro K. apply safe_well_behaved. intro old.
  destruct (su_stix_1_0_1 old o) as [H1 H2 H3 H4 H5 H6]. split; auto. intros d opts Y. apply by_safe; auto.
Qed.

Lemma cybox_by_well_behaved f o : keeps_to_its_document f -> well_behaved (Cybox_2_0_1_by f o).
Proof.
  intro K. apply safe_well_behaved. intro old.
  destruct (su_cybox_2_0_1 old o) as [H1 H2 H3 H4 H5 H6]. split; auto. intros d opts Y. apply by_safe; auto.
Qed.

Lemma shipped_in o up : In up (shipped o) -> well_behaved up.
Proof. apply shipped_well_behaved. Qed.

Lemma stix_by_table f o v up : keeps_to_its_document f -> In (v, up) (STIX_UPDATERS_by f o) -> well_behaved up.
Proof.
  intros K H. unfold STIX_UPDATERS_by in H. simpl in H.
  repeat (destruct H as [H|H]; [injection H as <- <-|]); try destruct H;
    try (apply stix_by_well_behaved; exact K); apply (shipped_in o); unfold shipped; simpl; tauto.
Qed.

Lemma cybox_by_table f o v up : keeps_to_its_document f -> In (v, up) (CYBOX_UPDATERS_by f o) -> well_behaved up.
Proof.
  intros K H. unfold CYBOX_UPDATERS_by in H. simpl in H.
  repeat (destruct H as [H|H]; [injection H as <- <-|]); try destruct H;
    try (apply cybox_by_well_behaved; exact K); apply (shipped_in o); unfold shipped; simpl; tauto.
Qed.

Lemma dict_get_some {A} v (l : dict A) x : dict_get v l = Some x -> exists k, In (k, x) l.
Proof.
  induction l as [|[k y] l IH]; simpl; [discriminate|]. destruct (String.eqb v k).
  - intro E. injection E as ->. exists k. auto.
  - intro E. destruct (IH E) as [k' H]. eauto.
Qed.

Lemma looks_hdr {A} i (k : hdr -> res A) : only_looks (h <- get_hdr i ;; liftr (k h)).
Proof.
  intro s. unfold get_hdr. rewrite !bind_run. unfold deref. destruct (hfind i (heap s)) as [c|]; reflexivity.
Qed.

Lemma looks_stix i : only_looks (stix_node_version i).
Proof. exact (looks_hdr i (fun h => Ok (attr_get (lq "version") (h_attr h)))). Qed.

Lemma looks_cybox i : only_looks (v <- cybox_node_version i ;; ret (Some v)).
Proof.
  intro s. rewrite bind_run. pose proof (looks_hdr i cybox_hdr_version s) as L.
  change (snd (cybox_node_version i s) = s) in L.
  destruct (cybox_node_version i s) as [[v|e] s1]; exact L.
Qed.

Lemma safe_stix_by f o old d from to opts force : keeps_to_its_document f -> safe old (stix_update_by f o d from to opts force) T.
Proof.
  intro K. unfold stix_update_by. apply safe_versioned_update; [|intro; apply looks_safe, looks_stix].
  intros v up E. apply dict_get_some in E as [k H]. apply well_behaved_safe. eapply stix_by_table; eauto.
Qed.

Lemma safe_cybox_by f o old d from to opts force : keeps_to_its_document f -> safe old (cybox_update_by f o d from to opts force) T.
Proof.
  intro K. unfold cybox_update_by. apply safe_versioned_update.
  - intros v up E. apply dict_get_some in E as [k H]. apply well_behaved_safe. eapply cybox_by_table; eauto.
  - intro i. apply looks_safe, looks_cybox.
Qed.

Lemma safe_ramrod_by f o old d from to opts force : keeps_to_its_document f -> safe old (ramrod_update_by f o d from to opts force) T.
Proof.
  intro K. unfold ramrod_update_by. eapply (safe_bind _ _ _ T); [apply safe_get_etree_root|].
  intros root _. eapply (safe_bind _ _ _ T); [apply safe_get_hdr|]. intros h _. cbv zeta.
  destruct (String.eqb _ _); [|destruct (String.eqb _ _)]; [| |apply safe_raise].
  - eapply (safe_bind _ _ _ T); [|intros; apply safe_stix_by; exact K].
    destruct (truthy from); [apply safe_ret; exact I|]. unfold stix_get_version. simpl. apply looks_safe, looks_stix.
  - eapply (safe_bind _ _ _ T); [|intros; apply safe_cybox_by; exact K].
    destruct (truthy from); [apply safe_ret; exact I|]. unfold cybox_get_version. simpl. apply looks_safe, looks_cybox.
Qed.

Lemma entry_untouched f o d from to opts force s : keeps_to_its_document f -> wf_state s ->
  (exists new, heap (snd (ramrod_update_by f o d from to opts force s)) = (heap s ++ new)%list) /\
  (exists new, heap (snd (stix_update_by f o d from to opts force s)) = (heap s ++ new)%list) /\
  (exists new, heap (snd (cybox_update_by f o d from to opts force s)) = (heap s ++ new)%list).
Proof.
  intros K W. repeat split; apply extends; auto; [apply safe_ramrod_by|apply safe_stix_by|apply safe_cybox_by]; exact K.
Qed.

(** ** The calls *)

Lemma for_each_calls f l : forall s, calls f l s (fst (for_each l f s)) (snd (for_each l f s)).
Proof.
  induction l as [|i l IH]; intro s; cbn [for_each]; [constructor|]. rewrite bind_run.
  destruct (f i s) as [[[]|e] s1] eqn:E; simpl; [eapply calls_more; eauto|apply calls_raises; auto].
Qed.

Lemma for_each_app {A} (f : A -> M unit) l1 l2 : eqv (for_each (l1 ++ l2) f) (for_each l1 f ;;; for_each l2 f).
Proof.
  induction l1 as [|x l1 IH]; intro s; simpl; [reflexivity|]. rewrite !bind_run.
  destruct (f x s) as [[[]|e] s1]; auto. rewrite IH, bind_run. reflexivity.
Qed.

Lemma by_flat f d : eqv (clean_duplicates_by f d) (for_each (flat_map snd d) f ;;; ret d).
Proof.
  unfold clean_duplicates_by. apply eqv_bind; [|intro; apply eqv_refl].
  induction d as [|[k l] d IH]; [apply eqv_refl|]. intro s. cbn [for_each flat_map snd]. rewrite for_each_app, !bind_run.
  destruct (for_each l f s) as [[[]|e] s1]; auto.
Qed.

Section Class.
  Variables (f : id_function) (up : updater) (opts : options) (rules : tree -> res (list nat)) (dups : tree -> dict (list nat)).
  Hypothesis (Rdis : forall s T, wf_state s -> In T (heap s) ->
      up_get_disallowed up (tid T) s = ((match rules T with Ok l => Ok (Some l) | Err e => Err e end), s))
    (Rdup : forall s T, wf_state s -> In T (heap s) -> up_get_duplicates up (tid T) s = (Ok (Some (dups T)), s))
    (Rby : forall d, up_clean_duplicates up d opts = clean_duplicates_by f d).

  Lemma clean_root_calls s c r s' : wf_state s -> In c (heap s) -> clean_root up (tid c) opts s = (r, s') ->
    match rules c with
    | Err e => r = Err e /\ s' = s
    | Ok _ => exists ro s1, calls f (flat_map snd (dups c)) s ro s1 /\
        (forall e, ro = Err e -> r = Err e /\ s' = s1) /\
        (forall x, r = Ok x -> ro = Ok tt /\ r_document x = tid c /\ coll_dict (r_remapped x) = dups c)
    end.
  Proof.
    intros W HT. unfold clean_root. rewrite bind_run, (Rdis s c W HT). destruct (rules c) as [dis|e]; [|intro H; injection H as <- <-; auto].
    rewrite bind_run, (Rdup s c W HT). rewrite bind_run.
    intro H. exists (fst (for_each (flat_map snd (dups c)) f s)), (snd (for_each (flat_map snd (dups c)) f s)).
    split; [apply for_each_calls|].
    assert (E : (match dups c with x :: l => up_clean_duplicates up (x :: l) opts | [] => ret [] end) s
              = match for_each (flat_map snd (dups c)) f s with (Ok _, s1) => (Ok (dups c), s1) | (Err e, s1) => (Err e, s1) end).
    { destruct (dups c) as [|x l] eqn:D; [reflexivity|]. rewrite Rby, by_flat, bind_run.
      destruct (for_each _ f s) as [[[]|e] s1]; reflexivity. }
    assert (H' : match (match dups c with x :: l => up_clean_duplicates up (x :: l) opts | [] => ret [] end) s with
                 | (Ok remapped, s1) => (removed <- (match dis with x :: l => up_clean_disallowed up (x :: l) opts | [] => ret [] end) ;;
                                         ret (Results (tid c) (CTuple removed) (CDict remapped))) s1
                 | (Err e, s1) => (Err e, s1) end = (r, s')).
    { rewrite <- H. destruct (dups c); destruct dis; reflexivity. }
    rewrite E in H'. destruct (for_each (flat_map snd (dups c)) f s) as [[[]|e] s1]; cbn [fst snd].
    - split; [discriminate|]. intros x ->. split; [reflexivity|]. rewrite bind_run in H'.
      destruct (_ s1) as [[removed|e] s2]; [|discriminate]. unfold ret in H'. injection H' as <- <-. auto.
    - injection H' as <- <-. split; [intros e' H'; injection H' as <-; auto|discriminate].
  Qed.
End Class.

Section Class2.
  Variables (o : oracle) (f : id_function) (up : updater) (opts : option options)
    (rules : tree -> res (list nat)) (dups : tree -> dict (list nat)) (verdict : tree -> res unit).
  Hypothesis (Rdis : forall s T, wf_state s -> In T (heap s) ->
      up_get_disallowed up (tid T) s = ((match rules T with Ok l => Ok (Some l) | Err e => Err e end), s))
    (Rdup : forall s T, wf_state s -> In T (heap s) -> up_get_duplicates up (tid T) s = (Ok (Some (dups T)), s))
    (Rby : forall d, up_clean_duplicates up d (or_default o opts) = clean_duplicates_by f d)
    (Rchk : reads (fun r => up_check up r (or_default o opts)) verdict).

  Lemma clean_asked d s t r s' : wf_state s -> denotes s d t -> clean o up d opts s = (r, s') ->
    exists c s0, heap s0 = (heap s ++ [c])%list /\ erase c = erase t /\ gen s0 = gen s /\ wf_state s0 /\
      asked f rules dups c s0 r s'.
  Proof.
    intros W D H. destruct (copy_made s d t W D) as (c & s0 & E & H1 & H2 & H3 & H4).
    exists c, s0. repeat (split; [assumption|]). unfold clean in H. rewrite bind_run, E in H.
    assert (HT : In c (heap s0)) by (rewrite H1; apply in_or_app; simpl; auto).
    pose proof (clean_root_calls f up _ rules dups Rdis Rdup Rby s0 c r s' H4 HT H) as Q.
    unfold asked. destruct (rules c); auto. destruct Q as (ro & s1 & C & Q1 & Q2). exists ro, s1.
    split; [exact C|]. split; [exact Q1|]. intros x Hx. destruct (Q2 x Hx) as (Qa & _ & Qb). split; [exact Qa|exact Qb].
  Qed.

  Lemma forced_asked d s t : wf_state s -> denotes s d t ->
    exists c s0, heap s0 = (heap s ++ [c])%list /\ erase c = erase t /\ gen s0 = gen s /\ wf_state s0 /\
      forall e r s', verdict c = Err e -> documented e -> updater_update o up d opts true s = (r, s') ->
      asked f rules dups c s0 r s'.
  Proof.
    intros W D. destruct (copy_made s d t W D) as (c & s0 & E & H1 & H2 & H3 & H4).
    exists c, s0. repeat (split; [assumption|]). intros e r s' V De H. unfold updater_update in H. rewrite bind_run, E in H.
    assert (HT : In c (heap s0)) by (rewrite H1; apply in_or_app; simpl; auto).
    cbv zeta in H. unfold try_catch in H. rewrite bind_run in H. pose proof (Rchk s0 c H4 HT) as K. cbv beta in K. rewrite K, V in H.
    assert (F : is_update_failure e = true) by (inversion De; reflexivity). rewrite F in H. cbn [andb] in H.
    unfold force_update in H. rewrite bind_run in H.
    destruct (clean_root up (tid c) (or_default o opts) s0) as [[x|e'] s2] eqn:C;
      pose proof (clean_root_calls f up _ rules dups Rdis Rdup Rby s0 c _ _ H4 HT C) as Q; unfold asked.
    - destruct (rules c) as [l|e']; [|destruct Q; discriminate]. destruct Q as (ro & s1 & Ca & Q1 & Q2).
      destruct (Q2 x eq_refl) as (-> & Qd & Qr). exists (Ok tt), s1. split; [exact Ca|]. split; [discriminate|].
      intros y ->. split; [reflexivity|]. rewrite bind_run in H.
      destruct (as_element (r_document x) s2) as [[doc|e'] s3]; [|discriminate]. rewrite bind_run in H.
      destruct (up_update up doc (or_default o opts) s3) as [[n|e'] s4]; [|discriminate]. unfold ret in H. injection H as <- <-.
      unfold remapped_ids, create_update_results. rewrite <- Qr.
      destruct x as [xd xr xm]. cbn [r_document r_removed r_remapped] in *.
      unfold clean_root in C. rewrite bind_run, (Rdis s0 c H4 HT) in C. destruct (rules c); [|discriminate].
      rewrite bind_run in C. rewrite (Rdup s0 c H4 HT) in C. rewrite bind_run in C.
      match type of C with match ?m with _ => _ end = _ => destruct m as [[rm|e'] s5] end; [|discriminate]. rewrite bind_run in C.
      match type of C with match ?m with _ => _ end = _ => destruct m as [[rv|e'] s6] end; [|discriminate]. unfold ret in C.
      injection C as <- <- <- <-. pose proof (results_collections n rv rm) as R. cbv zeta in R.
      destruct R as (_ & _ & _ & _ & R). exact R.
    - injection H as <- <-. destruct (rules c) as [l|e''].
      + destruct Q as (ro & s1 & Ca & Q1 & Q2). exists ro, s1. split; [exact Ca|]. split; [exact Q1|discriminate].
      + exact Q.
  Qed.
End Class2.

Lemma stix_asked f o opts d s t r s' : wf_state s -> denotes s d t -> clean o (STIX_1_0_1_by f o) d opts s = (r, s') ->
  exists c s0, heap s0 = (heap s ++ [c])%list /\ erase c = erase t /\ gen s0 = gen s /\ wf_state s0 /\
    asked f (untranslatable (stix_1_0_1_rules o)) stix_duplicates c s0 r s'.
Proof.
  apply clean_asked.
  - intros s1 T1 W1 H1. cbn [up_get_disallowed STIX_1_0_1_by STIX_1_0_1_Updater]. rewrite bind_run, (stix_1_0_1_get_disallowed_reads o s1 T1 W1 H1).
    destruct (untranslatable _ _); reflexivity.
  - intros s1 T1 W1 H1. cbn [up_get_duplicates STIX_1_0_1_by STIX_1_0_1_Updater]. rewrite bind_run, (stix_1_0_1_get_duplicates_reads s1 T1 W1 H1). reflexivity.
  - reflexivity.
Qed.

Lemma cybox_asked f o opts d s t r s' : wf_state s -> denotes s d t -> clean o (Cybox_2_0_1_by f o) d opts s = (r, s') ->
  exists c s0, heap s0 = (heap s ++ [c])%list /\ erase c = erase t /\ gen s0 = gen s /\ wf_state s0 /\
    asked f (untranslatable cybox_2_0_1_rules) cybox_duplicates c s0 r s'.
Proof.
  apply clean_asked.
  - intros s1 T1 W1 H1. cbn [up_get_disallowed Cybox_2_0_1_by Cybox_2_0_1_Updater]. rewrite bind_run, (cybox_2_0_1_get_disallowed_reads o s1 T1 W1 H1).
    destruct (untranslatable _ _); reflexivity.
  - intros s1 T1 W1 H1. cbn [up_get_duplicates Cybox_2_0_1_by Cybox_2_0_1_Updater]. rewrite bind_run, (cybox_2_0_1_get_duplicates_reads s1 T1 W1 H1). reflexivity.
  - reflexivity.
Qed.

Lemma stix_forced_asked f o opts d s t verdict : wf_state s -> denotes s d t ->
  stix_check o (or_default o opts) "1.0.1" = Some verdict ->
  exists c s0, heap s0 = (heap s ++ [c])%list /\ erase c = erase t /\ gen s0 = gen s /\ wf_state s0 /\
    forall e r s', verdict c = Err e -> documented e -> updater_update o (STIX_1_0_1_by f o) d opts true s = (r, s') ->
    asked f (untranslatable (stix_1_0_1_rules o)) stix_duplicates c s0 r s'.
Proof.
  intros W D V. apply (forced_asked o f _ opts _ _ _) with (t := t); auto.
  - intros s1 T1 W1 H1. cbn [up_get_disallowed STIX_1_0_1_by STIX_1_0_1_Updater]. rewrite bind_run, (stix_1_0_1_get_disallowed_reads o s1 T1 W1 H1).
    destruct (untranslatable _ _); reflexivity.
  - intros s1 T1 W1 H1. cbn [up_get_duplicates STIX_1_0_1_by STIX_1_0_1_Updater]. rewrite bind_run, (stix_1_0_1_get_duplicates_reads s1 T1 W1 H1). reflexivity.
  - exact (stix_checks o (or_default o opts) "1.0.1" (STIX_1_0_1_Updater o) verdict eq_refl V).
Qed.

Lemma cybox_forced_asked f o opts d s t verdict : wf_state s -> denotes s d t ->
  cybox_check (or_default o opts) "2.0.1" = Some verdict ->
  exists c s0, heap s0 = (heap s ++ [c])%list /\ erase c = erase t /\ gen s0 = gen s /\ wf_state s0 /\
    forall e r s', verdict c = Err e -> documented e -> updater_update o (Cybox_2_0_1_by f o) d opts true s = (r, s') ->
    asked f (untranslatable cybox_2_0_1_rules) cybox_duplicates c s0 r s'.
Proof.
  intros W D V. apply (forced_asked o f _ opts _ _ _) with (t := t); auto.
  - intros s1 T1 W1 H1. cbn [up_get_disallowed Cybox_2_0_1_by Cybox_2_0_1_Updater]. rewrite bind_run, (cybox_2_0_1_get_disallowed_reads o s1 T1 W1 H1).
    destruct (untranslatable _ _); reflexivity.
  - intros s1 T1 W1 H1. cbn [up_get_duplicates Cybox_2_0_1_by Cybox_2_0_1_Updater]. rewrite bind_run, (cybox_2_0_1_get_duplicates_reads s1 T1 W1 H1). reflexivity.
  - exact (cybox_checks o (or_default o opts) "2.0.1" (Cybox_2_0_1_Updater o) verdict eq_refl V).
Qed.
