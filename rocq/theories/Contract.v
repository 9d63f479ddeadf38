(** * Any updater class under the base class. *)

From Coq Require Import String Ascii List Bool Arith Lia.
From Verif Require Import Str Xml XPath Utils Base Tables Cybox Stix Ramrod Spec Lib Frame Api NoFail RefineUpdate SpecContract.
Import ListNotations.

(** ** The contract and [safe] *)

Lemma in_front_inv old s : in_front old s <-> inv old s.
Proof.
  unfold in_front, inv, ytree, yid, hids. split.
  - intros (rest & E & A & N). split; auto. exists rest. split; auto.
    apply Forall_forall. intros t Ht i Hi Ho. apply (A i Ho). apply in_flat_map. eauto.
  - intros [(rest & E & A) N]. exists rest. repeat split; auto.
    intros i Ho Hr. apply in_flat_map in Hr as (t & Ht & Hi). rewrite Forall_forall in A.
    exact (A t Ht i Hi Ho).
Qed.

Lemma minds_safe {A} nodes (m : M A) yields old :
  minds_its_own nodes m yields -> Forall (yid old) nodes ->
  safe old m (fun a => Forall (yid old) (yields a)).
Proof.
  intros H F s I. rewrite <- in_front_inv in I. rewrite Forall_forall in F.
  destruct (H old s I F) as [I' Y]. rewrite in_front_inv in I'. split; auto.
  intros a E. apply Forall_forall. intros i Hi. exact (Y a E i Hi).
Qed.

Lemma safe_minds {A} nodes (m : M A) yields :
  (forall old, Forall (yid old) nodes -> safe old m (fun a => Forall (yid old) (yields a))) ->
  minds_its_own nodes m yields.
Proof.
  intros H old s I F. rewrite in_front_inv in I.
  destruct (H old (proj2 (Forall_forall _ _) F) s I) as [I' Y].
  split; [rewrite in_front_inv; auto|]. intros a E i Hi. specialize (Y a E). rewrite Forall_forall in Y. exact (Y i Hi).
Qed.

Lemma ydict_nodes old d : ydict old d <-> Forall (yid old) (dict_nodes d).
Proof.
  unfold ydict, dict_nodes. rewrite !Forall_forall. split.
  - intros H i Hi. apply in_flat_map in Hi as (kv & Hkv & Hi). specialize (H kv Hkv).
    rewrite Forall_forall in H. auto.
  - intros H kv Hkv. apply Forall_forall. intros i Hi. apply H, in_flat_map. eauto.
Qed.

Lemma one old i : yid old i -> Forall (yid old) [i].
Proof. auto. Qed.

Lemma well_behaved_safe up : well_behaved up -> forall old, safe_updater old up.
Proof.
  intros [W1 W2 W3 W4 W5 W6] old. split.
  - intros root opts Hr. eapply safe_T, minds_safe; [apply W1|apply one; auto].
  - intros root opts Hr. eapply safe_T, minds_safe; [apply W2|apply one; auto].
  - intros root Hr. eapply safe_weaken; [eapply minds_safe; [apply W3|apply one; auto]|].
    intros a F l ->. exact F.
  - intros root Hr. eapply safe_weaken; [eapply minds_safe; [apply W4|apply one; auto]|].
    intros a F l ->. apply ydict_nodes. exact F.
  - intros l opts F. eapply safe_T, minds_safe; [apply W5|auto].
  - intros d opts F. eapply safe_T, minds_safe; [apply W6|apply ydict_nodes; auto].
Qed.

Lemma safe_well_behaved up : (forall old, safe_updater old up) -> well_behaved up.
Proof.
  intro H. split; intros; apply safe_minds; intros old F; specialize (H old); inversion_clear H as [H1 H2 H3 H4 H5 H6].
  - inversion F; subst. eapply safe_weaken; [apply H1; auto|]. constructor.
  - inversion F; subst. eapply safe_weaken; [apply H2; auto|]. constructor.
  - inversion F; subst. eapply safe_weaken; [apply H3; auto|]. intros [l|] Y; simpl; auto.
  - inversion F; subst. eapply safe_weaken; [apply H4; auto|]. intros [l|] Y; simpl; auto.
    apply ydict_nodes; auto.
  - eapply safe_weaken; [apply H5; auto|]. constructor.
  - eapply safe_weaken; [apply H6, ydict_nodes; auto|]. constructor.
Qed.

Definition shipped (o : oracle) : list updater := (map snd (STIX_UPDATERS o) ++ map snd (CYBOX_UPDATERS o))%list.

Lemma shipped_well_behaved o up : In up (shipped o) -> well_behaved up.
Proof.
  intro H. apply safe_well_behaved. intro old. unfold shipped in H. simpl in H.
  destruct H as [<-|[<-|[<-|[<-|[<-|[<-|[<-|[]]]]]]]];
    auto using su_stix_1_0, su_stix_1_0_1, su_stix_1_1, su_stix_1_1_1, su_stix_1_2, su_cybox_2_0, su_cybox_2_0_1.
Qed.

(** ** The caller's documents *)

Lemma extends {A} (m : M A) s : wf_state s -> safe (heap s) m T -> exists new, heap (snd (m s)) = (heap s ++ new)%list.
Proof. intros [_ B] H. apply safe_extends; auto. Qed.

Lemma update_untouched o up d opts force s : well_behaved up -> wf_state s ->
  exists new, heap (snd (updater_update o up d opts force s)) = (heap s ++ new)%list.
Proof. intros W S. apply extends; auto. apply safe_updater_update, well_behaved_safe, W. Qed.

Lemma clean_untouched o up d opts s : well_behaved up -> wf_state s ->
  exists new, heap (snd (clean o up d opts s)) = (heap s ++ new)%list.
Proof. intros W S. apply extends; auto. apply safe_clean, well_behaved_safe, W. Qed.

Lemma looks_safe {A} old (m : M A) : only_looks m -> safe old m T.
Proof. intros L s I. rewrite L. split; auto. intros; exact Logic.I. Qed.

Lemma chain_untouched o versions table gv d from to opts force s :
  (forall v up, In (v, up) table -> well_behaved up) -> (forall i, only_looks (gv i)) -> wf_state s ->
  exists new, heap (snd (versioned_update o versions table gv d from to opts force s)) = (heap s ++ new)%list.
Proof.
  intros W G S. apply extends; auto. apply safe_versioned_update.
  - intros v up E. apply well_behaved_safe. apply (W v).
    induction table as [|[k x] table IH]; simpl in *; [discriminate|].
    destruct (String.eqb v k) eqn:Q; [apply String.eqb_eq in Q; inversion E; subst; auto|].
    right. apply IH; auto. intros v' up' H'. apply (W v'). auto.
  - intro i. apply looks_safe, G.
Qed.

(** ** The sequence of the calls *)

Lemma copy_made s d t : wf_state s -> denotes s d t ->
  exists c s0, get_etree_root d true s = (Ok (tid c), s0) /\
    heap s0 = (heap s ++ [c])%list /\ erase c = erase t /\ gen s0 = gen s /\ wf_state s0.
Proof.
  intros W D. exists (fst (renum (next s) t)), (St (heap s ++ [fst (renum (next s) t)])%list (snd (renum (next s) t)) (gen s)).
  assert (E : (t' <- copy_tree t ;; push t') s =
    (Ok (tid (fst (renum (next s) t))), St (heap s ++ [fst (renum (next s) t)])%list (snd (renum (next s) t)) (gen s))).
  { rewrite copy_push_eq, renum_tid. reflexivity. }
  repeat split; try apply erase_renum; try apply (push_copy_wf s t W).
  destruct d as [i|i|p]; simpl in D.
  - destruct D as (anc & D). simpl. rewrite bind_run, (deref_node s i anc t W D). exact E.
  - destruct D as (anc & D). simpl. rewrite bind_run, (deref_node s i anc t W D). exact E.
  - subst p. exact E.
Qed.

Section Any.
  Variables (up : updater) (opts : options) (root : nat).

  Lemma attempt_runs s :
    attempt up opts root s
      (match up_check up root opts s with
       | (Err e, _) => Err e
       | (Ok _, s1) => fst (up_update up root opts s1)
       end)
      (match up_check up root opts s with
       | (Err e, s1) => s1
       | (Ok _, s1) => snd (up_update up root opts s1)
       end).
  Proof.
    destruct (up_check up root opts s) as [[[]|e] s1] eqn:E1.
    - destruct (up_update up root opts s1) as [[n|e] s2] eqn:E2; simpl.
      + eapply att_done; eauto.
      + eapply att_failed; eauto.
    - eapply att_refused; eauto.
  Qed.

  Lemma cleaning_runs s r s' : clean_root up root opts s = (r, s') ->
    match r with
    | Ok x => exists removed remapped, x = Results root (CTuple removed) (CDict remapped) /\
        cleaning up opts root s (Ok (removed, remapped)) s'
    | Err e => cleaning up opts root s (Err e) s'
    end.
  Proof.
    unfold clean_root. rewrite bind_run.
    destruct (up_get_disallowed up root s) as [[dis|e] s1] eqn:E1.
    2:{ intro H; inversion H; subst. eapply cl_search1; eauto. }
    rewrite bind_run.
    destruct (up_get_duplicates up root s1) as [[dup|e] s2] eqn:E2.
    2:{ intro H; inversion H; subst. eapply cl_search2; eauto. }
    rewrite bind_run. set (m := match dup with Some (x :: l) => _ | _ => _ end).
    assert (R : renewed up opts dup s2 (fst (m s2)) (snd (m s2))).
    { unfold renewed, m. destruct dup as [[|x l]|]; simpl; auto.
      destruct (up_clean_duplicates up (x :: l) opts s2); auto. }
    destruct (m s2) as [[remapped|e] s3]; simpl in R.
    2:{ intro H; inversion H; subst. eapply cl_renew; eauto. }
    rewrite bind_run. set (n := match dis with Some (x :: l) => _ | _ => _ end).
    assert (Q : taken_away up opts dis s3 (fst (n s3)) (snd (n s3))).
    { unfold taken_away, n. destruct dis as [[|x l]|]; simpl; auto.
      destruct (up_clean_disallowed up (x :: l) opts s3); auto. }
    destruct (n s3) as [[removed|e] s4]; simpl in Q.
    2:{ intro H; inversion H; subst. eapply cl_take; eauto. }
    intro H; inversion H; subst. exists removed, remapped. split; auto. eapply cl_done; eauto.
  Qed.

  Lemma still_root_element s : still_root root s -> as_element root s = (Ok root, s).
  Proof.
    intros (N & t & I & <-). unfold as_element. rewrite bind_run. unfold deref.
    rewrite (hfind_in (heap s) t [] t); auto. apply visits_self.
  Qed.

  Lemma updating_runs force s r s' :
    (forall e removed remapped s1 s2, attempt up opts root s (Err e) s1 ->
       cleaning up opts root s1 (Ok (removed, remapped)) s2 -> still_root root s2) ->
    try_catch
      (up_check up root opts ;;;
       updated <- up_update up root opts ;;
       ret (create_update_results updated None None))
      (fun e => if is_update_failure e && force then Some (force_update up root opts) else None) s = (r, s') ->
    updating up opts root force s r s'.
  Proof.
    intro K. pose proof (attempt_runs s) as A. unfold try_catch. rewrite bind_run.
    assert (F : forall e s1, attempt up opts root s (Err e) s1 ->
      (if is_update_failure e && force then force_update up root opts s1 else (Err e, s1)) = (r, s') ->
      updating up opts root force s r s').
    { clear A. intros e s1 A. destruct (is_update_failure e) eqn:D; simpl.
      2:{ intro H; inversion H; subst. eapply upd_raised; eauto. right. apply not_documented; auto. }
      destruct force; [|intro H; inversion H; subst; eapply upd_raised; eauto].
      assert (De : documented e) by (destruct e; try discriminate; constructor).
      unfold force_update. rewrite bind_run.
      destruct (clean_root up root opts s1) as [[x|e'] s2] eqn:C; apply cleaning_runs in C.
      2:{ intro H; inversion H; subst. eapply upd_uncleaned; eauto. }
      destruct C as (removed & remapped & -> & C). cbn [r_document r_removed r_remapped].
      rewrite bind_run, (still_root_element s2 (K _ _ _ _ _ A C)), bind_run.
      destruct (up_update up root opts s2) as [[n|e'] s3] eqn:U; intro H; inversion H; subst.
      - eapply upd_forced; eauto. pose proof (results_collections n removed remapped) as Q. cbv zeta in Q.
        destruct Q as (Q1 & _ & _ & Q2 & Q3). repeat split; auto.
      - eapply upd_unforced; eauto. }
    destruct (up_check up root opts s) as [[[]|e] s1] eqn:E1.
    2:{ specialize (F e s1 A). destruct (is_update_failure e && force); exact F. }
    rewrite bind_run. destruct (up_update up root opts s1) as [[n|e] s2] eqn:E2; simpl in A.
    - intro H; inversion H; subst. eapply upd_done; eauto. repeat split.
    - specialize (F e s2 A). destruct (is_update_failure e && force); exact F.
  Qed.

  (** The attempt leaves no trace if it fails cleanly. *)
  Lemma attempt_clean e s s1 : only_looks (up_check up root opts) -> fails_cleanly (up_update up root opts) ->
    attempt up opts root s (Err e) s1 -> documented e -> s1 = s.
  Proof.
    intros L F A D. pose proof (L s) as Ls.
    inversion A as [x y E1|x y z E1 E2|]; subst; rewrite E1 in Ls; simpl in Ls; subst; auto.
    eapply F; eauto.
  Qed.

  Lemma attempt_det s r1 s1 r2 s2 : attempt up opts root s r1 s1 -> attempt up opts root s r2 s2 -> r1 = r2 /\ s1 = s2.
  Proof.
    intros A B. inversion A; subst; inversion B; subst; split; congruence.
  Qed.
End Any.

Lemma sequence o up d opts force s t : wf_state s -> denotes s d t ->
  exists c s0, heap s0 = (heap s ++ [c])%list /\ erase c = erase t /\ gen s0 = gen s /\ wf_state s0 /\
    ((forall e removed remapped s1 s2, attempt up (or_default o opts) (tid c) s0 (Err e) s1 ->
        cleaning up (or_default o opts) (tid c) s1 (Ok (removed, remapped)) s2 -> still_root (tid c) s2) ->
     forall r s', updater_update o up d opts force s = (r, s') ->
     updating up (or_default o opts) (tid c) force s0 r s').
Proof.
  intros W D. destruct (copy_made s d t W D) as (c & s0 & E & H1 & H2 & H3 & H4).
  exists c, s0. repeat (split; auto). intros K r s'. unfold updater_update. rewrite bind_run, E. cbv zeta.
  intro H. apply updating_runs; auto.
Qed.

Lemma as_given o up d opts s t :
  (forall root, only_looks (up_check up root (or_default o opts))) ->
  (forall root, fails_cleanly (up_update up root (or_default o opts))) ->
  wf_state s -> denotes s d t ->
  exists c s0, heap s0 = (heap s ++ [c])%list /\ erase c = erase t /\ gen s0 = gen s /\ wf_state s0 /\
    ((forall removed remapped s2,
        cleaning up (or_default o opts) (tid c) s0 (Ok (removed, remapped)) s2 -> still_root (tid c) s2) ->
     forall e s1, attempt up (or_default o opts) (tid c) s0 (Err e) s1 -> documented e ->
     forall r s', updater_update o up d opts true s = (r, s') ->
     repairing up (or_default o opts) (tid c) s0 r s').
Proof.
  intros L F W D. destruct (sequence o up d opts true s t W D) as (c & s0 & H1 & H2 & H3 & H4 & H5).
  exists c, s0. repeat (split; auto). intros K e s1 A De r s' E.
  assert (s1 = s0) by (eapply attempt_clean; eauto). subst s1.
  assert (U : updating up (or_default o opts) (tid c) true s0 r s').
  { apply H5; auto. intros e' removed remapped s1 s2 A' C.
    destruct (attempt_det _ _ _ _ _ _ _ _ A A') as [_ <-]. eapply K; eauto. }
  destruct U as [n r s1 A'|e1 s1 A' [X|X]|e1 e2 s1 s2 A'|e1 e2 rm rp s1 s2 s3 A'|e1 n rm rp r s1 s2 s3 A'];
    destruct (attempt_det _ _ _ _ _ _ _ _ A A') as [Q Q']; inversion Q; subst; try discriminate; try tauto.
  - eapply rep_uncleaned; eauto.
  - eapply rep_failed; eauto.
  - eapply rep_done; eauto.
Qed.
