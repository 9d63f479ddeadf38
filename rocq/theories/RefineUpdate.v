(** * Updates as functions of the document content. *)

From Coq Require Import String Ascii List Bool Arith Lia.
From Verif Require Import Str Xml XPath Utils Base Tables Cybox Stix Ramrod Spec SpecDoc SpecPass SpecStep
  SpecCheck SpecClean SpecUpdate Lib Frame Api Versions NoFail Refine RefineBase RefineTrans RefineLists RefineSteps
  RefineCheck RefineClean Relabel.
Import ListNotations.
Local Open Scope string_scope.

(** ** One step *)

(** The programs of [up] are described by the three functions. *)
Definition describes (up : updater) (opts : options) (c : tree -> res unit) (d : tree -> res dirt)
  (f : tree -> res tree) : Prop :=
  reads (fun r => up_check up r opts) c /\ cleans up opts d /\
  computes_root (fun r => up_update up r opts) f /\
  (forall r, nofail (up_update up r opts)).

Lemma numbered_erase n t : erase (numbered n t) = erase t.
Proof. apply erase_renum. Qed.

Lemma copied s d t : wf_state s -> denotes s d t ->
  exists n, get_etree_root d true s
    = (Ok (tid (numbered (next s) t)), St (heap s ++ [numbered (next s) t]) n (gen s)) /\
  wf_state (St (heap s ++ [numbered (next s) t]) n (gen s)).
Proof.
  intros W D. exists (snd (renum (next s) t)).
  assert (P : (t' <- copy_tree t ;; push t') s
    = (Ok (tid (numbered (next s) t)), St (heap s ++ [numbered (next s) t]) (snd (renum (next s) t)) (gen s))).
  { rewrite bind_run. unfold copy_tree, numbered. destruct (renum (next s) t) as [t' n]. reflexivity. }
  split.
  - destruct d as [i|i|p]; simpl in D |- *.
    + destruct D as (anc & D). rewrite bind_run, (deref_node s i anc t) by auto. exact P.
    + destruct D as (anc & D). rewrite bind_run, (deref_node s i anc t) by auto. exact P.
    + subst p. exact P.
  - exact (push_copy_wf s t W).
Qed.

Lemma forceable_failure e : forceable e = is_update_failure e.
Proof. reflexivity. Qed.

Lemma coll_or_items l : removed_nodes (create_update_results 0 None (Some (CTuple l))) = l.
Proof. destruct l; reflexivity. Qed.

Lemma results_collections i l d :
  let r := create_update_results i (Some (CDict d)) (Some (CTuple l)) in
  r_document r = i /\ removed_nodes r = l /\ remapped_ids r = d /\
  coll_items (r_removed r) = l /\ coll_dict (r_remapped r) = d.
Proof. destruct l; destruct d; simpl; auto. Qed.

Lemma Forall2_erase s copies l : map erase copies = l -> (forall c, In c copies -> In c (heap s)) ->
  Forall2 (document s) (map tid copies) l.
Proof.
  intros <- H. induction copies as [|c copies IH]; simpl; constructor.
  - exists c. split; [apply H; left; auto|auto].
  - apply IH. intros x Hx. apply H. right; auto.
Qed.

(** What an update does in memory [s], for a document with content [t]. *)
Definition performs (m : M results) (s : st) (r : nat -> nat -> res outcome) : Prop :=
  match r (gen s) (next s) with
  | Ok oc => exists res s', m s = (Ok res, s') /\ wf_state s' /\
      document s' (r_document res) (new_document oc) /\
      Forall2 (document s') (removed_nodes res) (removed_subtrees oc) /\
      remapped_ids res = replaced oc /\
      gen s' = gen s + replacements oc /\
      coll_items (r_removed res) = removed_nodes res /\ coll_dict (r_remapped res) = remapped_ids res
  | Err x => exists s', m s = (Err x, s')
  end.

Lemma update_performs o up opts c D f d force s t : describes up (or_default o opts) c D f ->
  wf_state s -> denotes s d t ->
  performs (updater_update o up d opts force) s
    (fun g n => single c D f (new_id_func (or_default o opts)) force g (numbered n t)).
Proof.
  intros (HC & HD & HF & HN) W Dn. unfold performs, updater_update.
  destruct (copied s d t W Dn) as (n1 & E1 & W1). rewrite bind_run, E1. cbv beta zeta.
  set (T := numbered (next s) t) in *. set (s1 := St _ _ _) in *.
  assert (HT : In T (heap s1)) by (simpl; apply in_app_iff; right; left; auto).
  unfold single, try_catch. rewrite bind_run, (HC s1 T W1 HT).
  destruct (c T) as [u|x] eqn:Ec.
  - rewrite bind_run. pose proof (HF s1 T W1 HT) as F. pose proof (HN (tid T) s1) as N.
    destruct (f (erase T)) as [e|y] eqn:Ef; simpl rbind.
    + destruct F as (T' & s2 & E2 & S2 & G2 & R2). rewrite E2. cbn.
      eexists _, s2. split; [reflexivity|]. split; [apply (st_wf _ _ _ _ S2)|]. split.
      { exists T'. split; [apply (st_in _ _ _ _ S2)|auto]. }
      split; [constructor|]. split; auto. split; [rewrite G2; simpl; lia|]. auto.
    + destruct F as (s2 & E2). rewrite E2. cbn.
      assert (Q : is_update_failure y = false).
      { apply other_not_failure. exact (N _ _ E2). }
      rewrite Q. exists s2. reflexivity.
  - rewrite forceable_failure, andb_comm. destruct (is_update_failure x && force); [|exists s1; reflexivity].
    pose proof (HD s1 T W1 HT) as Dt.
    unfold force_update. rewrite bind_run.
    destruct (D T) as [dt|y] eqn:Ed; simpl rbind; [|rewrite Dt; exists s1; reflexivity].
    destruct Dt as (copies & s2 & E2 & S2 & G2 & R2 & C2). rewrite E2. cbn [r_document r_removed r_remapped].
    simpl gen in G2, R2. set (T2 := cleaned _ _ _ _) in *.
    change (gen s1) with (gen s) in *.
    pose proof (st_wf _ _ _ _ S2) as W2. pose proof (st_in _ _ _ _ S2) as HT2.
    assert (I2 : tid T2 = tid T).
    { unfold T2, cleaned. rewrite without_rwm, rwm_tid, fresh_ids_tmap. apply tmap_tid, renumber_keeps. }
    rewrite <- I2. rewrite bind_run, (as_element_root s2 T2) by auto. rewrite bind_run.
    pose proof (HF s2 T2 W2 HT2) as F. destruct (f (erase T2)) as [e|y] eqn:Ef; simpl rbind.
    + destruct F as (T' & s3 & E3 & S3 & G3 & R3). rewrite E3. cbn -[create_update_results].
      pose proof (results_collections (tid T') (map tid copies) (snd dt)) as (Q1 & Q2 & Q3 & Q4 & Q5).
      eexists _, s3. split; [reflexivity|]. rewrite Q1, Q2, Q3, Q4, Q5. cbn [new_document removed_subtrees replaced].
      split; [apply (st_wf _ _ _ _ S3)|]. split.
      { exists T'. split; [apply (st_in _ _ _ _ S3)|auto]. }
      split; [|split; [auto|split; [|auto]]].
      * apply Forall2_erase; auto. intros x0 Hx. destruct (C2 x0 Hx) as [C3 C4].
        apply (st_frame _ _ _ _ S3); auto. intro E. subst x0.
        rewrite I2 in C4. unfold T, numbered in C4. rewrite renum_tid in C4.
        unfold s1 in C4. simpl in C4. pose proof (wf_lt s1 T (tid T) W1 HT (in_ids_self _)) as L.
        unfold T, numbered in L. rewrite renum_tid in L. simpl in L. lia.
      * rewrite G3, G2. reflexivity.
    + destruct F as (s3 & E3). rewrite E3. exists s3. reflexivity.
Qed.

Lemma stix_nf o v up opts r : dict_get v (STIX_UPDATERS o) = Some up -> nofail (up_update up r opts).
Proof.
  unfold STIX_UPDATERS, dict_get.
  repeat match goal with |- context [String.eqb v ?x] => destruct (String.eqb v x) end;
    intro H; try discriminate; injection H as <-.
  - apply (forcible_nf o). simpl. auto.
  - apply (forcible_nf o). simpl. auto.
  - apply (forcible_nf o). simpl. auto.
  - apply (forcible_nf o). simpl. auto.
  - simpl. unfold stix_1_2_do_update. nf.
Qed.

Lemma cybox_nf o v up opts r : dict_get v (CYBOX_UPDATERS o) = Some up -> nofail (up_update up r opts).
Proof.
  unfold CYBOX_UPDATERS, dict_get.
  repeat match goal with |- context [String.eqb v ?x] => destruct (String.eqb v x) end;
    intro H; try discriminate; injection H as <-; apply (forcible_nf o); simpl; auto 10.
Qed.

Lemma stix_described o opts v up : dict_get v (STIX_UPDATERS o) = Some up ->
  exists c D f, stix_check o opts v = Some c /\ stix_dirt o v = Some D /\ stix_step o opts v = Some f /\
    describes up opts c D f.
Proof.
  intro H.
  assert (X : exists c D f, stix_check o opts v = Some c /\ stix_dirt o v = Some D /\ stix_step o opts v = Some f).
  { revert H. unfold STIX_UPDATERS, stix_check, stix_dirt, stix_step, dict_get.
    repeat match goal with |- context [String.eqb v ?x] => destruct (String.eqb v x) end;
      intro H; try discriminate; eauto 6. }
  destruct X as (c & D & f & Ec & Ed & Ef). exists c, D, f. split; auto. split; auto. split; auto.
  split; [|split; [|split]].
  - eapply stix_checks; eauto.
  - eapply stix_cleans; eauto.
  - eapply stix_registered; eauto.
  - intro r. eapply stix_nf; eauto.
Qed.

Lemma cybox_described o opts v up : dict_get v (CYBOX_UPDATERS o) = Some up ->
  exists c D f, cybox_check opts v = Some c /\ cybox_dirt v = Some D /\ cybox_step opts v = Some f /\
    describes up opts c D f.
Proof.
  intro H.
  assert (X : exists c D f, cybox_check opts v = Some c /\ cybox_dirt v = Some D /\ cybox_step opts v = Some f).
  { revert H. unfold CYBOX_UPDATERS, cybox_check, cybox_dirt, cybox_step, dict_get.
    repeat match goal with |- context [String.eqb v ?x] => destruct (String.eqb v x) end;
      intro H; try discriminate; eauto 6. }
  destruct X as (c & D & f & Ec & Ed & Ef). exists c, D, f. split; auto. split; auto. split; auto.
  split; [|split; [|split]].
  - eapply cybox_checks; eauto.
  - eapply cybox_cleans; eauto.
  - eapply cybox_registered; eauto.
  - intro r. eapply cybox_nf; eauto.
Qed.

Lemma stix_updater_performs o opts v up d force s t : dict_get v (STIX_UPDATERS o) = Some up ->
  wf_state s -> denotes s d t ->
  performs (updater_update o up d opts force) s
    (fun g n => stix_single o (or_default o opts) force v g (numbered n t)).
Proof.
  intros H W D. destruct (stix_described o (or_default o opts) v up H) as (c & Dt & f & Ec & Ed & Ef & X).
  unfold stix_single. rewrite Ec, Ed, Ef. apply update_performs; auto.
Qed.

Lemma cybox_updater_performs o opts v up d force s t : dict_get v (CYBOX_UPDATERS o) = Some up ->
  wf_state s -> denotes s d t ->
  performs (updater_update o up d opts force) s
    (fun g n => cybox_single (or_default o opts) force v g (numbered n t)).
Proof.
  intros H W D. destruct (cybox_described o (or_default o opts) v up H) as (c & Dt & f & Ec & Ed & Ef & X).
  unfold cybox_single. rewrite Ec, Ed, Ef. apply update_performs; auto.
Qed.

(** ** Positions instead of identities *)

Lemma described_errors up opts c D f e y : describes up opts c D f -> f (erase e) = Err y -> forceable y = false.
Proof.
  intros (_ & _ & HF & HN) E.
  destruct (copied (St [] 0 0) (DFile (Some e)) e) as (n & _ & W).
  - split; simpl; [constructor|intros i []].
  - reflexivity.
  - set (s := St _ n _) in *. pose proof (HF s (numbered 0 e) W (or_introl eq_refl)) as F.
    rewrite numbered_erase, E in F. destruct F as (s' & F). apply HN in F.
    rewrite forceable_failure. apply other_not_failure; auto.
Qed.

Lemma shift_dict_eq n d : relab_dict (fun i => n + i) d = shift_dict n d.
Proof. reflexivity. Qed.

Lemma stix_single_shift o opts force v up g n t : dict_get v (STIX_UPDATERS o) = Some up ->
  stix_single o opts force v g (numbered n t)
  = relab (relab_outcome (fun i => n + i)) (fun i => n + i)
      (stix_single o opts force v g (numbered 0 (erase t))).
Proof.
  intro H. destruct (stix_described o opts v up H) as (c & D & f & Ec & Ed & Ef & X).
  unfold stix_single. rewrite Ec, Ed, Ef, numbered_shift. apply single_relabel.
  - apply shift_injective.
  - eapply stix_check_stable; eauto.
  - intro. eapply stix_dirt_relabel; eauto.
  - intros e y. eapply described_errors; eauto.
Qed.

Lemma cybox_single_shift o opts force v up g n t : dict_get v (CYBOX_UPDATERS o) = Some up ->
  cybox_single opts force v g (numbered n t)
  = relab (relab_outcome (fun i => n + i)) (fun i => n + i)
      (cybox_single opts force v g (numbered 0 (erase t))).
Proof.
  intro H. destruct (cybox_described o opts v up H) as (c & D & f & Ec & Ed & Ef & X).
  unfold cybox_single. rewrite Ec, Ed, Ef, numbered_shift. apply single_relabel.
  - apply shift_injective.
  - eapply cybox_check_stable; eauto.
  - intro. eapply cybox_dirt_relabel; eauto.
  - intros e y. eapply described_errors; eauto.
Qed.

(** ** Several steps *)

Lemma document_kept s s' new : heap s' = (heap s ++ new)%list -> forall i e, document s i e -> document s' i e.
Proof. intros H i e (T & HT & R). exists T. split; auto. rewrite H. apply in_app_iff; auto. Qed.

Lemma Forall2_impl {A B} (P Q : A -> B -> Prop) l l' : (forall a b, P a b -> Q a b) ->
  Forall2 P l l' -> Forall2 Q l l'.
Proof. intros H F. induction F; constructor; auto. Qed.

Lemma run_steps_chain o table opts force one
  (Hone : forall v up d s t, dict_get v table = Some up -> wf_state s -> denotes s d t ->
     performs (updater_update o up d opts force) s (fun g n => one v g (numbered n t)))
  (Hshift : forall v up g n t, dict_get v table = Some up -> one v g (numbered n t)
     = relab (relab_outcome (fun i => n + i)) (fun i => n + i) (one v g (numbered 0 (erase t))))
  (Hkeep : forall v up d s, dict_get v table = Some up -> wf_state s ->
     exists new, heap (snd (updater_update o up d opts force s)) = (heap s ++ new)%list) :
  forall vs root removed remapped s t anc, (forall v, In v vs -> dict_get v table <> None) ->
  wf_state s -> node_at s root anc t -> (vs = [] -> anc = []) ->
  match chain one vs (gen s) (erase t) with
  | Ok (e, l, ds) => exists i nodes ns s',
      run_steps o table vs root opts force removed remapped s
        = (Ok (i, (removed ++ nodes)%list, merge remapped ns ds), s') /\
      wf_state s' /\ document s' i e /\ Forall2 (document s') nodes l /\ length ns = length ds /\
      gen s' = gen s + length (flat_map snd (concat ds)) /\
      (exists new, heap s' = (heap s ++ new)%list)
  | Err x => exists n s', run_steps o table vs root opts force removed remapped s = (Err (shift_exn n x), s')
  end.
Proof.
  induction vs as [|v vs IH]; intros root removed remapped s t anc Hv W At Ha.
  - simpl. exists root, [], [], s. rewrite app_nil_r. split; auto. split; auto. rewrite (Ha eq_refl) in At.
    destruct At as (T & HT & Hx & Ex). apply visits_self_only in Hx; [|eapply wf_NoDup; eauto]. subst t.
    split; [exists T; auto|]. split; [constructor|]. split; auto. split; [simpl; lia|]. exists []. symmetry; apply app_nil_r.
  - simpl chain. simpl run_steps.
    destruct (dict_get v table) as [up|] eqn:Eup; [|elim (Hv v (or_introl eq_refl)); auto].
    pose proof (Hone v up (DElem root) s t Eup W (ex_intro _ anc At)) as P. unfold performs in P.
    rewrite (Hshift v up _ _ t Eup) in P. pose proof (Hkeep v up (DElem root) s Eup W) as (new & Hnew).
    destruct (one v (gen s) (numbered 0 (erase t))) as [oc|x]; cbn [relab rbind] in P |- *.
    + destruct P as (res & s1 & E1 & W1 & D1 & F1 & R1 & G1 & C1 & C2).
      rewrite bind_run, E1. rewrite E1 in Hnew. simpl in Hnew.
      destruct D1 as (T1 & HT1 & I1 & C3). cbn [new_document relab_outcome removed_subtrees replaced] in *.
      rewrite <- I1. rewrite bind_run, (as_element_root s1 T1) by auto.
      rewrite C1, C2, R1. rewrite replacements_relab in G1.
      assert (At1 : node_at s1 (tid T1) [] T1) by (exists T1; split; auto; split; auto; apply visits_self).
      specialize (IH (tid T1) (removed ++ removed_nodes res)%list
        (dict_update remapped (relab_dict (fun i => next s + i) (replaced oc))) s1 T1 []
        (fun w Hw => Hv w (or_intror Hw)) W1 At1 (fun _ => eq_refl)).
      rewrite C3, G1 in IH.
      destruct (chain one vs (gen s + replacements oc) (new_document oc)) as [[[e l] ds]|x].
      * destruct IH as (i & nodes & ns & s2 & E2 & W2 & D2 & F2 & L2 & G2 & new2 & H2).
        cbn [rbind]. exists i, (removed_nodes res ++ nodes)%list, (next s :: ns), s2.
        split; [rewrite E2, <- app_assoc; reflexivity|]. split; auto. split; auto. split.
        { apply Forall2_app; auto. eapply Forall2_impl; [|exact F1]. intros a b. eapply document_kept; eauto. }
        split; [simpl; auto|]. split.
        { rewrite G2. simpl. rewrite flat_map_app, app_length. unfold replacements. simpl. lia. }
        exists (new ++ new2)%list. rewrite H2, Hnew, app_assoc. reflexivity.
      * destruct IH as (n & s2 & E2). cbn [rbind]. exists n, s2. exact E2.
    + destruct P as (s1 & E1). rewrite bind_run, E1. exists (next s), s1. rewrite relab_shift. reflexivity.
Qed.

(** ** The entry points *)

Definition runs_chain (m : M results) (s : st) (c : res (tree * list tree * list (dict (list nat)))) : Prop :=
  match c with
  | Ok (e, l, ds) => exists r s' ns, m s = (Ok r, s') /\ wf_state s' /\
      document s' (r_document r) e /\ Forall2 (document s') (removed_nodes r) l /\
      length ns = length ds /\ remapped_ids r = merge [] ns ds
  | Err x => exists n s', m s = (Err (shift_exn n x), s')
  end.

Lemma loaded_node s d t root : wf_state s -> denotes s d t -> get_etree_root d false s = (Ok root, loaded s d) ->
  wf_state (loaded s d) /\ gen (loaded s d) = gen s /\
  exists anc t', node_at (loaded s d) root anc t' /\ erase t' = erase t.
Proof.
  intros W D E. destruct d as [i|i|[p|]]; simpl in *.
  - injection E as <-. destruct D as (anc & D). eauto 8.
  - injection E as <-. destruct D as (anc & D). eauto 8.
  - injection D as ->. rewrite copy_push_eq in E. injection E as <-.
    split; [apply push_copy_wf; auto|]. split; auto. exists [], (fst (renum (next s) t)). split.
    + exists (fst (renum (next s) t)). split; [simpl; apply in_app_iff; right; left; auto|].
      split; [apply visits_self|apply renum_tid].
    + apply erase_renum.
  - discriminate.
Qed.

Lemma entry_runs o table opts force one vs root s d t :
  (forall v up d s t, dict_get v table = Some up -> wf_state s -> denotes s d t ->
     performs (updater_update o up d opts force) s (fun g n => one v g (numbered n t))) ->
  (forall v up g n t, dict_get v table = Some up -> one v g (numbered n t)
     = relab (relab_outcome (fun i => n + i)) (fun i => n + i) (one v g (numbered 0 (erase t)))) ->
  (forall v up, dict_get v table = Some up -> In up (map snd (STIX_UPDATERS o) ++ map snd (CYBOX_UPDATERS o))) ->
  (forall v, In v vs -> dict_get v table <> None) -> vs <> [] ->
  wf_state s -> denotes s d t -> get_etree_root d false s = (Ok root, loaded s d) ->
  runs_chain (fun s0 => (r <- run_steps o table vs root opts force [] [] ;;
        let '(doc, removed, remapped) := r in
        ret (update_results doc (CList removed) (CDict remapped))) (loaded s0 d)) s
    (chain one vs (gen s) (erase t)).
Proof.
  intros H1 H2 H3 Hv Hn W D E. destruct (loaded_node s d t root W D E) as (W1 & G1 & anc & t' & At & Et).
  pose proof (run_steps_chain o table opts force one H1 H2
    (fun v up d s0 Hu W0 => bounded_extends _ s0 W0
       (fun old => safe_updater_update old o up d opts force (registered_safe o up (H3 v up Hu) old)))
    vs root [] [] (loaded s d) t' anc Hv W1 At) as R.
  lapply R; [clear R; intro R|intro Q; elim (Hn Q)].
  rewrite G1, Et in R. unfold runs_chain.
  destruct (chain one vs (gen s) (erase t)) as [[[e l] ds]|x].
  - destruct R as (i & nodes & ns & s' & E1 & W' & D' & F' & L' & _).
    eexists _, s', ns. split; [rewrite bind_run, E1; reflexivity|]. split; auto.
    rewrite update_results_doc, update_results_removed, update_results_remapped. auto.
  - destruct R as (n & s' & E1). exists n, s'. rewrite bind_run, E1. reflexivity.
Qed.

Lemma between_in versions a b l : between versions a b l -> forall v, In v l -> In v versions /\ (NoDup versions -> v <> b).
Proof.
  intros (l1 & l2 & l3 & E & _) v Hv. subst versions. split.
  - apply in_app_iff. right. apply in_app_iff. auto.
  - intros N ->. rewrite app_assoc in N. apply NoDup_remove_2 in N. apply N.
    apply in_app_iff. left. apply in_app_iff. auto.
Qed.

Lemma between_not_last versions last_ pre a b l : versions = (pre ++ [last_])%list -> NoDup versions ->
  between versions a b l -> forall v, In v l -> In v pre.
Proof.
  intros E N B v Hv. destruct (between_in _ _ _ _ B v Hv) as [H _].
  rewrite E in H. apply in_app_iff in H as [H|[<-|[]]]; auto. exfalso.
  destruct B as (l1 & l2 & l3 & E' & _). rewrite E in E', N.
  assert (Q : In last_ (l1 ++ l)%list) by (apply in_app_iff; auto).
  replace (l1 ++ l ++ b :: l3)%list with ((l1 ++ l) ++ b :: l3)%list in E' by (rewrite <- app_assoc; auto).
  destruct (exists_last (l := b :: l3)) as (l4 & x & E4); [discriminate|]. rewrite E4, app_assoc in E'.
  apply app_inj_tail in E' as [-> ->]. apply NoDup_remove_2 in N. apply N. rewrite app_nil_r.
  apply in_app_iff. auto.
Qed.

Lemma stix_update_runs o d from to opts force s t a vs : wf_state s -> denotes s d t ->
  stix_start from t = Some a ->
  let b := match given to with Some b => b | None => "1.2.1" end in
  between STIX_VERSIONS a b vs ->
  runs_chain (stix_update o d from to opts force) s
    (chain (stix_single o (or_default o opts) force) vs (gen s) (erase t)).
Proof.
  intros W D Ha b B. pose proof (stix_validation o d from to opts force s t W D) as V. rewrite Ha in V.
  cbv zeta in V. destruct V as [_ V]. fold b in V.
  destruct stix_table_ok as [_ N].
  assert (Ho : older STIX_VERSIONS a b).
  { destruct B as (l1 & l2 & l3 & E & ->). exists l1, l2, l3. exact E. }
  destruct (V Ho) as (root & E1 & E2).
  rewrite <- (between_unique _ _ _ _ _ N B (slice_between _ _ _ N Ho)) in E2.
  assert (Q : runs_chain (fun s0 => (r <- run_steps o (STIX_UPDATERS o) vs root opts force [] [] ;;
        let '(doc, removed, remapped) := r in
        ret (update_results doc (CList removed) (CDict remapped))) (loaded s0 d)) s
    (chain (stix_single o (or_default o opts) force) vs (gen s) (erase t))).
  { apply entry_runs; auto.
    - intros. apply stix_updater_performs; auto.
    - intros. eapply stix_single_shift; eauto.
    - intros v up Hu. apply in_app_iff. left. eapply dict_get_in; eauto.
    - intros v Hv. apply (between_not_last STIX_VERSIONS "1.2.1" ["1.0"; "1.0.1"; "1.1"; "1.1.1"; "1.2"] a b vs eq_refl N B) in Hv.
      simpl in Hv. intuition; subst v; discriminate.
    - intros ->. destruct B as (? & ? & ? & _ & Q). discriminate. }
  unfold runs_chain in *. destruct (chain _ _ _ _) as [[[e l] ds]|x].
  - destruct Q as (r & s' & ns & E3 & R). exists r, s', ns. rewrite E2. auto.
  - destruct Q as (n & s' & E3). exists n, s'. rewrite E2. auto.
Qed.

Lemma cybox_update_runs o d from to opts force s t a vs : wf_state s -> denotes s d t ->
  cybox_start from t = Some a ->
  let b := match given to with Some b => b | None => "2.1" end in
  between CYBOX_VERSIONS a b vs ->
  runs_chain (cybox_update o d from to opts force) s
    (chain (cybox_single (or_default o opts) force) vs (gen s) (erase t)).
Proof.
  intros W D Ha b B. pose proof (cybox_validation o d from to opts force s t W D) as V. rewrite Ha in V.
  cbv zeta in V. destruct V as [_ V]. fold b in V.
  destruct cybox_table_ok as [_ N].
  assert (Ho : older CYBOX_VERSIONS a b).
  { destruct B as (l1 & l2 & l3 & E & ->). exists l1, l2, l3. exact E. }
  destruct (V Ho) as (root & E1 & E2).
  rewrite <- (between_unique _ _ _ _ _ N B (slice_between _ _ _ N Ho)) in E2.
  assert (Q : runs_chain (fun s0 => (r <- run_steps o (CYBOX_UPDATERS o) vs root opts force [] [] ;;
        let '(doc, removed, remapped) := r in
        ret (update_results doc (CList removed) (CDict remapped))) (loaded s0 d)) s
    (chain (cybox_single (or_default o opts) force) vs (gen s) (erase t))).
  { apply entry_runs; auto.
    - intros. apply cybox_updater_performs; auto.
    - intros. eapply cybox_single_shift; eauto.
    - intros v up Hu. apply in_app_iff. right. eapply dict_get_in; eauto.
    - intros v Hv. apply (between_not_last CYBOX_VERSIONS "2.1" ["2.0"; "2.0.1"] a b vs eq_refl N B) in Hv.
      simpl in Hv. intuition; subst v; discriminate.
    - intros ->. destruct B as (? & ? & ? & _ & Q). discriminate. }
  unfold runs_chain in *. destruct (chain _ _ _ _) as [[[e l] ds]|x].
  - destruct Q as (r & s' & ns & E3 & R). exists r, s', ns. rewrite E2. auto.
  - destruct Q as (n & s' & E3). exists n, s'. rewrite E2. auto.
Qed.
