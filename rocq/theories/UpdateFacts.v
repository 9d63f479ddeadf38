(** * Facts behind the theorems on updates and cleaning. *)

From Coq Require Import String Ascii List Bool Arith NArith Lia Sorting.
From Verif Require Import Str Xml XPath Utils Base Tables Cybox Stix Ramrod Spec SpecDoc SpecPass SpecStep
  SpecCheck SpecClean SpecUpdate SpecReport Lib Frame Api Versions NoFail Refine RefineBase RefineTrans RefineLists
  RefineSteps RefineCheck RefineClean Relabel RefineUpdate Updates Reports Samples PropsApi.
Import ListNotations.
Local Open Scope string_scope.

Lemma stix_step_performed o opts v up d force s t :
  dict_get v (STIX_UPDATERS o) = Some up -> wf_state s -> denotes s d t ->
  match stix_single o (or_default o opts) force v (gen s) (numbered (next s) t) with
  | Ok oc => exists r s', updater_update o up d opts force s = (Ok r, s') /\ wf_state s' /\
      document s' (r_document r) (new_document oc) /\
      Forall2 (document s') (removed_nodes r) (removed_subtrees oc) /\
      remapped_ids r = replaced oc /\ gen s' = gen s + replacements oc
  | Err x => exists s', updater_update o up d opts force s = (Err x, s')
  end.
Proof.
  intros H W D. pose proof (stix_updater_performs o opts v up d force s t H W D) as P. unfold performs in P.
  destruct (stix_single _ _ _ _ _ _); auto. destruct P as (r & s' & P). exists r, s'. tauto.
Qed.

Lemma cybox_step_performed o opts v up d force s t :
  dict_get v (CYBOX_UPDATERS o) = Some up -> wf_state s -> denotes s d t ->
  match cybox_single (or_default o opts) force v (gen s) (numbered (next s) t) with
  | Ok oc => exists r s', updater_update o up d opts force s = (Ok r, s') /\ wf_state s' /\
      document s' (r_document r) (new_document oc) /\
      Forall2 (document s') (removed_nodes r) (removed_subtrees oc) /\
      remapped_ids r = replaced oc /\ gen s' = gen s + replacements oc
  | Err x => exists s', updater_update o up d opts force s = (Err x, s')
  end.
Proof.
  intros H W D. pose proof (cybox_updater_performs o opts v up d force s t H W D) as P. unfold performs in P.
  destruct (cybox_single _ _ _ _ _); auto. destruct P as (r & s' & P). exists r, s'. tauto.
Qed.

(** ** Versions *)

Ltac described H :=
  match type of H with
  | dict_get ?v (STIX_UPDATERS ?o) = Some ?up =>
      match goal with |- context [or_default o ?opts] =>
        destruct (stix_described o (or_default o opts) v up H) as (c & D & f & Ec & Ed & Ef & X) end
  | dict_get ?v (CYBOX_UPDATERS ?o) = Some ?up =>
      match goal with |- context [or_default o ?opts] =>
        destruct (cybox_described o (or_default o opts) v up H) as (c & D & f & Ec & Ed & Ef & X) end
  end.

Lemma refused_fst o up opts c D f d s t x : describes up (or_default o opts) c D f ->
  wf_state s -> denotes s d t -> c (numbered (next s) t) = Err x ->
  fst (updater_update o up d opts false s) = Err x.
Proof. intros X W Dn E. destruct (update_refused o up opts c D f d s t x X W Dn E) as (s' & E1 & _). rewrite E1. auto. Qed.

Lemma stix_mismatch o v up opts d s t x :
  dict_get v (STIX_UPDATERS o) = Some up -> check_versions (or_default o opts) = true ->
  wf_state s -> denotes s d t ->
  first_of (anywhere [stix "STIX_Package"]) (numbered (next s) t) x ->
  (stix_declared x = None -> fst (updater_update o up d opts false s) = Err UnknownVersionError) /\
  (forall w, stix_declared x = Some w -> other_version w v ->
   fst (updater_update o up d opts false s) = Err (InvalidVersionError (Some (tid x)) (Some v) (Some w))).
Proof.
  intros H V W Dn F. destruct (stix_described o (or_default o opts) v up H) as (c & D & f & Ec & Ed & Ef & X).
  destruct (stix_version_bad v _ _ F) as [F1 F2]. split.
  - intro N. eapply refused_fst; eauto. eapply stix_check_first_version; eauto.
  - intros w Ew O. eapply refused_fst; eauto. eapply stix_check_first_version; eauto.
Qed.

Lemma stix_embedded_mismatch o v up opts d s t cv p l1 anc x l2 :
  dict_get v (STIX_UPDATERS o) = Some up -> check_versions (or_default o opts) = true ->
  wf_state s -> denotes s d t -> embedded v = Some (cv, p) ->
  (forall y, first_of (anywhere [stix "STIX_Package"]) (numbered (next s) t) y ->
     same_version (stix_declared y) v) ->
  selected p (numbered (next s) t) = (l1 ++ (anc, x) :: l2)%list ->
  (forall c, In c l1 -> same_version (cybox_declared (snd c)) cv) ->
  (cybox_declared x = None -> fst (updater_update o up d opts false s) = Err UnknownVersionError) /\
  (forall w, cybox_declared x = Some w -> other_version w cv ->
   fst (updater_update o up d opts false s) = Err (InvalidVersionError (Some (tid x)) (Some cv) (Some w))).
Proof.
  intros H V W Dn Em S Es L. destruct (stix_described o (or_default o opts) v up H) as (c & D & f & Ec & Ed & Ef & X).
  destruct (cybox_version_bad cv p _ _ _ _ _ Es L) as [F1 F2]. apply stix_version_ok in S. split.
  - intro N. eapply refused_fst; eauto. eapply stix_check_embedded; eauto.
  - intros w Ew O. eapply refused_fst; eauto. eapply stix_check_embedded; eauto.
Qed.

Lemma cybox_mismatch o v up opts d s t l1 anc x l2 :
  dict_get v (CYBOX_UPDATERS o) = Some up -> check_versions (or_default o opts) = true ->
  wf_state s -> denotes s d t ->
  selected (anywhere [cybox "Observables"]) (numbered (next s) t) = (l1 ++ (anc, x) :: l2)%list ->
  (forall c, In c l1 -> same_version (cybox_declared (snd c)) v) ->
  (cybox_declared x = None -> fst (updater_update o up d opts false s) = Err UnknownVersionError) /\
  (forall w, cybox_declared x = Some w -> other_version w v ->
   fst (updater_update o up d opts false s) = Err (InvalidVersionError (Some (tid x)) (Some v) (Some w))).
Proof.
  intros H V W Dn Es L. destruct (cybox_described o (or_default o opts) v up H) as (c & D & f & Ec & Ed & Ef & X).
  destruct (cybox_version_bad v _ _ _ _ _ _ Es L) as [F1 F2]. split.
  - intro N. eapply refused_fst; eauto. eapply cybox_check_first_version; eauto.
  - intros w Ew O. eapply refused_fst; eauto. eapply cybox_check_first_version; eauto.
Qed.

Lemma content_error rules dups T e :
  nothing_untranslatable rules T = Err e \/ nothing_to_clean rules dups T = Err e ->
  (exists a b, e = UpdateError a b) \/ ~ documented e.
Proof.
  unfold nothing_untranslatable, nothing_to_clean. destruct (untranslatable rules T) as [l|x] eqn:E; simpl.
  - intros [H|H].
    + destruct l; [discriminate|]. injection H as <-. eauto.
    + destruct l; [destruct (dups T); [discriminate|]|]; injection H as <-; eauto.
  - intros [H|H]; injection H as <-; right; eapply untranslatable_errors; eauto.
Qed.

(** Errors of an update, forced or not, come from the check, from cleaning or
    from the step. *)
Lemma update_error_source o up opts c D f d force s t x : describes up (or_default o opts) c D f ->
  wf_state s -> denotes s d t -> fst (updater_update o up d opts force s) = Err x -> documented x ->
  (force = false /\ c (numbered (next s) t) = Err x) \/ D (numbered (next s) t) = Err x.
Proof.
  intros X W Dn E Q. pose proof (update_performs o up opts c D f d force s t X W Dn) as P.
  unfold performs, single in P. destruct (c (numbered (next s) t)) as [[]|y] eqn:Ec.
  - pose proof (fun y => step_errors _ _ _ _ _ (numbered (next s) t) y X) as N.
    destruct (f (erase _)) as [e|y]; simpl rbind in P.
    + destruct P as (r & s' & E1 & _). rewrite E1 in E. discriminate.
    + destruct P as (s' & E1). rewrite E1 in E. injection E as ->. elim (N _ eq_refl Q).
  - destruct (force && forceable y) eqn:Ef.
    + destruct (D (numbered (next s) t)) as [dt|z]; simpl rbind in P.
      * match type of P with context [f (erase ?z)] => pose proof (fun y => step_errors _ _ _ _ _ z y X) as N end.
        destruct (f (erase _)) as [e|z]; simpl rbind in P.
        -- destruct P as (r & s' & E1 & _). rewrite E1 in E. discriminate.
        -- destruct P as (s' & E1). rewrite E1 in E. injection E as ->. elim (N _ eq_refl Q).
      * destruct P as (s' & E1). rewrite E1 in E. injection E as ->. right; auto.
    + destruct P as (s' & E1). rewrite E1 in E. injection E as ->. left. split; auto.
      apply documented_forceable in Q. rewrite Q, andb_true_r in Ef. exact Ef.
Qed.

Lemma listed_errors rules d T e : rbind (untranslatable rules T) (fun l => Ok (l, d)) = @Err dirt e -> ~ documented e.
Proof.
  destruct (untranslatable rules T) as [l|x] eqn:U; intro H; [discriminate|]. injection H as <-.
  eapply untranslatable_errors; eauto.
Qed.

Lemma stix_dirt_errors o v D T e : stix_dirt o v = Some D -> D T = Err e -> ~ documented e.
Proof.
  intros H E. unfold stix_dirt, dict_get in H. each_version v H; apply some_inj in H; subst D; cbv beta in E.
  - eapply listed_errors; eauto.
  - eapply listed_errors; eauto.
  - discriminate.
  - discriminate.
  - injection E as <-. intro Q. inversion Q.
Qed.

Lemma cybox_dirt_errors v D T e : cybox_dirt v = Some D -> D T = Err e -> ~ documented e.
Proof.
  intros H E. unfold cybox_dirt, dict_get in H. each_version v H; apply some_inj in H; subst D; cbv beta in E.
  - discriminate.
  - eapply listed_errors; eauto.
Qed.

Lemma stix_content_error o v T e : stix_content_check o v T = Err e ->
  (exists a b, e = UpdateError a b) \/ ~ documented e.
Proof.
  unfold stix_content_check. destruct (String.eqb v "1.0").
  - intro H. eapply (content_error _ (fun _ => [])). left. exact H.
  - destruct (String.eqb v "1.0.1"); [|discriminate]. intro H. eapply content_error. right. exact H.
Qed.

Lemma cybox_content_error v T e : cybox_content_check v T = Err e ->
  (exists a b, e = UpdateError a b) \/ ~ documented e.
Proof.
  unfold cybox_content_check. destruct (String.eqb v "2.0.1"); [|discriminate].
  intro H. eapply content_error. right. exact H.
Qed.

Lemma stix_accepted o v up opts d force s t :
  dict_get v (STIX_UPDATERS o) = Some up -> wf_state s -> denotes s d t ->
  check_versions (or_default o opts) = false \/ stix_versions_ok v (numbered (next s) t) ->
  fst (updater_update o up d opts force s) <> Err UnknownVersionError /\
  (forall i a b, fst (updater_update o up d opts force s) <> Err (InvalidVersionError i a b)).
Proof.
  intros H W Dn V. destruct (stix_described o (or_default o opts) v up H) as (c & D & f & Ec & Ed & Ef & X).
  assert (Q : forall x, fst (updater_update o up d opts force s) = Err x -> documented x -> exists a b, x = UpdateError a b).
  { intros x E Q. destruct (update_error_source o up opts c D f d force s t x X W Dn E Q) as [[_ F]|F].
    - rewrite (stix_check_content o (or_default o opts) v c _ Ec V) in F.
      destruct (stix_content_error _ _ _ _ F); tauto.
    - elim (stix_dirt_errors _ _ _ _ _ Ed F Q). }
  split; [intro E|intros i a b E]; apply Q in E as (? & ? & ?); try constructor; discriminate.
Qed.

Lemma cybox_accepted o v up opts d force s t :
  dict_get v (CYBOX_UPDATERS o) = Some up -> wf_state s -> denotes s d t ->
  check_versions (or_default o opts) = false \/ cybox_versions_ok v (numbered (next s) t) ->
  fst (updater_update o up d opts force s) <> Err UnknownVersionError /\
  (forall i a b, fst (updater_update o up d opts force s) <> Err (InvalidVersionError i a b)).
Proof.
  intros H W Dn V. destruct (cybox_described o (or_default o opts) v up H) as (c & D & f & Ec & Ed & Ef & X).
  assert (Q : forall x, fst (updater_update o up d opts force s) = Err x -> documented x -> exists a b, x = UpdateError a b).
  { intros x E Q. destruct (update_error_source o up opts c D f d force s t x X W Dn E Q) as [[_ F]|F].
    - rewrite (cybox_check_content (or_default o opts) v c _ Ec V) in F.
      destruct (cybox_content_error _ _ _ F); tauto.
    - elim (cybox_dirt_errors _ _ _ _ Ed F Q). }
  split; [intro E|intros i a b E]; apply Q in E as (? & ? & ?); try constructor; discriminate.
Qed.

(** ** Refusals *)

Lemma stix_1_0_refuses o up opts d s t :
  dict_get "1.0" (STIX_UPDATERS o) = Some up -> wf_state s -> denotes s d t ->
  let T := numbered (next s) t in
  check_versions (or_default o opts) = false \/ stix_versions_ok "1.0" T ->
  match untranslatable stix_1_0_rules T with
  | Err e => fst (updater_update o up d opts false s) = Err e /\ ~ documented e
  | Ok [] => forall e, fst (updater_update o up d opts false s) = Err e -> ~ documented e
  | Ok l => exists s', updater_update o up d opts false s = (Err (UpdateError (Some l) None), s') /\
                       In T (heap s')
  end.
Proof.
  intros H W Dn T V. destruct (stix_described o (or_default o opts) _ up H) as (c & D & f & Ec & Ed & Ef & X).
  pose proof (refuses_untranslatable o up opts c D f d s t stix_1_0_rules X W Dn
    (stix_check_content o (or_default o opts) "1.0" c T Ec V)) as R.
  unfold refuses in R. fold T in R. destruct (untranslatable stix_1_0_rules T) as [[|i l]|e]; auto.
Qed.

Lemma stix_1_0_1_refuses o up opts d s t :
  dict_get "1.0.1" (STIX_UPDATERS o) = Some up -> wf_state s -> denotes s d t ->
  let T := numbered (next s) t in
  check_versions (or_default o opts) = false \/ stix_versions_ok "1.0.1" T ->
  match untranslatable (stix_1_0_1_rules o) T, stix_duplicates T with
  | Err e, _ => fst (updater_update o up d opts false s) = Err e /\ ~ documented e
  | Ok [], [] => forall e, fst (updater_update o up d opts false s) = Err e -> ~ documented e
  | Ok l, dups => exists s', updater_update o up d opts false s = (Err (UpdateError (Some l) (Some dups)), s') /\
                             In T (heap s')
  end.
Proof.
  intros H W Dn T V. destruct (stix_described o (or_default o opts) _ up H) as (c & D & f & Ec & Ed & Ef & X).
  pose proof (refuses_to_clean o up opts c D f d s t (stix_1_0_1_rules o) stix_duplicates X W Dn
    (stix_check_content o (or_default o opts) "1.0.1" c T Ec V)) as R.
  unfold refuses in R. fold T in R.
  destruct (untranslatable (stix_1_0_1_rules o) T) as [[|i l]|e]; auto; destruct (stix_duplicates T); auto.
Qed.

Lemma cybox_2_0_1_refuses o up opts d s t :
  dict_get "2.0.1" (CYBOX_UPDATERS o) = Some up -> wf_state s -> denotes s d t ->
  let T := numbered (next s) t in
  check_versions (or_default o opts) = false \/ cybox_versions_ok "2.0.1" T ->
  match untranslatable cybox_2_0_1_rules T, cybox_duplicates T with
  | Err e, _ => fst (updater_update o up d opts false s) = Err e /\ ~ documented e
  | Ok [], [] => forall e, fst (updater_update o up d opts false s) = Err e -> ~ documented e
  | Ok l, dups => exists s', updater_update o up d opts false s = (Err (UpdateError (Some l) (Some dups)), s') /\
                             In T (heap s')
  end.
Proof.
  intros H W Dn T V. destruct (cybox_described o (or_default o opts) _ up H) as (c & D & f & Ec & Ed & Ef & X).
  pose proof (refuses_to_clean o up opts c D f d s t cybox_2_0_1_rules cybox_duplicates X W Dn
    (cybox_check_content (or_default o opts) "2.0.1" c T Ec V)) as R.
  unfold refuses in R. fold T in R.
  destruct (untranslatable cybox_2_0_1_rules T) as [[|i l]|e]; auto; destruct (cybox_duplicates T); auto.
Qed.

Lemma version_check_error v T a b : stix_version_check v T <> Err (UpdateError a b).
Proof.
  unfold stix_version_check. destruct (selected _ T) as [|c l]; [discriminate|].
  destruct (given _); [|discriminate]. unfold version_is, is_version_equal.
  destruct (strict_version v), (strict_version s); simpl; try discriminate. destruct (match _ with Eq => _ | _ => _ end); discriminate.
Qed.

Lemma cybox_version_check_error v p T a b : cybox_version_check v p T <> Err (UpdateError a b).
Proof.
  unfold cybox_version_check. destruct (first_err _ _) eqn:E; [|discriminate].
  apply first_err_in in E as (c & E). intro Q. injection Q as ->. revert E. unfold cybox_version_of.
  destruct (cybox_declared _); [|discriminate]. unfold version_is, is_version_equal.
  destruct (strict_version v), (strict_version s); simpl; try discriminate. destruct (match _ with Eq => _ | _ => _ end); discriminate.
Qed.

Lemma others_never_refuse o v up opts d force s t :
  (dict_get v (STIX_UPDATERS o) = Some up /\ In v ["1.1"; "1.1.1"; "1.2"]) \/
  (dict_get v (CYBOX_UPDATERS o) = Some up /\ v = "2.0") ->
  wf_state s -> denotes s d t ->
  forall a b, fst (updater_update o up d opts force s) <> Err (UpdateError a b).
Proof.
  intros [[H Hv]|[H Hv]] W Dn a b E.
  - destruct (stix_described o (or_default o opts) v up H) as (c & D & f & Ec & Ed & Ef & X).
    destruct (update_error_source o up opts c D f d force s t _ X W Dn E (doc_update a b)) as [[_ F]|F].
    + simpl in Hv. unfold stix_check in Ec. destruct Hv as [<-|[<-|[<-|[]]]]; simpl in Ec; injection Ec as <-;
        unfold if_asked in F; destruct (check_versions _); try discriminate; eapply version_check_error; eauto.
    + eapply stix_dirt_errors; eauto. constructor.
  - destruct (cybox_described o (or_default o opts) v up H) as (c & D & f & Ec & Ed & Ef & X).
    destruct (update_error_source o up opts c D f d force s t _ X W Dn E (doc_update a b)) as [[_ F]|F].
    + subst v. unfold cybox_check in Ec. simpl in Ec. injection Ec as <-.
      unfold if_asked in F; destruct (check_versions _); try discriminate; eapply cybox_version_check_error; eauto.
    + eapply cybox_dirt_errors; eauto. constructor.
Qed.

(** ** Prediction *)

Lemma in_table {A} (up : A) l : NoDup (map fst l) -> In up (map snd l) -> exists v, dict_get v l = Some up.
Proof.
  intros N H. apply in_map_iff in H as ([v x] & <- & H). exists v. simpl.
  induction l as [|[k y] l IH]; simpl in *; [destruct H|]. inversion N as [|? ? N1 N2]; subst.
  destruct H as [H|H].
  - injection H as -> ->. rewrite String.eqb_refl. reflexivity.
  - destruct (String.eqb_spec v k); auto. subst k. elim N1. apply in_map_iff. exists (v, x). auto.
Qed.

Lemma registered_cases o up : registered o up ->
  (exists v, dict_get v (STIX_UPDATERS o) = Some up) \/ (exists v, dict_get v (CYBOX_UPDATERS o) = Some up).
Proof.
  intro H. apply in_app_iff in H as [H|H]; [left|right]; apply in_table; auto;
    simpl; repeat constructor; simpl; intuition discriminate.
Qed.

Lemma registered_check_predicts o up opts s T : registered o up -> wf_state s -> In T (heap s) ->
  match up_check up (tid T) (or_default o opts) s with
  | (Err x, s1) => s1 = s /\ exists e0 T' s',
      updater_update o up (DElem (tid T)) opts false s = (Err (about T' e0), s') /\
      x = about T e0 /\ In T' (heap s') /\ erase T' = erase T
  | (Ok _, s1) => s1 = s /\
      forall e s', updater_update o up (DElem (tid T)) opts false s = (Err e, s') -> ~ documented e
  end.
Proof.
  intros R W HT. destruct (registered_cases o up R) as [[v H]|[v H]].
  - destruct (stix_described o (or_default o opts) v up H) as (c & D & f & Ec & Ed & Ef & X).
    eapply check_predicts; eauto. eapply stix_check_stable; eauto.
  - destruct (cybox_described o (or_default o opts) v up H) as (c & D & f & Ec & Ed & Ef & X).
    eapply check_predicts; eauto. eapply cybox_check_stable; eauto.
Qed.

(** ** Forcing, cleaning, steps *)

Lemma stix_forced o v up opts f d s t e0 s0 :
  dict_get v (STIX_UPDATERS o) = Some up -> stix_step o (or_default o opts) v = Some f ->
  wf_state s -> denotes s d t ->
  updater_update o up d opts false s = (Err e0, s0) -> documented e0 ->
  match clean o up d opts s with
  | (Err x, _) => fst (updater_update o up d opts true s) = Err x
  | (Ok k, s1) => exists e1 l, document s1 (r_document k) e1 /\ Forall2 (document s1) (removed_nodes k) l /\
      match f e1 with
      | Err y => fst (updater_update o up d opts true s) = Err y
      | Ok e2 => exists r s2, updater_update o up d opts true s = (Ok r, s2) /\
          document s2 (r_document r) e2 /\ Forall2 (document s2) (removed_nodes r) l /\
          remapped_ids r = remapped_ids k
      end
  end.
Proof.
  intros H Hf W Dn. destruct (stix_described o (or_default o opts) v up H) as (c & D & f' & Ec & Ed & Ef & X).
  rewrite Hf in Ef. apply some_inj in Ef. subst f'. eapply forced_is_clean_then_step; eauto.
Qed.

Lemma cybox_forced o v up opts f d s t e0 s0 :
  dict_get v (CYBOX_UPDATERS o) = Some up -> cybox_step (or_default o opts) v = Some f ->
  wf_state s -> denotes s d t ->
  updater_update o up d opts false s = (Err e0, s0) -> documented e0 ->
  match clean o up d opts s with
  | (Err x, _) => fst (updater_update o up d opts true s) = Err x
  | (Ok k, s1) => exists e1 l, document s1 (r_document k) e1 /\ Forall2 (document s1) (removed_nodes k) l /\
      match f e1 with
      | Err y => fst (updater_update o up d opts true s) = Err y
      | Ok e2 => exists r s2, updater_update o up d opts true s = (Ok r, s2) /\
          document s2 (r_document r) e2 /\ Forall2 (document s2) (removed_nodes r) l /\
          remapped_ids r = remapped_ids k
      end
  end.
Proof.
  intros H Hf W Dn. destruct (cybox_described o (or_default o opts) v up H) as (c & D & f' & Ec & Ed & Ef & X).
  rewrite Hf in Ef. apply some_inj in Ef. subst f'. eapply forced_is_clean_then_step; eauto.
Qed.

Lemma stix_clean_does o v up opts D d s t :
  dict_get v (STIX_UPDATERS o) = Some up -> stix_dirt o v = Some D -> wf_state s -> denotes s d t ->
  clean_performs (clean o up d opts) s (or_default o opts) (numbered (next s) t) (D (numbered (next s) t)).
Proof.
  intros H Hd W Dn. destruct (stix_described o (or_default o opts) v up H) as (c & D' & f & Ec & Ed & Ef & X).
  rewrite Hd in Ed. apply some_inj in Ed. subst D'. eapply clean_does; eauto.
Qed.

Lemma cybox_clean_does o v up opts D d s t :
  dict_get v (CYBOX_UPDATERS o) = Some up -> cybox_dirt v = Some D -> wf_state s -> denotes s d t ->
  clean_performs (clean o up d opts) s (or_default o opts) (numbered (next s) t) (D (numbered (next s) t)).
Proof.
  intros H Hd W Dn. destruct (cybox_described o (or_default o opts) v up H) as (c & D' & f & Ec & Ed & Ef & X).
  rewrite Hd in Ed. apply some_inj in Ed. subst D'. eapply clean_does; eauto.
Qed.

Lemma stix_step_changes o opts v up f d s t r s' :
  dict_get v (STIX_UPDATERS o) = Some up -> stix_step o (or_default o opts) v = Some f ->
  wf_state s -> denotes s d t -> updater_update o up d opts false s = (Ok r, s') ->
  exists e, f (erase t) = Ok e /\ document s' (r_document r) e /\
    removed_nodes r = [] /\ remapped_ids r = [].
Proof.
  intros H Hf W Dn E. destruct (stix_described o (or_default o opts) v up H) as (c & D & f' & Ec & Ed & Ef & X).
  rewrite Hf in Ef. apply some_inj in Ef. subst f'. apply (update_returned o up opts c D f d s t r s' X W Dn E).
Qed.

Lemma cybox_step_changes o opts v up f d s t r s' :
  dict_get v (CYBOX_UPDATERS o) = Some up -> cybox_step (or_default o opts) v = Some f ->
  wf_state s -> denotes s d t -> updater_update o up d opts false s = (Ok r, s') ->
  exists e, f (erase t) = Ok e /\ document s' (r_document r) e /\
    removed_nodes r = [] /\ remapped_ids r = [].
Proof.
  intros H Hf W Dn E. destruct (cybox_described o (or_default o opts) v up H) as (c & D & f' & Ec & Ed & Ef & X).
  rewrite Hf in Ef. apply some_inj in Ef. subst f'. apply (update_returned o up opts c D f d s t r s' X W Dn E).
Qed.

Lemma stix_step_complete o opts v up c f d s t :
  dict_get v (STIX_UPDATERS o) = Some up ->
  stix_check o (or_default o opts) v = Some c -> stix_step o (or_default o opts) v = Some f ->
  wf_state s -> denotes s d t -> c (numbered (next s) t) = Ok tt ->
  match f (erase t) with
  | Ok e => exists r s', updater_update o up d opts false s = (Ok r, s') /\ document s' (r_document r) e
  | Err y => fst (updater_update o up d opts false s) = Err y
  end.
Proof.
  intros H Hc Hf W Dn C. destruct (stix_described o (or_default o opts) v up H) as (c' & D & f' & Ec & Ed & Ef & X).
  rewrite Hf in Ef. apply some_inj in Ef. subst f'. rewrite Hc in Ec. apply some_inj in Ec. subst c'.
  pose proof (update_accepted o up opts c D f d false s t X W Dn C) as P. destruct (f (erase t)) as [e|y].
  - destruct P as (r & s' & E & _ & P & _). eauto.
  - destruct P as (s' & E & _). rewrite E. reflexivity.
Qed.

Lemma cybox_step_complete o opts v up c f d s t :
  dict_get v (CYBOX_UPDATERS o) = Some up ->
  cybox_check (or_default o opts) v = Some c -> cybox_step (or_default o opts) v = Some f ->
  wf_state s -> denotes s d t -> c (numbered (next s) t) = Ok tt ->
  match f (erase t) with
  | Ok e => exists r s', updater_update o up d opts false s = (Ok r, s') /\ document s' (r_document r) e
  | Err y => fst (updater_update o up d opts false s) = Err y
  end.
Proof.
  intros H Hc Hf W Dn C. destruct (cybox_described o (or_default o opts) v up H) as (c' & D & f' & Ec & Ed & Ef & X).
  rewrite Hf in Ef. apply some_inj in Ef. subst f'. rewrite Hc in Ec. apply some_inj in Ec. subst c'.
  pose proof (update_accepted o up opts c D f d false s t X W Dn C) as P. destruct (f (erase t)) as [e|y].
  - destruct P as (r & s' & E & _ & P & _). eauto.
  - destruct P as (s' & E & _). rewrite E. reflexivity.
Qed.

(** ** Shared ids *)

Lemma sorted_map_filter {A} (f : A -> nat) p l : StronglySorted lt (map f l) -> StronglySorted lt (map f (filter p l)).
Proof.
  induction l as [|x l IH]; simpl; intro H; [constructor|]. apply StronglySorted_inv in H as [H1 H2].
  destruct (p x); simpl; auto. constructor; auto. rewrite Forall_forall in *. intros y Hy.
  apply H2. apply in_map_iff in Hy as (z & <- & Hz). apply filter_In in Hz as [Hz _]. apply in_map; auto.
Qed.

Lemma seq_sorted m : forall n, StronglySorted lt (seq n m).
Proof.
  induction m as [|m IH]; intro n; simpl; constructor; auto. apply Forall_forall. intros y Hy.
  apply in_seq in Hy. lia.
Qed.

Lemma bearers_sorted nss name n t : StronglySorted lt (bearers nss name (numbered n t)).
Proof.
  unfold bearers, counted. apply sorted_map_filter, sorted_map_filter. rewrite map_map.
  pose proof (visits_ids (numbered n t) []) as Q. unfold numbered in Q at 2. rewrite renum_ids in Q.
  pose proof (seq_sorted (size t) n) as H. rewrite <- Q in H.
  destruct (visits [] (numbered n t)); simpl in *; [constructor|]. apply StronglySorted_inv in H. tauto.
Qed.

Lemma several (l : list nat) : NoDup l -> forall i, In i l -> (1 < length l <-> exists j, j <> i /\ In j l).
Proof.
  intros N i Hi. split.
  - intro L. destruct l as [|a [|b l]]; simpl in L; try lia.
    inversion N as [|? ? Na _]; subst. destruct (Nat.eq_dec a i) as [->|E].
    + exists b. split; [intros ->; apply Na; left; auto|right; left; auto].
    + exists a. split; auto. left; auto.
  - intros (j & E & Hj). destruct l as [|a [|b l]]; simpl in *; try lia; intuition congruence.
Qed.

Lemma numbered_NoDup n t : NoDup (ids (numbered n t)).
Proof. unfold numbered. rewrite renum_ids. apply seq_NoDup. Qed.

Definition groups_of (nss : list string) (T : tree) (d : dict (list nat)) : Prop :=
  forall name l, In (name, l) d <-> l = bearers nss name T /\ 1 < length l.

Lemma groups_listed nss T d : NoDup (ids T) -> groups_of nss T d ->
  forall i, In i (flat_map snd d) <->
    exists name, bears nss name T i /\ exists j, j <> i /\ bears nss name T j.
Proof.
  intros N G i. rewrite in_flat_map. split.
  - intros ([name l] & H & Hi). apply G in H as [-> L]. simpl in Hi. exists name.
    split; [apply bearers_bears; auto|].
    apply (several _ (bearers_NoDup nss name T N) i Hi) in L as (j & E & Hj). exists j.
    split; auto. apply bearers_bears; auto.
  - intros (name & B & j & E & Bj). apply bearers_bears in B. apply bearers_bears in Bj.
    exists (name, bearers nss name T). split; auto. apply G. split; auto.
    apply (several _ (bearers_NoDup nss name T N) i B). eauto.
Qed.

Lemma groups_described nss n t d : groups_of nss (numbered n t) d ->
  (forall name l, In (name, l) d ->
     2 <= length l /\ StronglySorted lt l /\ forall i, In i l <-> bears nss name (numbered n t) i) /\
  (forall name i j, bears nss name (numbered n t) i -> bears nss name (numbered n t) j -> i <> j ->
     exists l, In (name, l) d).
Proof.
  intro G. split.
  - intros name l H. apply G in H as [-> L]. split; auto. split; [apply bearers_sorted|].
    intro i. apply bearers_bears.
  - intros name i j Bi Bj E. apply bearers_bears in Bi. apply bearers_bears in Bj.
    exists (bearers nss name (numbered n t)). apply G. split; auto.
    apply (several _ (bearers_NoDup nss name _ (numbered_NoDup n t)) i Bi). eauto.
Qed.

Lemma stix_clean_returned o opts up d s t r s' :
  dict_get "1.0.1" (STIX_UPDATERS o) = Some up -> wf_state s -> denotes s d t ->
  clean o up d opts s = (Ok r, s') ->
  let T := numbered (next s) t in
  exists l, remapped_ids r = stix_duplicates T /\ gen s' = gen s + length (flat_map snd (stix_duplicates T)) /\
    document s' (r_document r)
      (erase (without l (fresh_ids (new_id_func (or_default o opts)) (gen s) (flat_map snd (stix_duplicates T)) T))).
Proof.
  intros H W Dn E T.
  pose proof (stix_clean_does o "1.0.1" up opts _ d s t H eq_refl W Dn) as P. cbv beta in P. fold T in P.
  unfold clean_performs in P. destruct (untranslatable (stix_1_0_1_rules o) T) as [l|e]; simpl rbind in P.
  - destruct P as (r' & s1 & E1 & W1 & D1 & F1 & R1 & G1). rewrite E in E1. injection E1 as <- <-.
    exists l. auto.
  - destruct P as (s1 & E1). rewrite E in E1. discriminate.
Qed.

Lemma cybox_clean_returned o opts up d s t r s' :
  dict_get "2.0.1" (CYBOX_UPDATERS o) = Some up -> wf_state s -> denotes s d t ->
  clean o up d opts s = (Ok r, s') ->
  let T := numbered (next s) t in
  exists l, remapped_ids r = cybox_duplicates T /\ gen s' = gen s + length (flat_map snd (cybox_duplicates T)) /\
    document s' (r_document r)
      (erase (without l (fresh_ids (new_id_func (or_default o opts)) (gen s) (flat_map snd (cybox_duplicates T)) T))).
Proof.
  intros H W Dn E T.
  pose proof (cybox_clean_does o "2.0.1" up opts _ d s t H eq_refl W Dn) as P. cbv beta in P. fold T in P.
  unfold clean_performs in P. destruct (untranslatable cybox_2_0_1_rules T) as [l|e]; simpl rbind in P.
  - destruct P as (r' & s1 & E1 & W1 & D1 & F1 & R1 & G1). rewrite E in E1. injection E1 as <- <-.
    exists l. auto.
  - destruct P as (s1 & E1). rewrite E in E1. discriminate.
Qed.

Lemma stix_listed o opts up d s t r s' :
  dict_get "1.0.1" (STIX_UPDATERS o) = Some up -> wf_state s -> denotes s d t ->
  clean o up d opts s = (Ok r, s') ->
  let T := numbered (next s) t in
  let listed := flat_map snd (remapped_ids r) in
  NoDup listed /\ gen s' = gen s + length listed /\
  (forall i, In i listed <-> exists name, bears (stix_namespaces ++ cybox_namespaces) name T i /\
     exists j, j <> i /\ bears (stix_namespaces ++ cybox_namespaces) name T j) /\
  (exists l, document s' (r_document r)
     (erase (without l (fresh_ids (new_id_func (or_default o opts)) (gen s) listed T)))).
Proof.
  intros H W Dn E T listed. destruct (stix_clean_returned o opts up d s t r s' H W Dn E) as (l & R & G & Dc).
  unfold listed. rewrite R. split; [apply duplicates_nodes, numbered_NoDup|]. split; auto. split; [|eauto].
  apply groups_listed; [apply numbered_NoDup|]. intros name b. apply stix_duplicates_spec.
Qed.

Lemma cybox_listed o opts up d s t r s' :
  dict_get "2.0.1" (CYBOX_UPDATERS o) = Some up -> wf_state s -> denotes s d t ->
  clean o up d opts s = (Ok r, s') ->
  let T := numbered (next s) t in
  let listed := flat_map snd (remapped_ids r) in
  NoDup listed /\ gen s' = gen s + length listed /\
  (forall i, In i listed <-> exists name, bears cybox_namespaces name T i /\
     exists j, j <> i /\ bears cybox_namespaces name T j) /\
  (exists l, document s' (r_document r)
     (erase (without l (fresh_ids (new_id_func (or_default o opts)) (gen s) listed T)))).
Proof.
  intros H W Dn E T listed. destruct (cybox_clean_returned o opts up d s t r s' H W Dn E) as (l & R & G & Dc).
  unfold listed. rewrite R. split; [apply duplicates_nodes, numbered_NoDup|]. split; auto. split; [|eauto].
  apply groups_listed; [apply numbered_NoDup|]. intros name b. apply cybox_duplicates_spec.
Qed.

Lemma others_keep_ids o v up opts d s t r s' :
  (dict_get v (STIX_UPDATERS o) = Some up /\ v <> "1.0.1") \/
  (dict_get v (CYBOX_UPDATERS o) = Some up /\ v <> "2.0.1") ->
  wf_state s -> denotes s d t ->
  clean o up d opts s = (Ok r, s') -> remapped_ids r = [] /\ gen s' = gen s.
Proof.
  intros [[H N]|[H N]] W Dn E.
  - destruct (stix_described o (or_default o opts) v up H) as (c & D & f & Ec & Ed & Ef & X).
    pose proof (clean_does o up opts c D f d s t X W Dn) as P. unfold clean_performs in P.
    assert (Q : forall dt, D (numbered (next s) t) = Ok dt -> snd dt = []).
    { intros dt Q. unfold stix_dirt, dict_get in Ed. each_version v Ed; apply some_inj in Ed; subst D; cbv beta in Q;
        try (injection Q as <-; reflexivity); try discriminate.
      - destruct (untranslatable stix_1_0_rules _); simpl in Q; [|discriminate]. injection Q as <-. reflexivity.
      - elim N; auto. }
    destruct (D (numbered (next s) t)) as [dt|e].
    + destruct P as (r' & s1 & E1 & W1 & D1 & F1 & R1 & G1). rewrite E in E1. injection E1 as <- <-.
      specialize (Q dt eq_refl). unfold renumbered in G1. rewrite R1, G1, Q. simpl. auto.
    + destruct P as (s1 & E1). rewrite E in E1. discriminate.
  - destruct (cybox_described o (or_default o opts) v up H) as (c & D & f & Ec & Ed & Ef & X).
    pose proof (clean_does o up opts c D f d s t X W Dn) as P. unfold clean_performs in P.
    assert (Q : forall dt, D (numbered (next s) t) = Ok dt -> snd dt = []).
    { intros dt Q. unfold cybox_dirt, dict_get in Ed. each_version v Ed; apply some_inj in Ed; subst D; cbv beta in Q;
        try (injection Q as <-; reflexivity); try discriminate.
      elim N; auto. }
    destruct (D (numbered (next s) t)) as [dt|e].
    + destruct P as (r' & s1 & E1 & W1 & D1 & F1 & R1 & G1). rewrite E in E1. injection E1 as <- <-.
      specialize (Q dt eq_refl). unfold renumbered in G1. rewrite R1, G1, Q. simpl. auto.
    + destruct P as (s1 & E1). rewrite E in E1. discriminate.
Qed.

Lemma default_id o k old : new_id_func (default_options o) k old = old ++ "-cleaned-" ++ o_uuid o k.
Proof. reflexivity. Qed.

Lemma stix_groups o opts up d s t r s' :
  dict_get "1.0.1" (STIX_UPDATERS o) = Some up -> wf_state s -> denotes s d t ->
  clean o up d opts s = (Ok r, s') ->
  let bearer name := bears (stix_namespaces ++ cybox_namespaces) name (numbered (next s) t) in
  NoDup (map fst (remapped_ids r)) /\
  (forall name l, In (name, l) (remapped_ids r) ->
     2 <= length l /\ StronglySorted lt l /\ forall i, In i l <-> bearer name i) /\
  (forall name i j, bearer name i -> bearer name j -> i <> j -> exists l, In (name, l) (remapped_ids r)).
Proof.
  intros H W Dn E bearer. destruct (stix_clean_returned o opts up d s t r s' H W Dn E) as (l & R & G & Dc).
  rewrite R. split; [apply duplicates_keys|]. apply groups_described. intros name b. apply stix_duplicates_spec.
Qed.

Lemma cybox_groups o opts up d s t r s' :
  dict_get "2.0.1" (CYBOX_UPDATERS o) = Some up -> wf_state s -> denotes s d t ->
  clean o up d opts s = (Ok r, s') ->
  let bearer name := bears cybox_namespaces name (numbered (next s) t) in
  NoDup (map fst (remapped_ids r)) /\
  (forall name l, In (name, l) (remapped_ids r) ->
     2 <= length l /\ StronglySorted lt l /\ forall i, In i l <-> bearer name i) /\
  (forall name i j, bearer name i -> bearer name j -> i <> j -> exists l, In (name, l) (remapped_ids r)).
Proof.
  intros H W Dn E bearer. destruct (cybox_clean_returned o opts up d s t r s' H W Dn E) as (l & R & G & Dc).
  rewrite R. split; [apply duplicates_keys|]. apply groups_described. intros name b. apply cybox_duplicates_spec.
Qed.

Lemma reported_groups T :
  (forall name l, In (name, l) (stix_duplicates T) <->
     2 <= length l /\ l = bearers (stix_namespaces ++ cybox_namespaces) name T) /\
  (forall name l, In (name, l) (cybox_duplicates T) <->
     2 <= length l /\ l = bearers cybox_namespaces name T) /\
  (forall nss name i, In i (bearers nss name T) <-> bears nss name T i).
Proof.
  split; [|split].
  - intros name l. rewrite stix_duplicates_spec. unfold lt. tauto.
  - intros name l. rewrite cybox_duplicates_spec. unfold lt. tauto.
  - intros. apply bearers_bears.
Qed.

(** ** Cases *)

Lemma number_1_1 : version_number "1.1" (1, 1, 0)%N None.
Proof. apply (version_2 "1" "1" "" "" 1 1 None (num_digit 1 ltac:(lia)) (num_digit 1 ltac:(lia)) pre_none le_none). Qed.
Lemma number_1_1_0 : version_number "1.1.0" (1, 1, 0)%N None.
Proof. apply (version_3 "1" "1" "0" "" "" 1 1 0 None (num_digit 1 ltac:(lia)) (num_digit 1 ltac:(lia)) (num_digit 0 ltac:(lia)) pre_none le_none). Qed.
Lemma number_1_2 : version_number "1.2" (1, 2, 0)%N None.
Proof. apply (version_2 "1" "2" "" "" 1 2 None (num_digit 1 ltac:(lia)) (num_digit 2 ltac:(lia)) pre_none le_none). Qed.
Lemma number_1_0 : version_number "1.0" (1, 0, 0)%N None.
Proof. apply (version_2 "1" "0" "" "" 1 0 None (num_digit 1 ltac:(lia)) (num_digit 0 ltac:(lia)) pre_none le_none). Qed.
Lemma number_1_0_1 : version_number "1.0.1" (1, 0, 1)%N None.
Proof. apply (version_3 "1" "0" "1" "" "" 1 0 1 None (num_digit 1 ltac:(lia)) (num_digit 0 ltac:(lia)) (num_digit 1 ltac:(lia)) pre_none le_none). Qed.
Lemma number_2_0 : version_number "2.0" (2, 0, 0)%N None.
Proof. apply (version_2 "2" "0" "" "" 2 0 None (num_digit 2 ltac:(lia)) (num_digit 0 ltac:(lia)) pre_none le_none). Qed.
Lemma number_2_1 : version_number "2.1" (2, 1, 0)%N None.
Proof. apply (version_2 "2" "1" "" "" 2 1 None (num_digit 2 ltac:(lia)) (num_digit 1 ltac:(lia)) pre_none le_none). Qed.
Lemma number_2_0_1 : version_number "2.0.1" (2, 0, 1)%N None.
Proof. apply (version_3 "2" "0" "1" "" "" 2 0 1 None (num_digit 2 ltac:(lia)) (num_digit 0 ltac:(lia)) (num_digit 1 ltac:(lia)) pre_none le_none). Qed.

Lemma every_selected p T P : Forall (fun c => P (snd c)) (selected p T) -> every p T P.
Proof.
  intros F anc x Hx Px. rewrite Forall_forall in F. apply (F (anc, x)). apply filter_In. auto.
Qed.

Lemma first_only p T x : first_of p T x -> exists c, hd_error (selected p T) = Some c /\ snd c = x.
Proof. intros (a & l & E). rewrite E. eexists. split; reflexivity. Qed.

Definition pkg_embedded : tree :=
  package "1.0" [el (stix "Observables") []
    [(lq "cybox_major_version", "2"); (lq "cybox_minor_version", "1")] None []].

Lemma versions_case :
  first_of (anywhere [stix "STIX_Package"]) (numbered 0 pkg_1_1) (numbered 0 pkg_1_1) /\
  stix_declared (numbered 0 pkg_1_1) = Some "1.1" /\ other_version "1.1" "1.2" /\
  same_version (Some "1.1.0") "1.1" /\ stix_versions_ok "1.1" (numbered 0 (package "1.1.0" [])) /\
  (exists cv p anc x, embedded "1.0" = Some (cv, p) /\ selected p (numbered 0 pkg_embedded) = [(anc, x)] /\
     cybox_declared x = Some "2.1" /\ other_version "2.1" cv) /\
  cybox_versions_ok "2.0" (numbered 0 obs_2_0).
Proof.
  split; [eexists _, _; vm_compute; reflexivity|]. split; [reflexivity|].
  split; [exists (1, 1, 0)%N, None, (1, 2, 0)%N, None; repeat split; auto using number_1_1, number_1_2; discriminate|].
  split; [exists "1.1.0", (1, 1, 0)%N, None; auto using number_1_1, number_1_1_0|].
  split.
  { split; [|intros cv p E; discriminate]. intros x F. apply first_only in F as (c & E & <-).
    vm_compute in E. injection E as <-. exists "1.1.0", (1, 1, 0)%N, None. auto using number_1_1, number_1_1_0. }
  split.
  { eexists _, _, _, _. split; [reflexivity|]. split; [vm_compute; reflexivity|]. split; [reflexivity|].
    exists (2, 1, 0)%N, None, (2, 0, 0)%N, None; repeat split; auto using number_2_0, number_2_1; discriminate. }
  apply every_selected. repeat constructor. exists "2.0", (2, 0, 0)%N, None. auto using number_2_0.
Qed.

Lemma refusals_case :
  let T := numbered 0 pkg_1_0_1_bad in
  stix_versions_ok "1.0.1" T /\
  untranslatable (stix_1_0_1_rules o0) T = Ok [2; 1] /\ stix_duplicates T = [("ex:t1", [3; 4])] /\
  stix_versions_ok "1.0" (numbered 0 (package "1.0" [])) /\
  untranslatable stix_1_0_rules (numbered 0 (package "1.0" [])) = Ok [] /\
  cybox_versions_ok "2.0.1" (numbered 0 (observables
    [(lq "cybox_major_version", "2"); (lq "cybox_minor_version", "0"); (lq "cybox_update_version", "1")] [])).
Proof.
  intro T. split.
  { split.
    - intros x F. apply first_only in F as (c & E & <-). vm_compute in E. injection E as <-.
      exists "1.0.1", (1, 0, 1)%N, None. auto using number_1_0_1.
    - intros cv p E. unfold embedded in E. simpl in E. injection E as <- <-. apply every_selected. vm_compute. constructor. }
  split; [vm_compute; reflexivity|]. split; [vm_compute; reflexivity|]. split.
  { split.
    - intros x F. apply first_only in F as (c & E & <-). vm_compute in E. injection E as <-.
      exists "1.0", (1, 0, 0)%N, None. auto using number_1_0.
    - intros cv p E. unfold embedded in E. simpl in E. injection E as <- <-. apply every_selected. vm_compute. constructor. }
  split; [vm_compute; reflexivity|].
  apply every_selected. repeat constructor. exists "2.0.1", (2, 0, 1)%N, None. auto using number_2_0_1.
Qed.

Lemma predicts_case :
  registered o0 (STIX_1_0_1_Updater o0) /\ registered o0 (STIX_1_1_Updater o0) /\
  (exists e, up_check (STIX_1_0_1_Updater o0) 0 (default_options o0) (memory [pkg_1_0_1_bad])
             = (Err e, memory [pkg_1_0_1_bad])) /\
  up_check (STIX_1_1_Updater o0) 0 (default_options o0) (memory [pkg_1_1]) = (Ok tt, memory [pkg_1_1]).
Proof.
  split; [unfold registered; simpl; auto 10|]. split; [unfold registered; simpl; auto 10|]. split.
  - eexists. vm_compute. reflexivity.
  - vm_compute. reflexivity.
Qed.

Lemma forced_case :
  (exists e s', updater_update o0 (STIX_1_0_1_Updater o0) (DFile (Some pkg_1_0_1_bad)) None false (memory [])
                = (Err e, s') /\ documented e) /\
  (exists k s1, clean o0 (STIX_1_0_1_Updater o0) (DFile (Some pkg_1_0_1_bad)) None (memory []) = (Ok k, s1) /\
                length (removed_nodes k) = 2) /\
  (exists r s2, updater_update o0 (STIX_1_0_1_Updater o0) (DFile (Some pkg_1_0_1_bad)) None true (memory [])
                = (Ok r, s2)).
Proof.
  split; [eexists _, _; split; [vm_compute; reflexivity|constructor]|].
  split; [eexists _, _; split; [vm_compute; reflexivity|reflexivity]|].
  eexists _, _. vm_compute. reflexivity.
Qed.

Lemma clean_case :
  let T := numbered 0 pkg_1_0_1_bad in
  (exists D dt, stix_dirt o0 "1.0.1" = Some D /\ D T = Ok dt /\ fst dt = [2; 1] /\
     snd dt = [("ex:t1", [3; 4])] /\
     map (fun c => tid (snd c)) (survivors [2; 1] T) = [0; 3; 4] /\
     map (fun x => tid x) (removed_content (create_new_id (o_uuid o0)) 0 dt T) = [2; 1] /\
     map (fun x => length (kids x)) (removed_content (create_new_id (o_uuid o0)) 0 dt T) = [0; 0]).
Proof. eexists _, _. split; [reflexivity|]. vm_compute. repeat split; reflexivity. Qed.

Lemma listed_case :
  (exists r s', clean o0 (STIX_1_0_1_Updater o0) (DFile (Some pkg_1_0_1_bad)) None (memory []) = (Ok r, s') /\
     remapped_ids r = [("ex:t1", [3; 4])]) /\
  (exists r s', clean o0 (Cybox_2_0_1_Updater o0) (DFile (Some obs_2_0)) None (memory []) = (Ok r, s')).
Proof.
  split; [eexists _, _; split; [vm_compute; reflexivity|reflexivity]|].
  eexists _, _. vm_compute. reflexivity.
Qed.

Lemma changes_case :
  (exists r s', updater_update o0 (STIX_1_1_Updater o0) (DFile (Some pkg_1_1)) None false (memory []) = (Ok r, s')) /\
  (exists r s', updater_update o0 Cybox_2_0_Updater (DFile (Some obs_2_0)) None false (memory []) = (Ok r, s')) /\
  (exists f e, stix_step o0 (default_options o0) "1.1" = Some f /\ f (erase pkg_1_1) = Ok e /\
     e <> erase pkg_1_1).
Proof.
  split; [eexists _, _; vm_compute; reflexivity|]. split; [eexists _, _; vm_compute; reflexivity|].
  eexists _, _. split; [reflexivity|]. split; [vm_compute; reflexivity|]. vm_compute. discriminate.
Qed.

Lemma content_case :
  wf_state (memory [obs_2_0; pkg_1_1]) /\
  denotes (memory [obs_2_0; pkg_1_1]) (DElem 4) (fst (renum 4 pkg_1_1)) /\
  denotes (memory []) (DFile (Some pkg_1_1)) pkg_1_1 /\
  erase (fst (renum 4 pkg_1_1)) = erase pkg_1_1 /\
  gen (memory [obs_2_0; pkg_1_1]) = gen (memory []).
Proof.
  split; [apply memory_wf|]. split.
  - exists [], (fst (renum 4 pkg_1_1)). repeat split; vm_compute; auto.
  - repeat split; vm_compute; reflexivity.
Qed.
