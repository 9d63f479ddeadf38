(** * Proofs: which options a result depends on. *)

From Coq Require Import String Ascii List Bool Arith Lia.
From Verif Require Import Str Xml XPath Utils Base Tables Cybox Stix Ramrod Spec SpecDoc SpecPass SpecStep
  SpecCheck SpecClean SpecUpdate SpecIds SpecOptions Lib Api Frame Refine RefineBase RefineTrans RefineLists RefineSteps RefineCheck
  RefineClean Relabel RefineUpdate Natural Updates Reports UpdateFacts Trace.
Import ListNotations.
Local Open Scope string_scope.

Lemma some_inj {A} (a b : A) : Some a = Some b -> a = b.
Proof. congruence. Qed.

(** ** One step *)

Lemma single_unchecked c c' D f new_id force g t oc :
  (c t = Ok tt -> c' t = Ok tt) ->
  (forall d, D t = Ok d -> c' t = Ok tt /\ d = ([], []) \/ exists x, c' t = Err x /\ forceable x = true) ->
  single c D f new_id force g t = Ok oc -> single c' D f new_id force g t = Ok oc.
Proof.
  intros H1 H2. unfold single. destruct (c t) as [[]|x] eqn:C.
  - rewrite H1 by reflexivity. auto.
  - destruct (force && forceable x) eqn:Fo; [|discriminate]. destruct (D t) as [d|] eqn:Ed; [|discriminate]. cbn [rbind].
    destruct (H2 d eq_refl) as [[A ->]|(x' & A & B)]; rewrite A.
    + rewrite cleaned_nothing. destruct (f (erase t)) as [e|]; [|discriminate]. auto.
    + apply andb_true_iff in Fo as [-> _]. rewrite B. auto.
Qed.

Lemma unchecked_untranslatable rules t (d : dirt) :
  rbind (untranslatable rules t) (fun l => Ok (l, [])) = Ok d ->
  nothing_untranslatable rules t = Ok tt /\ d = ([], []) \/ exists x, nothing_untranslatable rules t = Err x /\ forceable x = true.
Proof.
  unfold nothing_untranslatable. destruct (untranslatable rules t) as [[|i l]|]; cbn [rbind]; intro H; [|right; eexists; split; reflexivity|discriminate].
  injection H as <-. auto.
Qed.

Lemma unchecked_to_clean rules dups t (d : dirt) :
  rbind (untranslatable rules t) (fun l => Ok (l, dups t)) = Ok d ->
  nothing_to_clean rules dups t = Ok tt /\ d = ([], []) \/ exists x, nothing_to_clean rules dups t = Err x /\ forceable x = true.
Proof.
  unfold nothing_to_clean. destruct (untranslatable rules t) as [l|]; cbn [rbind]; intro H; [|discriminate]. injection H as <-.
  destruct l as [|i l]; [destruct (dups t)|]; [left; auto|right; eexists; split; reflexivity|right; eexists; split; reflexivity].
Qed.

Lemma in_turn_last l f t : in_turn (l ++ [f]) t = Ok tt -> f t = Ok tt.
Proof.
  induction l as [|h l IH]; cbn [app]; rewrite in_turn_cons.
  - destruct (f t) as [[]|]; [auto|discriminate].
  - destruct (h t); [cbn [rbind]; exact IH|discriminate].
Qed.

Lemma in_turn_single f t : in_turn [f] t = f t.
Proof. rewrite in_turn_cons. unfold in_turn. simpl. destruct (f t) as [[]|]; reflexivity. Qed.

Lemma in_turn_off f l t : in_turn (if_asked false f :: l) t = in_turn l t.
Proof. rewrite in_turn_cons. reflexivity. Qed.

Lemma stix_single_unchecked o p force v g t oc :
  stix_single o p force v g t = Ok oc -> stix_single o (unchecked p) force v g t = Ok oc.
Proof.
  unfold stix_single. intro H.
  destruct (stix_check o p v) as [c|] eqn:C; [|discriminate H]. destruct (stix_dirt o v) as [D|] eqn:Ed; [|discriminate H].
  destruct (stix_step o p v) as [f|] eqn:F; [|discriminate H].
  assert (F' : stix_step o (unchecked p) v = Some f) by exact F. rewrite F'. clear F F'.
  assert (K : exists c', stix_check o (unchecked p) v = Some c' /\ (c t = Ok tt -> c' t = Ok tt) /\
    forall d, D t = Ok d -> c' t = Ok tt /\ d = ([], []) \/ exists x, c' t = Err x /\ forceable x = true).
  { unfold stix_check in *. unfold stix_dirt in Ed. by_version C; apply some_inj in Ed; subst D; (eexists; split; [reflexivity|]); cbn [unchecked check_versions].
    - rewrite !in_turn_off, in_turn_single. split; [apply (in_turn_last [_; _])|apply unchecked_untranslatable].
    - rewrite !in_turn_off, in_turn_single. split; [apply (in_turn_last [_; _])|apply unchecked_to_clean].
    - split; [reflexivity|]. intros d E. injection E as <-. left. auto.
    - split; [reflexivity|]. intros d E. injection E as <-. left. auto.
    - split; [reflexivity|]. discriminate. }
  destruct K as (c' & -> & K1 & K2). eapply single_unchecked; eauto.
Qed.

Lemma cybox_single_unchecked p force v g t oc :
  cybox_single p force v g t = Ok oc -> cybox_single (unchecked p) force v g t = Ok oc.
Proof.
  unfold cybox_single. intro H.
  destruct (cybox_check p v) as [c|] eqn:C; [|discriminate H]. destruct (cybox_dirt v) as [D|] eqn:Ed; [|discriminate H].
  destruct (cybox_step p v) as [f|] eqn:F; [|discriminate H].
  assert (F' : cybox_step (unchecked p) v = Some f) by exact F. rewrite F'. clear F F'.
  assert (K : exists c', cybox_check (unchecked p) v = Some c' /\ (c t = Ok tt -> c' t = Ok tt) /\
    forall d, D t = Ok d -> c' t = Ok tt /\ d = ([], []) \/ exists x, c' t = Err x /\ forceable x = true).
  { unfold cybox_check in *. unfold cybox_dirt in Ed. by_version C; apply some_inj in Ed; subst D; (eexists; split; [reflexivity|]); cbn [unchecked check_versions].
    - split; [reflexivity|]. intros d E. injection E as <-. left. auto.
    - rewrite !in_turn_off, in_turn_single. split; [apply (in_turn_last [_])|apply unchecked_to_clean]. }
  destruct K as (c' & -> & K1 & K2). eapply single_unchecked; eauto.
Qed.

(** Without the check no error is about versions. *)
Lemma untranslatable_errors l t x : untranslatable l t = Err x -> about_versions x = false.
Proof.
  assert (T : forall c x, type_of c = Err x -> about_versions x = false).
  { intros c y. unfold type_of. destruct (attr_get _ _); [|intro H; injection H as <-; reflexivity].
    destruct (split_char _ _) as [|a [|b [|]]]; try (intro H; injection H as <-; reflexivity).
    destruct (env_get _ _); [discriminate|]. intro H; injection H as <-; reflexivity. }
  assert (F : forall l x, first_err type_of l = Some x -> about_versions x = false).
  { induction l0 as [|c l0 IH]; [discriminate|]. cbn. destruct (type_of c) eqn:E; [auto|]. intros y H. injection H as <-. eapply T; eauto. }
  induction l as [|r l IH]; [discriminate|]. cbn [untranslatable].
  destruct (offenders r t) as [a|y] eqn:E; cbn [rbind].
  - destruct (untranslatable l t); [discriminate|]. cbn [rbind]. exact IH.
  - intro H. injection H as <-. destruct r; cbn [offenders] in E; try discriminate.
    destruct (first_err _ _) eqn:Fe; [|discriminate]. injection E as <-. eapply F; eauto.
Qed.

Lemma unchecked_errors c D f new_id force g t x :
  (forall y, c t = Err y -> about_versions y = false) -> (forall y, D t = Err y -> about_versions y = false) ->
  (forall t1 y, f (erase t1) = Err y -> ~ documented y) ->
  single c D f new_id force g t = Err x -> about_versions x = false.
Proof.
  intros Hc HD Hf. unfold single.
  assert (F : forall t1 e, rbind (f (erase t1)) (fun e0 => Ok (Outcome e0 [] [])) = Err e -> about_versions e = false).
  { intros t1 e. destruct (f (erase t1)) eqn:E; [discriminate|]. cbn [rbind]. intro H. injection H as <-. pose proof (Hf _ _ E) as N.
    destruct e0; try reflexivity; exfalso; apply N; constructor. }
  destruct (c t) as [[]|y] eqn:C; [apply F|]. destruct (force && forceable y).
  - destruct (D t) as [d|z] eqn:Ed; cbn [rbind]; [|intro H; injection H as <-; eapply HD; eauto].
    intro H. apply (F (cleaned new_id g d t) x). destruct (f (erase (cleaned new_id g d t))); [discriminate|]. exact H.
  - intro H. injection H as <-. eapply Hc. reflexivity.
Qed.

Lemma untranslatable_then {A} rules t (k : list nat -> res A) x : (forall l y, k l = Err y -> about_versions y = false) ->
  rbind (untranslatable rules t) k = Err x -> about_versions x = false.
Proof.
  intro K. destruct (untranslatable rules t) as [l|y] eqn:E; cbn [rbind]; [apply K|]. intro H. injection H as <-. eapply untranslatable_errors; eauto.
Qed.

Lemma stix_unchecked_errors o p force v g t x :
  dict_get v (STIX_UPDATERS o) <> None -> stix_single o (unchecked p) force v g t = Err x -> about_versions x = false.
Proof.
  intro N. destruct (dict_get v (STIX_UPDATERS o)) as [up|] eqn:U; [|congruence]. clear N.
  destruct (stix_described o (unchecked p) v up U) as (c & D & f & Ec & Ed & Ef & X). unfold stix_single. rewrite Ec, Ed, Ef.
  apply unchecked_errors; [| |intros t1 y; eapply step_errors; eauto]; clear X U.
  - intro y. unfold stix_check in Ec. by_version Ec; cbn [unchecked check_versions]; try discriminate.
    + rewrite !in_turn_off, in_turn_single. apply untranslatable_then. intros [|i l] z; [discriminate|]. intro H. injection H as <-. reflexivity.
    + rewrite !in_turn_off, in_turn_single. apply untranslatable_then. intros l z. destruct l; [destruct (stix_duplicates t)|]; try discriminate; intro H; injection H as <-; reflexivity.
  - intro y. unfold stix_dirt in Ed. by_version Ed; try discriminate.
    + apply untranslatable_then. discriminate.
    + apply untranslatable_then. discriminate.
    + intro H. injection H as <-. reflexivity.
Qed.

Lemma cybox_unchecked_errors o p force v g t x :
  dict_get v (CYBOX_UPDATERS o) <> None -> cybox_single (unchecked p) force v g t = Err x -> about_versions x = false.
Proof.
  intro N. destruct (dict_get v (CYBOX_UPDATERS o)) as [up|] eqn:U; [|congruence]. clear N.
  destruct (cybox_described o (unchecked p) v up U) as (c & D & f & Ec & Ed & Ef & X). unfold cybox_single. rewrite Ec, Ed, Ef.
  apply unchecked_errors; [| |intros t1 y; eapply step_errors; eauto]; clear X U.
  - intro y. unfold cybox_check in Ec. by_version Ec; cbn [unchecked check_versions]; try discriminate.
    rewrite !in_turn_off, in_turn_single. apply untranslatable_then. intros l z. destruct l; [destruct (cybox_duplicates t)|]; try discriminate; intro H; injection H as <-; reflexivity.
  - intro y. unfold cybox_dirt in Ed. by_version Ed; try discriminate.
Qed.

(** The function for new ids. *)
Lemma fresh_none f f' g t : fresh_ids f g [] t = fresh_ids f' g [] t.
Proof. reflexivity. Qed.

Lemma single_ids c D f ids ids' g t : single c D f ids false g t = single c D f ids' false g t.
Proof. unfold single. destruct (c t); reflexivity. Qed.

Lemma renumbered_none (d : dirt) : snd d = [] -> renumbered d = [].
Proof. intro H. unfold renumbered. rewrite H. reflexivity. Qed.

Lemma single_ids_forced c D f ids ids' force g t oc : single c D f ids force g t = Ok oc -> replaced oc = [] ->
  single c D f ids' force g t = Ok oc.
Proof.
  unfold single. destruct (c t); [auto|]. destruct (force && forceable e); [|auto]. destruct (D t) as [d|]; [|auto]. cbn [rbind].
  unfold cleaned, removed_content. destruct (f _) as [e1|] eqn:F; [|discriminate]. cbn [rbind]. intros H R. injection H as <-. cbn [replaced] in R.
  rewrite (renumbered_none d R) in *. rewrite (fresh_none ids' ids), F. reflexivity.
Qed.

Lemma stix_single_ids o p ids v g t : stix_single o (with_ids ids p) false v g t = stix_single o p false v g t.
Proof.
  unfold stix_single. change (stix_check o (with_ids ids p) v) with (stix_check o p v). change (stix_step o (with_ids ids p) v) with (stix_step o p v).
  destruct (stix_check o p v), (stix_dirt o v), (stix_step o p v); auto using single_ids.
Qed.
Lemma cybox_single_ids p ids v g t : cybox_single (with_ids ids p) false v g t = cybox_single p false v g t.
Proof.
  unfold cybox_single. change (cybox_check (with_ids ids p) v) with (cybox_check p v). change (cybox_step (with_ids ids p) v) with (cybox_step p v).
  destruct (cybox_check p v), (cybox_dirt v), (cybox_step p v); auto using single_ids.
Qed.
Lemma stix_single_ids_forced o p ids force v g t oc : stix_single o p force v g t = Ok oc -> replaced oc = [] ->
  stix_single o (with_ids ids p) force v g t = Ok oc.
Proof.
  unfold stix_single. change (stix_check o (with_ids ids p) v) with (stix_check o p v). change (stix_step o (with_ids ids p) v) with (stix_step o p v).
  destruct (stix_check o p v), (stix_dirt o v), (stix_step o p v); auto. apply single_ids_forced.
Qed.
Lemma cybox_single_ids_forced p ids force v g t oc : cybox_single p force v g t = Ok oc -> replaced oc = [] ->
  cybox_single (with_ids ids p) force v g t = Ok oc.
Proof.
  unfold cybox_single. change (cybox_check (with_ids ids p) v) with (cybox_check p v). change (cybox_step (with_ids ids p) v) with (cybox_step p v).
  destruct (cybox_check p v), (cybox_dirt v), (cybox_step p v); auto. apply single_ids_forced.
Qed.

(** ** Chains *)

Definition more_lenient (P : outcome -> Prop) (one two : string -> nat -> tree -> res outcome) : Prop :=
  forall v g t oc, one v g t = Ok oc -> P oc -> two v g t = Ok oc.

Lemma chain_lenient P one two : more_lenient P one two -> forall vs g t e l ds,
  chain one vs g t = Ok (e, l, ds) -> (forall oc, In (replaced oc) ds -> P oc) -> chain two vs g t = Ok (e, l, ds).
Proof.
  intro L. induction vs as [|v vs IH]; intros g t e l ds H Q; [exact H|]. cbn [chain] in *.
  destruct (one v g (numbered 0 t)) as [oc|] eqn:O; [|discriminate]. cbn [rbind] in H.
  destruct (chain one vs _ _) as [[[e1 l1] d1]|] eqn:C; [|discriminate]. cbn [rbind] in H. injection H as <- <- <-.
  rewrite (L _ _ _ _ O) by (apply Q; left; reflexivity). cbn [rbind].
  rewrite (IH _ _ _ _ _ C) by (intros oc' I; apply Q; right; exact I). reflexivity.
Qed.

Lemma chain_ext one two : (forall v g t, one v g t = two v g t) -> forall vs g t, chain one vs g t = chain two vs g t.
Proof.
  intro H. induction vs as [|v vs IH]; intros g t; [reflexivity|]. cbn [chain]. rewrite H. destruct (two v g (numbered 0 t)); [|reflexivity].
  cbn [rbind]. rewrite IH. reflexivity.
Qed.

Lemma chain_errors one (Q : exn -> Prop) vs : (forall v g t x, In v vs -> one v g t = Err x -> Q x) ->
  forall g t x, chain one vs g t = Err x -> Q x.
Proof.
  induction vs as [|v vs IH]; intros H g t x E; [discriminate|]. cbn [chain] in E.
  destruct (one v g (numbered 0 t)) as [oc|y] eqn:O; cbn [rbind] in E.
  - destruct (chain one vs _ _) as [[[e1 l1] d1]|z] eqn:C; [discriminate|]. injection E as <-. eapply IH; [|exact C]. intros; eapply H; [right; eauto|eauto].
  - injection E as <-. eapply H; [left; reflexivity|exact O].
Qed.

(** Nothing reported as replaced means nothing replaced by any step. *)
Lemma dict_set_not_nil {A} k (v : A) d : dict_set k v d <> [].
Proof. destruct d as [|[k' v'] d]; cbn; [discriminate|]. destruct (String.eqb k k'); discriminate. Qed.

Lemma dict_update_nil {A} (e : dict A) : forall d, dict_update d e = [] -> d = [] /\ e = [].
Proof.
  unfold dict_update, dict. induction e as [|[k v] e IH]; intros d H; [auto|]. cbn [fold_left] in H. apply IH in H as [H _].
  elim (dict_set_not_nil _ _ _ H).
Qed.

Lemma merge_nil ds : forall base ns, length ns = length ds -> merge base ns ds = [] -> base = [] /\ forall d, In d ds -> d = [].
Proof.
  induction ds as [|d ds IH]; intros base [|n ns] L H; try discriminate L; [split; [exact H|intros d []]|].
  unfold merge in H. cbn [combine fold_left fst snd] in H. apply (IH _ ns) in H as [H K]; [|auto].
  apply dict_update_nil in H as [A B]. split; [exact A|]. intros d' [<-|I]; [|auto]. destruct d; [reflexivity|discriminate].
Qed.

(** ** Whole updates *)

Lemma runs_lenient P m1 m2 one two vs s t r s' : more_lenient P one two ->
  runs_chain m1 s (chain one vs (gen s) (erase t)) -> runs_chain m2 s (chain two vs (gen s) (erase t)) ->
  m1 s = (Ok r, s') -> (forall oc, P oc) \/ remapped_ids r = [] /\ (forall oc, replaced oc = [] -> P oc) ->
  exists r2 s2, m2 s = (Ok r2, s2) /\ same_results s' r s2 r2.
Proof.
  intros L R1 R2 E Hr. pose proof R1 as R1'. unfold runs_chain in R1'.
  destruct (chain one vs (gen s) (erase t)) as [[[e l] ds]|x] eqn:C.
  - destruct R1' as (r0 & s0 & ns & E0 & W & D & F & Ln & Rm). rewrite E in E0. injection E0 as <- <-.
    assert (Q : forall oc, In (replaced oc) ds -> P oc).
    { destruct Hr as [A|[A HP]]; [intros; apply A|]. rewrite A in Rm. symmetry in Rm. apply merge_nil in Rm as [_ Rm]; [|exact Ln].
      intros oc I. apply HP. exact (Rm _ I). }
    pose proof (chain_lenient P one two L _ _ _ _ _ _ C Q) as C2. rewrite C2 in R2.
    destruct R2 as (r2 & s2 & n2 & E2 & W2 & D2 & F2 & L2 & Rm2). exists r2, s2. split; [exact E2|].
    exists e, l. rewrite Rm, Rm2. repeat (split; auto). apply merge_sizes; auto.
  - destruct R1' as (n & s0 & E0). rewrite E in E0. discriminate.
Qed.

Lemma stix_lenient P o d from to p q force s t r s' : wf_state s -> denotes s d t ->
  more_lenient P (stix_single o p force) (stix_single o q force) ->
  stix_update o d from to (Some p) force s = (Ok r, s') -> (forall oc, P oc) \/ remapped_ids r = [] /\ (forall oc, replaced oc = [] -> P oc) ->
  exists r2 s2, stix_update o d from to (Some q) force s = (Ok r2, s2) /\ same_results s' r s2 r2.
Proof.
  intros W D L E H. pose proof (stix_validation o d from to (Some p) force s t W D) as Va. cbv zeta in Va.
  destruct (stix_start from t) as [a|] eqn:Ea; [|rewrite E in Va; discriminate Va].
  set (b := match given to with Some b => b | None => "1.2.1" end) in *. destruct stix_table_ok as [_ Nt].
  destruct (older_dec STIX_VERSIONS a b Nt) as [Ho|Ho]; [|rewrite (proj1 Va Ho) in E; discriminate E].
  pose proof (slice_between _ _ _ Nt Ho) as B.
  exact (runs_lenient P _ _ _ _ _ _ _ _ _ L (stix_update_runs o d from to (Some p) force s t a _ W D Ea B)
           (stix_update_runs o d from to (Some q) force s t a _ W D Ea B) E H).
Qed.

Lemma cybox_lenient P o d from to p q force s t r s' : wf_state s -> denotes s d t ->
  more_lenient P (cybox_single p force) (cybox_single q force) ->
  cybox_update o d from to (Some p) force s = (Ok r, s') -> (forall oc, P oc) \/ remapped_ids r = [] /\ (forall oc, replaced oc = [] -> P oc) ->
  exists r2 s2, cybox_update o d from to (Some q) force s = (Ok r2, s2) /\ same_results s' r s2 r2.
Proof.
  intros W D L E H. pose proof (cybox_validation o d from to (Some p) force s t W D) as Va. cbv zeta in Va.
  destruct (cybox_start from t) as [a|] eqn:Ea; [|rewrite E in Va; discriminate Va].
  set (b := match given to with Some b => b | None => "2.1" end) in *. destruct cybox_table_ok as [_ Nt].
  destruct (older_dec CYBOX_VERSIONS a b Nt) as [Ho|Ho]; [|rewrite (proj1 Va Ho) in E; discriminate E].
  pose proof (slice_between _ _ _ Nt Ho) as B.
  exact (runs_lenient P _ _ _ _ _ _ _ _ _ L (cybox_update_runs o d from to (Some p) force s t a _ W D Ea B)
           (cybox_update_runs o d from to (Some q) force s t a _ W D Ea B) E H).
Qed.

Lemma entry_lenient P o update d from to p q force s t r s' : entry o update -> wf_state s -> denotes s d t ->
  more_lenient P (stix_single o p force) (stix_single o q force) -> more_lenient P (cybox_single p force) (cybox_single q force) ->
  update d from to (Some p) force s = (Ok r, s') -> (forall oc, P oc) \/ remapped_ids r = [] /\ (forall oc, replaced oc = [] -> P oc) ->
  exists r2 s2, update d from to (Some q) force s = (Ok r2, s2) /\ same_results s' r s2 r2.
Proof.
  intros En W D L1 L2 E H. destruct En as [->|[->| ->]]; [|eapply stix_lenient; eauto|eapply cybox_lenient; eauto].
  destruct (String.eqb_spec (q_local (h_tag (head t))) "STIX_Package") as [N|N].
  - rewrite (ramrod_is_stix o d from to (Some p) force s t W D N) in E. rewrite (ramrod_is_stix o d from to (Some q) force s t W D N). eapply stix_lenient; eauto.
  - destruct (String.eqb_spec (q_local (h_tag (head t))) "Observables") as [N'|N'].
    + rewrite (ramrod_is_cybox o d from to (Some p) force s t W D N') in E. rewrite (ramrod_is_cybox o d from to (Some q) force s t W D N'). eapply cybox_lenient; eauto.
    + pose proof (ramrod_other o d from to (Some p) force s t W D N N') as Z. rewrite E in Z. discriminate Z.
Qed.

Lemma entry_unchecked o update d from to p force s t r s' : entry o update -> wf_state s -> denotes s d t ->
  update d from to (Some p) force s = (Ok r, s') ->
  exists r2 s2, update d from to (Some (unchecked p)) force s = (Ok r2, s2) /\ same_results s' r s2 r2.
Proof.
  intros En W D E. eapply (entry_lenient (fun _ => True)); eauto.
  - intros v g t1 oc H _. apply stix_single_unchecked; auto.
  - intros v g t1 oc H _. apply cybox_single_unchecked; auto.
Qed.

Lemma entry_ids_forced o update d from to p ids force s t r s' : entry o update -> wf_state s -> denotes s d t ->
  update d from to (Some p) force s = (Ok r, s') -> remapped_ids r = [] ->
  exists r2 s2, update d from to (Some (with_ids ids p)) force s = (Ok r2, s2) /\ same_results s' r s2 r2.
Proof.
  intros En W D E R. eapply (entry_lenient (fun oc => replaced oc = [])); eauto.
  - intros v g t1 oc H H1. apply stix_single_ids_forced; auto.
  - intros v g t1 oc H H1. apply cybox_single_ids_forced; auto.
Qed.

Lemma stix_ids o d from to p ids s t : wf_state s -> denotes s d t ->
  agree (stix_update o d from to (Some p) false) (stix_update o d from to (Some (with_ids ids p)) false) s s.
Proof.
  intros W D. pose proof (stix_validation o d from to (Some p) false s t W D) as Va. pose proof (stix_validation o d from to (Some (with_ids ids p)) false s t W D) as Vb.
  cbv zeta in Va, Vb. destruct (stix_start from t) as [a|] eqn:Ea; [|unfold agree; rewrite Va, Vb; apply same_error_refl].
  set (b := match given to with Some b => b | None => "1.2.1" end) in *. destruct stix_table_ok as [_ Nt].
  destruct (older_dec STIX_VERSIONS a b Nt) as [Ho|Ho]; [|unfold agree; rewrite (proj1 Va Ho), (proj1 Vb Ho); apply same_error_refl].
  pose proof (slice_between _ _ _ Nt Ho) as B. eapply runs_agree; [eapply (stix_update_runs o d from to); eauto|].
  pose proof (stix_update_runs o d from to (Some (with_ids ids p)) false s t a _ W D Ea B) as R. cbn [or_default] in *.
  rewrite (chain_ext (stix_single o (with_ids ids p) false) (stix_single o p false)) in R by (intros; apply stix_single_ids). exact R.
Qed.

Lemma cybox_ids o d from to p ids s t : wf_state s -> denotes s d t ->
  agree (cybox_update o d from to (Some p) false) (cybox_update o d from to (Some (with_ids ids p)) false) s s.
Proof.
  intros W D. pose proof (cybox_validation o d from to (Some p) false s t W D) as Va. pose proof (cybox_validation o d from to (Some (with_ids ids p)) false s t W D) as Vb.
  cbv zeta in Va, Vb. destruct (cybox_start from t) as [a|] eqn:Ea; [|unfold agree; rewrite Va, Vb; apply same_error_refl].
  set (b := match given to with Some b => b | None => "2.1" end) in *. destruct cybox_table_ok as [_ Nt].
  destruct (older_dec CYBOX_VERSIONS a b Nt) as [Ho|Ho]; [|unfold agree; rewrite (proj1 Va Ho), (proj1 Vb Ho); apply same_error_refl].
  pose proof (slice_between _ _ _ Nt Ho) as B. eapply runs_agree; [eapply (cybox_update_runs o d from to); eauto|].
  pose proof (cybox_update_runs o d from to (Some (with_ids ids p)) false s t a _ W D Ea B) as R. cbn [or_default] in *.
  rewrite (chain_ext (cybox_single (with_ids ids p) false) (cybox_single p false)) in R by (intros; apply cybox_single_ids). exact R.
Qed.

Lemma entry_ids o update d from to p ids s t : entry o update -> wf_state s -> denotes s d t ->
  agree (update d from to (Some p) false) (update d from to (Some (with_ids ids p)) false) s s.
Proof.
  intros En W D. destruct En as [->|[->| ->]]; [|eapply stix_ids; eauto|eapply cybox_ids; eauto].
  destruct (String.eqb_spec (q_local (h_tag (head t))) "STIX_Package") as [N|N].
  - unfold agree. rewrite !(ramrod_is_stix o d from to _ false s t W D N). eapply stix_ids; eauto.
  - destruct (String.eqb_spec (q_local (h_tag (head t))) "Observables") as [N'|N'].
    + unfold agree. rewrite !(ramrod_is_cybox o d from to _ false s t W D N'). eapply cybox_ids; eauto.
    + pose proof (ramrod_other o d from to (Some p) false s t W D N N') as Z. pose proof (ramrod_other o d from to (Some (with_ids ids p)) false s t W D N N') as Z'.
      unfold agree. destruct (ramrod_update o d from to (Some p) false s), (ramrod_update o d from to (Some (with_ids ids p)) false s).
      cbn [fst] in *. subst. apply same_error_refl.
Qed.

Lemma about_shift n x : about_versions (shift_exn n x) = about_versions x.
Proof. destruct x; reflexivity. Qed.

(** Errors of a whole update without the check are about versions only when
    the arguments are refused. *)
Lemma stix_versions_unchecked o d from to p force s t a vs x s' : wf_state s -> denotes s d t ->
  stix_start from t = Some a -> between STIX_VERSIONS a (match given to with Some b => b | None => "1.2.1" end) vs ->
  stix_update o d from to (Some (unchecked p)) force s = (Err x, s') -> about_versions x = false.
Proof.
  intros W D Sa B E. pose proof (stix_update_runs o d from to (Some (unchecked p)) force s t a vs W D Sa B) as R. unfold runs_chain in R.
  destruct (chain _ _ _ _) as [[[e l] ds]|y] eqn:C; [destruct R as (r & s0 & ns & E0 & _); rewrite E in E0; discriminate E0|].
  destruct R as (n & s0 & E0). rewrite E in E0. injection E0 as -> _. rewrite about_shift. revert C. apply (chain_errors _ (fun y => about_versions y = false)).
  intros v g t1 z Iv. apply stix_unchecked_errors.
  destruct stix_table_ok as [_ Nt]. pose proof (between_not_last STIX_VERSIONS "1.2.1" ["1.0"; "1.0.1"; "1.1"; "1.1.1"; "1.2"] _ _ _ eq_refl Nt B v Iv) as I.
  simpl in I. repeat destruct I as [<-|I]; try discriminate. destruct I.
Qed.

Lemma cybox_versions_unchecked o d from to p force s t a vs x s' : wf_state s -> denotes s d t ->
  cybox_start from t = Some a -> between CYBOX_VERSIONS a (match given to with Some b => b | None => "2.1" end) vs ->
  cybox_update o d from to (Some (unchecked p)) force s = (Err x, s') -> about_versions x = false.
Proof.
  intros W D Sa B E. pose proof (cybox_update_runs o d from to (Some (unchecked p)) force s t a vs W D Sa B) as R. unfold runs_chain in R.
  destruct (chain _ _ _ _) as [[[e l] ds]|y] eqn:C; [destruct R as (r & s0 & ns & E0 & _); rewrite E in E0; discriminate E0|].
  destruct R as (n & s0 & E0). rewrite E in E0. injection E0 as -> _. rewrite about_shift. revert C. apply (chain_errors _ (fun y => about_versions y = false)).
  intros v g t1 z Iv. apply (cybox_unchecked_errors o).
  destruct cybox_table_ok as [_ Nt]. pose proof (between_not_last CYBOX_VERSIONS "2.1" ["2.0"; "2.0.1"] _ _ _ eq_refl Nt B v Iv) as I.
  simpl in I. repeat destruct I as [<-|I]; try discriminate. destruct I.
Qed.
