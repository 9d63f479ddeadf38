(** * Cleaning over and over comes to an end *)

From Coq Require Import String Ascii List Bool Arith Lia.
From Verif Require Import Str Xml Utils Base Tables Cybox Stix Spec SpecDoc SpecPass SpecStep SpecCheck SpecClean
  SpecUpdate SpecReport SpecCleaned SpecTrace SpecRounds Lib Frame Api Refine RefineBase RefineCheck RefineClean Relabel RefineUpdate Updates Reports UpdateFacts
  Samples Cleaned Emptied Trace.
Import ListNotations.
Local Open Scope string_scope.

Definition not_root (r : rule) : Prop := forall T i, NoDup (ids T) -> offends r T i -> i <> tid T.

Lemma strict_not_root T a x : NoDup (ids T) -> In (a, x) (visits [] T) -> a <> [] -> tid x <> tid T.
Proof.
  intros N Hx Na E. destruct (visits_unique T [] a x [] T N Hx (visits_self [] T) E) as [-> _]. contradiction.
Qed.

Lemma inside_ne a : inside a = true -> a <> [].
Proof. destruct a; [discriminate|discriminate]. Qed.

Lemma elements_not_root p : (forall a x, p a x = true -> a <> []) -> not_root (Elements p).
Proof. intros H T i N (a & x & Hx & P & <-). eapply strict_not_root; eauto. Qed.

Lemma instances_not_root name ns : not_root (Instances name ns).
Proof.
  intros T i N (a & x & Hx & P & <-). eapply strict_not_root; eauto. unfold of_type in P. apply andb_prop in P as [P _].
  unfold typed in P. cbn [fst] in P. apply andb_prop in P as [P _]. apply andb_prop in P as [P _]. apply inside_ne. exact P.
Qed.

Lemma child_of_deep ps a : child_of ps a = true -> exists q b, a = q :: b /\ b <> [].
Proof.
  unfold child_of. destruct a as [|q b]; [discriminate|]. intro H. exists q, b. split; auto. destruct b; [|discriminate].
  cbn in H. rewrite ?andb_false_r in H. discriminate H.
Qed.

Lemma parents_not_root p : (forall a x, p a x = true -> exists q b, a = q :: b /\ b <> []) -> not_root (Parents p).
Proof.
  intros H T i N (a & x & Hx & P & q & b & -> & <-). destruct (H _ _ P) as (q' & b' & E & Nb). injection E as <- <-.
  apply (strict_not_root T b q N); auto. apply (visits_parent T [] q b x); auto. discriminate.
Qed.

Lemma any_inside_ne qs a x : any_inside qs a x = true -> a <> [].
Proof. unfold any_inside. intro H. apply andb_prop in H as [H _]. apply inside_ne. exact H. Qed.

Lemma only_holds_not_root q ns : not_root (Elements (only_holds q ns)).
Proof. apply elements_not_root. intros a x H. unfold only_holds in H. apply andb_prop in H as [H _]. eapply any_inside_ne; eauto. Qed.

Lemma cybox_not_root : Forall not_root cybox_2_0_1_rules.
Proof.
  repeat constructor; apply elements_not_root; intros a x H.
  - eapply any_inside_ne; eauto.
  - eapply any_inside_ne; eauto.
  - unfold child_in in H. apply andb_prop in H as [H _]. apply child_of_deep in H as (q & b & -> & _). discriminate.
  - apply andb_prop in H as [H _]. apply andb_prop in H as [H _]. eapply any_inside_ne; eauto.
Qed.

Lemma stix_1_0_not_root : Forall not_root stix_1_0_rules.
Proof. repeat (constructor; [first [apply instances_not_root|apply only_holds_not_root]|]). constructor. Qed.

Lemma stix_1_0_1_not_root o : Forall not_root (stix_1_0_1_rules o).
Proof.
  unfold stix_1_0_1_rules. apply Forall_app. split; [|apply cybox_not_root].
  constructor; [apply instances_not_root|]. constructor; [apply instances_not_root|].
  constructor; [|constructor; [apply only_holds_not_root|constructor; [apply only_holds_not_root|constructor]]].
  apply parents_not_root. intros a x H. apply andb_prop in H as [H _]. unfold child_in in H. apply andb_prop in H as [H _].
  eapply child_of_deep; eauto.
Qed.

(** ** Every round that finds something makes the document smaller *)

Lemma filter_shorter {A} (p : A -> bool) l x : In x l -> p x = false -> List.length (filter p l) < List.length l.
Proof.
  induction l as [|y l IH]; intros H P; [destruct H|]. destruct H as [->|H]; cbn [filter List.length].
  - rewrite P. assert (L : List.length (filter p l) <= List.length l).
    { clear. induction l as [|y l IH]; cbn [filter List.length]; auto. destruct (p y); cbn [List.length]; lia. }
    lia.
  - specialize (IH H P). destruct (p y); cbn [List.length]; lia.
Qed.

Lemma size_visits t : size t = List.length (visits [] t).
Proof. rewrite size_ids, ids_of_visits, map_length. reflexivity. Qed.

Lemma without_smaller l T a x : In (a, x) (visits [] T) -> a <> [] -> In (tid x) l -> size (without l T) < size T.
Proof.
  intros Hx Na Hl. rewrite !size_visits. pose proof (f_equal (@List.length _) (without_survivors l T)) as E. rewrite !map_length in E.
  rewrite E. unfold survivors. eapply filter_shorter; [exact Hx|]. cbn [fst snd]. destruct a as [|p a]; [contradiction|].
  cbn [removelast]. destruct a as [|p' a]; cbn [existsb]; rewrite (proj2 (existsb_exists _ _)); try reflexivity; exists (tid x); split; auto; apply Nat.eqb_refl.
Qed.

Lemma cleaned_smaller f g rules dups T i l : NoDup (ids T) -> Forall not_root rules -> untranslatable rules T = Ok (i :: l) ->
  size (cleaned f g (i :: l, dups) T) < size T.
Proof.
  intros N R E. assert (Hi : In i (i :: l)) by (left; auto).
  destruct (proj1 (untranslatable_spec rules T _ E i) Hi) as (r & Hr & Ho).
  assert (Ni : i <> tid T) by (rewrite Forall_forall in R; exact (R r Hr T i N Ho)).
  assert (Ii : In i (ids T)).
  { destruct Ho as (a & x & Hx & Ho). destruct r as [p|name ns|p].
    - destruct Ho as [_ <-]. eapply visits_tid_in; eauto.
    - destruct Ho as [_ <-]. eapply visits_tid_in; eauto.
    - destruct Ho as (_ & q & b & -> & <-). apply (visits_tid_in T [] b). apply (visits_parent T [] q b x); auto. discriminate. }
  unfold cleaned. cbn [fst]. rewrite fresh_ids_tmap. set (F := renumber f g _).
  assert (K : keeps_ids F) by apply renumber_keeps.
  assert (S : size (tmap F T) = size T) by (rewrite !size_ids, tmap_ids; auto).
  rewrite <- S. destruct (ids_visits (tmap F T) [] i) as (a & x & Hx & Ex); [rewrite tmap_ids; auto|].
  apply (without_smaller _ _ a x Hx).
  - intros ->. apply visits_self_only in Hx; [|rewrite tmap_ids; auto]. subst x. apply Ni. rewrite <- Ex. apply tmap_tid. exact K.
  - rewrite Ex. left. reflexivity.
Qed.

(** ** All rounds *)

Section Rounds.
  Variables (o : oracle) (up : updater) (rules : list rule) (dup : tree -> dict (list nat)).
  Hypothesis performs : forall opts d s t, wf_state s -> denotes s d t ->
    clean_performs (clean o up d opts) s (or_default o opts) (numbered (next s) t)
      (rbind (untranslatable rules (numbered (next s) t)) (fun l => Ok (l, dup (numbered (next s) t)))).
  Hypothesis ins : Forall rule_ins rules.
  Hypothesis low : Forall not_root rules.
  Hypothesis dup_gone : forall f g l T n, NoDup (ids T) -> dup T = [] -> dup (numbered n (erase (cleaned f g (l, []) T))) = [].

  Lemma readable_content C n l : untranslatable rules C = Ok l -> exists l1, untranslatable rules (numbered n (erase C)) = Ok l1.
  Proof.
    intro H. destruct (renumbered_content C n) as (r & E). rewrite E in H. rewrite untranslatable_relabel in H by exact ins.
    destruct (untranslatable rules (numbered n (erase C))); [eauto|discriminate].
  Qed.

  Lemma rounds_end opts k : forall s i e, size e <= k -> wf_state s -> document s i e ->
    (forall n, dup (numbered n e) = []) -> (forall n, exists l, untranslatable rules (numbered n e) = Ok l) ->
    exists n s' j e', n < size e /\ cleaned_over o up opts n s i s' j /\ wf_state s' /\ document s' j e' /\ erase e' = e' /\
      (forall n, untranslatable rules (numbered n e') = Ok []) /\ (forall n, dup (numbered n e') = []).
  Proof.
    induction k as [|k IH]; intros s i e Sz W Dc Du Re; [destruct e; cbn in Sz; lia|].
    destruct (document_denotes s i e Dc) as (t & Dt & Et). set (T := numbered (next s) t).
    assert (ET : T = numbered (next s) e) by (unfold T; rewrite numbered_content, Et; reflexivity).
    assert (Ee : erase e = e) by (rewrite <- Et; apply erase_idem).
    destruct (Re (next s)) as (l & El). destruct l as [|x l].
    - exists 0, s, i, e. split; [destruct e; cbn; lia|]. split; [constructor|]. split; auto. split; auto. split; auto. split; auto.
      intro n. rewrite <- Ee. rewrite <- ET in El. replace (erase e) with (erase T) by (rewrite ET, numbered_erase; auto).
      apply untranslatable_content; auto.
    - pose proof (performs opts (DElem i) s t W Dt) as P. fold T in P. rewrite ET, El, Du in P. cbn [rbind] in P.
      destruct P as (r & s1 & E1 & W1 & D1 & _ & _ & _). set (f := new_id_func (or_default o opts)) in *.
      set (T' := numbered (next s) e) in *. assert (N : NoDup (ids T')) by apply numbered_NoDup.
      set (C := cleaned f (gen s) (x :: l, []) T') in *.
      assert (Sm : size (erase C) < size e).
      { rewrite size_erase_eq. replace (size e) with (size T'); [apply (cleaned_smaller f (gen s) rules [] T' x l); auto|].
        unfold T'. rewrite <- (size_erase_eq (numbered _ _)), numbered_erase, Ee. reflexivity. }
      destruct (IH s1 (r_document r) (erase C)) as (n & s' & j & e' & Ln & Rn & R); auto.
      + lia.
      + intro n. unfold C. apply dup_gone; [exact N|apply Du].
      + intro n. unfold C. rewrite cleaned_G. cbn [flat_map].
        destruct (rules_readable f (gen s) [] (x :: l) rules T' _ El) as (l1 & E'). exact (readable_content _ n l1 E').
      + exists (S n), s', j, e'. split; [lia|]. split; [econstructor; eauto|]. exact R.
  Qed.
End Rounds.

Lemma nothing_without t : without [] t = t.
Proof. rewrite without_rwm. apply rwm_none. Qed.

Lemma bears_none C : NoDup (ids C) -> stix_duplicates C = [] -> forall name i j,
  bears (stix_namespaces ++ cybox_namespaces) name C i -> bears (stix_namespaces ++ cybox_namespaces) name C j -> i = j.
Proof.
  intros N H name i j Hi Hj. destruct (Nat.eq_dec i j) as [|Ne]; auto. exfalso.
  assert (Q : In i (flat_map snd (stix_duplicates C))); [|rewrite H in Q; exact Q].
  apply (groups_listed (stix_namespaces ++ cybox_namespaces) C (stix_duplicates C) N); [intros name' b; apply stix_duplicates_spec|]. eauto.
Qed.

Lemma rounds_1_0 o opts up d s t r s1 :
  dict_get "1.0" (STIX_UPDATERS o) = Some up -> wf_state s -> denotes s d t -> clean o up d opts s = (Ok r, s1) ->
  exists n s' j e, n < List.length (nodes t) /\ cleaned_over o up opts n s1 (r_document r) s' j /\ document s' j e /\
    nothing_untranslatable_left stix_1_0_rules e /\ clean_again_idle o up j e s'.
Proof.
  intros H W Dn E. pose proof (fun op d0 s0 t0 W0 D0 => stix_clean_does o "1.0" up op _ d0 s0 t0 H eq_refl W0 D0) as Pf. cbv beta in Pf.
  pose proof (Pf opts d s t W Dn) as P. unfold clean_performs in P. set (T := numbered (next s) t) in *.
  destruct (untranslatable stix_1_0_rules T) as [l|x] eqn:El; cbn [rbind] in P; [|destruct P as (s2 & E1); rewrite E in E1; discriminate].
  destruct P as (r' & s2 & E1 & W1 & D1 & _). rewrite E in E1. injection E1 as <- <-.
  set (f := new_id_func (or_default o opts)) in *. set (C := cleaned f (gen s) (l, []) T) in *.
  destruct (rounds_end o up stix_1_0_rules (fun _ => []) Pf stix_1_0_rules_ins stix_1_0_not_root (fun _ _ _ _ _ _ _ => eq_refl) opts
              (size (erase C)) s1 (r_document r) (erase C)) as (n & s' & j & e & Ln & Rn & W' & D' & Ee & Nu & _); auto.
  - intro n. unfold C. rewrite cleaned_G. cbn [flat_map]. destruct (rules_readable f (gen s) [] l stix_1_0_rules T _ El) as (l1 & E').
    exact (readable_content _ stix_1_0_rules_ins _ n l1 E').
  - exists n, s', j, e. split.
    + assert (Le : size (erase C) <= size T).
      { rewrite size_erase_eq. destruct l as [|x l].
        - unfold C. rewrite cleaned_nothing. lia.
        - apply Nat.lt_le_incl. exact (cleaned_smaller f (gen s) stix_1_0_rules [] T x l (numbered_NoDup _ _) stix_1_0_not_root El). }
      assert (Sz : size T = List.length (nodes t)).
      { unfold T. rewrite <- (size_erase_eq (numbered _ _)), numbered_erase, size_erase_eq, size_visits, <- (nodes_visits t []), map_length. reflexivity. }
      lia.
    + split; auto. split; auto. split.
      * rewrite <- Ee. replace (erase e) with (erase (numbered 0 e)) by (rewrite numbered_erase; auto). apply nothing_left_rules; auto. apply stix_1_0_rules_ins.
      * apply (idle_again o up (fun T0 => rbind (untranslatable stix_1_0_rules T0) (fun l0 => Ok (l0, []))) j e s' Pf); auto. intro m. cbv beta. rewrite Nu. reflexivity.
Qed.

Lemma stix_dups_gone f g l T n : NoDup (ids T) -> stix_duplicates T = [] ->
  stix_duplicates (numbered n (erase (cleaned f g (l, []) T))) = [].
Proof.
  intros N H. apply stix_shared_content. apply stix_none_shared; [apply cleaned_NoDup; auto|].
  apply ids_distinct; auto.
  - split; intros; cbn in *; lia.
  - rewrite <- H. apply groups_listed; auto. intros name b. apply stix_duplicates_spec.
Qed.

Lemma rounds_1_0_1 o opts up d s t r s1 :
  dict_get "1.0.1" (STIX_UPDATERS o) = Some up -> wf_state s -> denotes s d t -> clean o up d opts s = (Ok r, s1) ->
  fresh_for (new_id_func (or_default o opts)) (gen s) (gen s1) t ->
  exists n s' j e, n < List.length (nodes t) /\ cleaned_over o up opts n s1 (r_document r) s' j /\ document s' j e /\
    nothing_untranslatable_left (stix_1_0_1_rules o) e /\ no_id_shared (stix_namespaces ++ cybox_namespaces) e /\
    clean_again_idle o up j e s'.
Proof.
  intros H W Dn E Fr. pose proof (fun op d0 s0 t0 W0 D0 => stix_clean_does o "1.0.1" up op _ d0 s0 t0 H eq_refl W0 D0) as Pf. cbv beta in Pf.
  pose proof (Pf opts d s t W Dn) as P. unfold clean_performs in P. set (T := numbered (next s) t) in *.
  destruct (untranslatable (stix_1_0_1_rules o) T) as [l|x] eqn:El; cbn [rbind] in P; [|destruct P as (s2 & E1); rewrite E in E1; discriminate].
  destruct P as (r' & s2 & E1 & W1 & D1 & _ & _ & G1). rewrite E in E1. injection E1 as <- <-.
  set (f := new_id_func (or_default o opts)) in *. set (C := cleaned f (gen s) (l, stix_duplicates T) T) in *.
  assert (N : NoDup (ids T)) by apply numbered_NoDup. assert (NC : NoDup (ids C)) by (apply cleaned_NoDup; auto).
  rewrite G1 in Fr. unfold renumbered in Fr. cbn [snd] in Fr. apply (fresh_numbered _ _ _ (next s)) in Fr. fold T in Fr.
  destruct (rounds_end o up (stix_1_0_1_rules o) stix_duplicates Pf (stix_1_0_1_rules_ins o) (stix_1_0_1_not_root o) stix_dups_gone opts
              (size (erase C)) s1 (r_document r) (erase C)) as (n & s' & j & e & Ln & Rn & W' & D' & Ee & Nu & Nd); auto.
  - intro n. apply stix_shared_content. apply stix_none_shared; auto. apply ids_distinct; auto. apply groups_listed; auto.
    intros name b. apply stix_duplicates_spec.
  - intro n. unfold C. rewrite cleaned_G. destruct (rules_readable f (gen s) (flat_map snd (stix_duplicates T)) l (stix_1_0_1_rules o) T _ El) as (l1 & E').
    exact (readable_content _ (stix_1_0_1_rules_ins o) _ n l1 E').
  - exists n, s', j, e. split.
    + assert (Le : size (erase C) <= size T).
      { rewrite size_erase_eq. destruct l as [|x l].
        - assert (Q : without [] (fresh_ids f (gen s) (flat_map snd (stix_duplicates T)) T) = fresh_ids f (gen s) (flat_map snd (stix_duplicates T)) T)
            by apply nothing_without.
          unfold C, cleaned, renumbered. cbn [fst snd]. rewrite Q, fresh_ids_tmap, !size_ids, tmap_ids by apply renumber_keeps. lia.
        - apply Nat.lt_le_incl. exact (cleaned_smaller f (gen s) (stix_1_0_1_rules o) (stix_duplicates T) T x l N (stix_1_0_1_not_root o) El). }
      assert (Sz : size T = List.length (nodes t)).
      { unfold T. rewrite <- (size_erase_eq (numbered _ _)), numbered_erase, size_erase_eq, size_visits, <- (nodes_visits t []), map_length. reflexivity. }
      lia.
    + split; auto. split; auto.
      assert (Ec : e = erase (numbered 0 e)) by (rewrite numbered_erase; auto).
      split; [rewrite Ec; apply nothing_left_rules; auto; apply stix_1_0_1_rules_ins|]. split.
      * rewrite Ec. apply no_shared_content; [apply numbered_NoDup|]. apply bears_none; auto. apply numbered_NoDup.
      * apply (idle_again o up (fun T0 => rbind (untranslatable (stix_1_0_1_rules o) T0) (fun l0 => Ok (l0, stix_duplicates T0))) j e s' Pf); auto.
        intro m. cbv beta. rewrite Nu, Nd. reflexivity.
Qed.

(** ** No fixed number of rounds is enough: [n] Malware elements, one inside
    the other, of which each round removes the innermost. *)

Fixpoint malware (n : nat) : list tree :=
  match n with
  | 0 => []
  | S n' => [el (ttp "Malware") [] [] None (malware n')]
  end.

Definition nested (n : nat) : tree := package "1.0" (malware n).

Fixpoint malware_from (m n : nat) : list tree :=
  match n with
  | 0 => []
  | S n' => [Node (set_id m (head (el (ttp "Malware") [] [] None []))) (malware_from (S m) n')]
  end.

Definition nested_from (m n : nat) : tree := Node (set_id m (head (nested n))) (malware_from (S m) n).

Lemma renum_malware n : forall m q, renum m (Node q (malware n)) = (Node (set_id m q) (malware_from (S m) n), S (m + n)).
Proof.
  induction n as [|n IH]; intros m q; [cbn; rewrite Nat.add_0_r; reflexivity|].
  cbn [malware]. cbn [renum]. unfold el. rewrite IH. cbn. f_equal. lia.
Qed.

Lemma nested_numbered m n : numbered m (nested n) = nested_from m n.
Proof. unfold numbered, nested, package, el. rewrite renum_malware. reflexivity. Qed.

Lemma nested_erase m n : erase (nested_from m n) = nested n.
Proof. rewrite <- nested_numbered, numbered_erase. unfold nested, package, el. cbn [erase]. f_equal. 
  induction n as [|n IH]; cbn; [reflexivity|]. rewrite IH. reflexivity. Qed.

Lemma malware_untyped n : forall m anc, filter typed (flat_map (visits anc) (malware_from m n)) = [].
Proof.
  induction n as [|n IH]; intros m anc; [reflexivity|]. cbn [malware_from flat_map]. rewrite app_nil_r, visits_node.
  cbn [filter]. unfold typed at 1. cbn [fst snd]. replace (has_attr _ _) with false by reflexivity. rewrite andb_false_r. apply IH.
Qed.

Lemma nested_untyped m n : filter typed (visits [] (nested_from m n)) = [].
Proof. unfold nested_from. rewrite visits_node. cbn [filter]. unfold typed at 1. cbn [fst inside andb]. apply malware_untyped. Qed.

Lemma no_instances name ns m n : offenders (Instances name ns) (nested_from m n) = Ok [].
Proof.
  assert (V : filter (of_type name ns) (visits [] (nested_from m n)) = []).
  { destruct (filter (of_type name ns) (visits [] (nested_from m n))) as [|c l] eqn:E; [reflexivity|]. exfalso.
    assert (H : In c (filter (of_type name ns) (visits [] (nested_from m n)))) by (rewrite E; left; auto).
    apply filter_In in H as [H P]. unfold of_type in P. apply andb_prop in P as [P _].
    assert (Q : In c (filter typed (visits [] (nested_from m n)))) by (apply filter_In; auto). rewrite nested_untyped in Q. exact Q. }
  cbn [offenders]. pose proof (nested_untyped m n) as U. unfold ctx in *. rewrite U, V. reflexivity.
Qed.

Lemma no_patterns ns n : forall m anc,
  filter (fun c => only_holds (ttp "Attack_Patterns") ns (fst c) (snd c)) (flat_map (visits anc) (malware_from m n)) = [].
Proof.
  induction n as [|n IH]; intros m anc; [reflexivity|]. cbn [malware_from flat_map]. rewrite app_nil_r, visits_node.
  cbn [filter]. unfold only_holds at 1. cbn [fst snd]. unfold any_inside. cbn [named_in existsb].
  replace (named _ _) with false by reflexivity. cbn [orb]. rewrite andb_false_r. cbn [andb]. apply IH.
Qed.

Lemma innermost n : forall m p anc,
  map (fun c => tid (snd c))
    (filter (fun c => only_holds (ttp "Malware") MAEC (fst c) (snd c)) (flat_map (visits (p :: anc)) (malware_from m (S n)))) = [m + n].
Proof.
  induction n as [|n IH]; intros m p anc.
  - cbn. rewrite Nat.add_0_r. reflexivity.
  - cbn [malware_from flat_map]. rewrite app_nil_r, visits_node. cbn [filter]. unfold only_holds at 1. cbn [fst snd kids forallb].
    replace (type_in _ _ _) with false by reflexivity. cbn [is_elem h_kind head set_id el negb orb andb]. rewrite andb_false_r.
    change [Node _ (malware_from (S (S m)) n)] with (malware_from (S m) (S n)). rewrite IH. f_equal. lia.
Qed.

Lemma nested_found m n : untranslatable stix_1_0_rules (nested_from m (S n)) = Ok [S m + n].
Proof.
  unfold stix_1_0_rules. cbn [untranslatable]. rewrite !no_instances. cbn [rbind offenders app].
  unfold selected, nested_from. rewrite visits_node. cbn [filter fst snd]. unfold only_holds at 1 3. cbn [any_inside inside andb].
  rewrite no_patterns. cbn [map rbind app]. rewrite innermost. reflexivity.
Qed.

Lemma outer_stay n : forall m l, (forall i, In i l -> i = m + n) -> In (m + n) l ->
  flat_map (fun k => match mrem l (fun _ => None) (tid k) with Some l0 => l0 | None => [rwm (mrem l (fun _ => None)) k] end)
    (malware_from m (S n)) = malware_from m n.
Proof.
  induction n as [|n IH]; intros m l Hl Hi.
  - cbn [malware_from flat_map]. unfold mrem. cbn [tid head h_id set_id]. rewrite (proj2 (existsb_exists _ _)); [reflexivity|].
    exists (m + 0). split; auto. apply Nat.eqb_eq. lia.
  - cbn [malware_from flat_map]. rewrite app_nil_r. unfold mrem at 1. cbn [tid head h_id set_id].
    rewrite (unlisted l m) by (intro H; apply Hl in H; lia). cbn [rwm]. f_equal. f_equal.
    change [Node _ (malware_from (S (S m)) n)] with (malware_from (S m) (S n)). apply IH.
    + intros i H. apply Hl in H. lia.
    + replace (S m + n) with (m + S n) by lia. exact Hi.
Qed.

Lemma nested_cleaned f g m n : cleaned f g ([S m + n], []) (nested_from m (S n)) = nested_from m n.
Proof.
  unfold cleaned, renumbered. cbn [fst snd flat_map]. rewrite fresh_ids_nil, without_rwm. unfold nested_from. cbn [rwm]. f_equal.
  apply outer_stay; [|left; reflexivity]. intros i [<-|[]]. reflexivity.
Qed.

Lemma nested_round o opts up s i n : dict_get "1.0" (STIX_UPDATERS o) = Some up -> wf_state s -> document s i (nested (S n)) ->
  exists r s1, clean o up (DElem i) opts s = (Ok r, s1) /\ wf_state s1 /\ document s1 (r_document r) (nested n).
Proof.
  intros H W Dc. destruct (document_denotes s i _ Dc) as (t & Dt & Et).
  pose proof (stix_clean_does o "1.0" up opts _ (DElem i) s t H eq_refl W Dt) as P. cbv beta in P.
  rewrite numbered_content, Et, nested_numbered, nested_found in P. cbn [rbind] in P.
  destruct P as (r & s1 & E & W1 & D1 & _). rewrite nested_cleaned, nested_erase in D1. eauto.
Qed.

Lemma nested_rounds o opts up n : forall k s i, dict_get "1.0" (STIX_UPDATERS o) = Some up -> wf_state s ->
  document s i (nested (n + k)) -> exists s' j, cleaned_over o up opts n s i s' j /\ document s' j (nested k).
Proof.
  induction n as [|n IH]; intros k s i H W Dc; [exists s, i; split; [constructor|exact Dc]|].
  destruct (nested_round o opts up s i (n + k) H W Dc) as (r & s1 & E & W1 & D1).
  destruct (IH k s1 _ H W1 D1) as (s' & j & R & D'). exists s', j. split; auto. econstructor; eauto.
Qed.

Lemma rounds_unbounded o opts up n : dict_get "1.0" (STIX_UPDATERS o) = Some up ->
  exists t, forall s i, wf_state s -> document s i t ->
  exists s' j e, cleaned_over o up opts n s i s' j /\ document s' j e /\ ~ nothing_untranslatable_left stix_1_0_rules e.
Proof.
  intro H. exists (nested (n + 1)). intros s i W Dc. destruct (nested_rounds o opts up n 1 s i H W Dc) as (s' & j & R & D').
  exists s', j, (nested 1). split; auto. split; auto. intro N.
  apply (N (Elements (only_holds (ttp "Malware") MAEC)) 1); [right; right; left; reflexivity|].
  eexists _, _. split; [right; left; reflexivity|]. split; reflexivity.
Qed.

(** The number of rounds is no matter of choice. *)
Lemma cleaned_over_same o up opts n s i s1 j1 : cleaned_over o up opts n s i s1 j1 -> forall s2 j2,
  cleaned_over o up opts n s i s2 j2 -> s1 = s2 /\ j1 = j2.
Proof.
  induction 1 as [s i|n s i r sa s' j E R IH]; intros s2 j2 H2.
  - inversion H2 as [a b|]. auto.
  - inversion H2 as [|n0 a b r0 sb s'' j'' E' R' ]. subst. rewrite E in E'. injection E' as <- <-. apply IH; auto.
Qed.
