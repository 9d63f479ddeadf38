(** * Exactly which STIX documents still need cleaning once they are cleaned *)

From Coq Require Import String Ascii List Bool Arith Lia.
From Verif Require Import Str Xml Utils Base Tables Cybox Stix Spec SpecDoc SpecPass SpecStep SpecCheck SpecClean
  SpecUpdate SpecReport SpecCleaned Lib Frame Api Refine RefineBase RefineCheck RefineClean Relabel RefineUpdate Updates Reports UpdateFacts
  Samples Cleaned.
Import ListNotations.
Local Open Scope string_scope.

Section Emptied.
  Variables (f : nat -> string -> string) (g : nat) (l2 l : list nat).
  Let GG := G (renumber f g l2) l.

  Lemma unlisted i : ~ In i l -> existsb (Nat.eqb i) l = false.
  Proof.
    intro H. destruct (existsb (Nat.eqb i) l) eqn:E; auto. apply existsb_exists in E as (j & Hj & E).
    apply Nat.eqb_eq in E. subst. contradiction.
  Qed.

  Lemma listed i : existsb (Nat.eqb i) l = false -> ~ In i l.
  Proof.
    intros H Hi. rewrite (proj2 (existsb_exists _ _)) in H; [discriminate|]. exists i. split; auto. apply Nat.eqb_refl.
  Qed.

  (** A node that is not taken, below none that is, is a node of the cleaned
      document. *)
  Lemma stays_visited t : forall anc q x, In ((q ++ anc)%list, x) (visits anc t) ->
    (forall w, In w (removelast (x :: q)) -> ~ In (tid w) l) ->
    In (map GG (q ++ anc), GG x) (visits (map GG anc) (GG t)).
  Proof.
    tree_induction t. intros anc q x H Z.
    assert (V : visits (map GG anc) (GG (Node h ks)) = (map GG anc, GG (Node h ks)) ::
                flat_map (visits (map GG (Node h ks :: anc)))
                  (map GG (filter (fun k => negb (existsb (Nat.eqb (tid k)) l)) ks))).
    { pose proof (GG_kids f g l2 l (Node h ks)) as K. cbn [kids] in K. fold GG in K. rewrite <- K. cbn [map].
      destruct (GG (Node h ks)) as [h' ks']. apply visits_node. }
    rewrite V. clear V. rewrite visits_node in H. destruct H as [H|H].
    - injection H as E <-. assert (q = []) as ->.
      { destruct q as [|y q]; auto. exfalso. assert (L : length anc = length ((y :: q) ++ anc)%list) by congruence.
        rewrite app_length in L. cbn in L. lia. }
      left. reflexivity.
    - right. apply in_flat_map in H as (k & Hk & H). pose proof H as H0.
      rewrite visits_anc in H0. apply in_map_iff in H0 as ([c z] & E & Hc). cbn [fst snd] in E. injection E as E ->.
      assert (q = c ++ [Node h ks])%list as ->.
      { apply (app_inv_tail anc). rewrite <- app_assoc. cbn [app]. congruence. }
      rewrite <- app_assoc in *. cbn [app] in *.
      assert (Zc : forall w, In w (x :: c) -> ~ In (tid w) l).
      { intros w Hw. apply Z. rewrite app_comm_cons, removelast_last. exact Hw. }
      assert (Nk : ~ In (tid k) l).
      { destruct c as [|y c].
        - destruct k as [hk kk]. rewrite visits_node in Hc. destruct Hc as [Hc|Hc].
          + injection Hc as <-. apply Zc. left; auto.
          + exfalso. apply in_flat_map in Hc as (m & _ & Hc). rewrite visits_anc in Hc.
            apply in_map_iff in Hc as ([d z] & E' & _). cbn [fst snd] in E'. injection E' as E' _. destruct d; discriminate.
        - assert (exists c', (y :: c)%list = (c' ++ [k])%list) as (c' & Ec).
          { destruct k as [hk kk]. rewrite visits_node in Hc. destruct Hc as [Hc|Hc]; [discriminate|].
            apply in_flat_map in Hc as (m & _ & Hc). rewrite visits_anc in Hc.
            apply in_map_iff in Hc as ([d z] & E' & _). cbn [fst snd] in E'. injection E' as E' _. exists d. auto. }
          apply Zc. right. rewrite Ec. apply in_app_iff. right. left. reflexivity. }
      apply in_flat_map. exists (GG k). split.
      + apply in_map. apply filter_In. split; auto. rewrite unlisted by auto. reflexivity.
      + apply (IH k Hk (Node h ks :: anc) c x); auto. intros w Hw. apply Zc. revert Hw. clear.
        generalize (x :: c). intro L. induction L as [|a L IH]; [intros []|]. destruct L; [intros []|].
        intros [<-|H]; [left; auto|right; auto].
  Qed.

  Lemma stays_in_cleaned T a x : In (a, x) (visits [] T) ->
    (forall w, In w (removelast (x :: a)) -> ~ In (tid w) l) ->
    In (map GG a, GG x) (visits [] (GG T)).
  Proof.
    intros H Z. pose proof (stays_visited T [] a x) as P. rewrite app_nil_r in P. apply P; auto.
  Qed.

  (** Cleaning makes no xsi:type unreadable. *)
  Lemma offenders_readable T r l0 : offenders r T = Ok l0 -> exists l1, offenders r (GG T) = Ok l1.
  Proof.
    destruct r as [p|name ns|p]; cbn [offenders]; eauto. intro H.
    destruct (first_err type_of (filter typed (visits [] T))) eqn:E; [discriminate|].
    assert (E' : first_err type_of (filter typed (visits [] (GG T))) = None).
    { apply first_err_none. intros [b y] Hc. apply filter_In in Hc as [Hc P].
      destruct (GG_survives f g l2 l T b y Hc) as (a & x & Hx & -> & -> & _). rewrite GG_typed in P. rewrite GG_type_of.
      rewrite first_err_none in E. apply E. apply filter_In. auto. }
    rewrite E'. eauto.
  Qed.

  Lemma rules_readable rules T : forall l0, untranslatable rules T = Ok l0 ->
    exists l1, untranslatable rules (GG T) = Ok l1.
  Proof.
    induction rules as [|r rules IH]; intros l0 E; [simpl; eauto|]. simpl in *.
    destruct (offenders r T) as [a|e] eqn:Ea; [|discriminate]. simpl in E.
    destruct (untranslatable rules T) as [b|e] eqn:Eb; [|discriminate].
    destruct (offenders_readable T r a Ea) as (a1 & ->). destruct (IH b eq_refl) as (b1 & ->). simpl. eauto.
  Qed.

  Definition keeps_one (T : tree) (q : qname) (ns : string) : Prop :=
    forall a x, In (a, x) (visits [] T) -> a <> [] -> named q x = true ->
      (forall w, In w (removelast (x :: a)) -> ~ In (tid w) l) ->
      exists k, In k (kids x) /\ is_elem k = true /\ type_in ns (x :: a) k = false /\ ~ In (tid k) l.

  Lemma keeps_one_lasting T q ns : keeps_one T q ns -> lasting f g l2 l T (Elements (only_holds q ns)).
  Proof.
    intros S a x Hx P Z. exfalso. unfold only_holds in P. apply andb_prop in P as [P1 P2]. rewrite GG_any_inside in P1.
    assert (Na : a <> []) by (intros ->; discriminate).
    assert (Nx : named q x = true).
    { unfold any_inside in P1. apply andb_prop in P1 as [_ P1]. cbn in P1. rewrite orb_false_r in P1. exact P1. }
    destruct (S a x Hx Na Nx Z) as (k & Hk & Ek & Tk & Lk).
    rewrite forallb_forall in P2. specialize (P2 (GG k)). unfold GG in P2.
    rewrite GG_elem, <- (map_cons (G (renumber f g l2) l)), GG_type_in, Ek, Tk in P2.
    discriminate P2. rewrite GG_kids. apply in_map. apply filter_In. split; auto. rewrite unlisted by auto. reflexivity.
  Qed.

  Lemma gone_keeps_one rules T q ns : In (Elements (only_holds q ns)) rules ->
    untranslatable rules (GG T) = Ok [] -> keeps_one T q ns.
  Proof.
    intros Hr R a x Hx Na Nx Z.
    destruct (existsb (fun k => is_elem k && negb (type_in ns (x :: a) k) && negb (existsb (Nat.eqb (tid k)) l)) (kids x)) eqn:E.
    - apply existsb_exists in E as (k & Hk & E). apply andb_prop in E as [E E3]. apply andb_prop in E as [E1 E2].
      exists k. apply negb_true_iff in E2, E3. auto using listed.
    - exfalso. apply (proj2 (untranslatable_spec rules _ [] R (tid (GG x)))). exists (Elements (only_holds q ns)). split; auto.
      exists (map GG a), (GG x). split; [apply stays_in_cleaned; auto|]. split; [|reflexivity].
      unfold only_holds, GG. rewrite GG_any_inside.
      assert (A : any_inside [q] a x = true).
      { unfold any_inside. cbn. rewrite Nx. destruct a; [congruence|reflexivity]. }
      rewrite A. cbn [andb]. apply forallb_forall. intros k' Hk. rewrite GG_kids in Hk.
      apply in_map_iff in Hk as (k & <- & Hk). apply filter_In in Hk as [Hk Nk].
      rewrite GG_elem, <- (map_cons (G (renumber f g l2) l)), GG_type_in.
      destruct (is_elem k) eqn:Ek; cbn [negb orb]; auto. destruct (type_in ns (x :: a) k) eqn:Tk; auto. exfalso.
      rewrite (proj2 (existsb_exists _ _)) in E; [discriminate|]. exists k. split; auto. rewrite Ek, Tk. exact Nk.
  Qed.
End Emptied.

Lemma never_emptied_listed rules q ns T l : untranslatable rules T = Ok l ->
  (never_emptied rules q ns T <-> keeps_one l T q ns).
Proof.
  intro E. assert (Q : forall i, ~ In i l <-> forall r, In r rules -> ~ offends r T i).
  { intro i. rewrite (untranslatable_spec rules T l E i). split.
    - intros H r Hr Ho. apply H. eauto.
    - intros H (r & Hr & Ho). eapply H; eauto. }
  split; intros H a x Hx Na Nx Z.
  - destruct (H a x Hx Na Nx) as (k & Hk & Ek & Tk & Lk); [intros w r Hw Hr; apply Q; auto|].
    exists k. rewrite Q. auto.
  - destruct (H a x Hx Na Nx) as (k & Hk & Ek & Tk & Lk); [intros w Hw; apply Q; intros r Hr; apply Z; auto|].
    exists k. rewrite Q in Lk. auto.
Qed.

Lemma nothing_left_back rules C l1 : Forall rule_ins rules -> untranslatable rules C = Ok l1 ->
  nothing_untranslatable_left rules (erase C) -> untranslatable rules C = Ok [].
Proof.
  intros R H N. destruct (renumbered_content C 0) as (r & E). rewrite E in *.
  rewrite untranslatable_relabel in * by auto. rewrite relabel_erase, numbered_erase, !erase_idem in *.
  set (D := numbered 0 (erase C)) in *.
  destruct (untranslatable rules D) as [l0|e] eqn:E0; [|discriminate]. cbn in *.
  destruct l0 as [|i l0]; [reflexivity|]. exfalso.
  destruct (proj1 (untranslatable_spec rules D _ E0 i) (or_introl eq_refl)) as (x & Hx & Ho). exact (N x i Hx Ho).
Qed.

Lemma stix_1_0_exactly o opts up d s t r s' :
  dict_get "1.0" (STIX_UPDATERS o) = Some up -> wf_state s -> denotes s d t ->
  clean o up d opts s = (Ok r, s') ->
  let T := numbered (next s) t in
  exists e, document s' (r_document r) e /\
    (nothing_untranslatable_left stix_1_0_rules e <->
     never_emptied stix_1_0_rules (ttp "Malware") MAEC T /\
     never_emptied stix_1_0_rules (ttp "Attack_Patterns") CAPEC_2_5 T).
Proof.
  intros H W Dn E T. set (f := new_id_func (or_default o opts)) in *.
  pose proof (stix_clean_does o "1.0" up opts _ d s t H eq_refl W Dn) as P. cbv beta in P. fold T in P.
  unfold clean_performs in P. destruct (untranslatable stix_1_0_rules T) as [l|x] eqn:El; cbn [rbind] in P;
    [|destruct P as (s1 & E1); rewrite E in E1; discriminate].
  destruct P as (r' & s1 & E1 & W1 & D1 & _). rewrite E in E1. injection E1 as <- <-. fold f in D1.
  rewrite cleaned_G in D1. cbn [flat_map] in D1. eexists. split; [exact D1|].
  rewrite !(never_emptied_listed _ _ _ _ _ El). split.
  - intro N. destruct (rules_readable f (gen s) [] l stix_1_0_rules T l El) as (l1 & R1).
    pose proof (nothing_left_back _ _ _ stix_1_0_rules_ins R1 N) as R.
    split; (eapply gone_keeps_one; [|exact R]); unfold stix_1_0_rules; simpl; tauto.
  - intros [A B]. apply nothing_left_rules; [apply stix_1_0_rules_ins|].
    eapply rules_gone; [|exact El|apply incl_refl]. unfold stix_1_0_rules.
    constructor; [exact I|]. constructor; [exact I|].
    constructor; [apply keeps_one_lasting; auto|]. constructor; [apply keeps_one_lasting; auto|constructor].
Qed.

Lemma stix_1_0_1_exactly o opts up d s t r s' :
  dict_get "1.0.1" (STIX_UPDATERS o) = Some up -> wf_state s -> denotes s d t ->
  clean o up d opts s = (Ok r, s') -> simple_dates o ->
  let T := numbered (next s) t in
  exists e, document s' (r_document r) e /\
    (nothing_untranslatable_left (stix_1_0_1_rules o) e <->
     never_emptied (stix_1_0_1_rules o) (ttp "Malware") MAEC T /\
     never_emptied (stix_1_0_1_rules o) (ttp "Attack_Patterns") CAPEC_2_6 T).
Proof.
  intros H W Dn E Sd T. set (f := new_id_func (or_default o opts)) in *.
  pose proof (stix_clean_does o "1.0.1" up opts _ d s t H eq_refl W Dn) as P. cbv beta in P. fold T in P.
  unfold clean_performs in P. destruct (untranslatable (stix_1_0_1_rules o) T) as [l|x] eqn:El; cbn [rbind] in P;
    [|destruct P as (s1 & E1); rewrite E in E1; discriminate].
  destruct P as (r' & s1 & E1 & W1 & D1 & _). rewrite E in E1. injection E1 as <- <-. fold f in D1.
  assert (N : NoDup (ids T)) by apply numbered_NoDup.
  rewrite cleaned_G in D1. eexists. split; [exact D1|].
  rewrite !(never_emptied_listed _ _ _ _ _ El). split.
  - intro Nl. destruct (rules_readable f (gen s) (flat_map snd (stix_duplicates T)) l (stix_1_0_1_rules o) T l El) as (l1 & R1).
    pose proof (nothing_left_back _ _ _ (stix_1_0_1_rules_ins o) R1 Nl) as R.
    split; (eapply gone_keeps_one; [|exact R]); unfold stix_1_0_1_rules; simpl; tauto.
  - intros [A B]. apply nothing_left_rules; [apply stix_1_0_1_rules_ins|].
    eapply rules_gone; [|exact El|apply incl_refl]. unfold stix_1_0_1_rules.
    apply Forall_app. split; [|apply cybox_lasting].
    constructor; [exact I|]. constructor; [exact I|].
    constructor; [apply dates_lasting; auto; apply (untranslatable_elements _ T (stix_1_0_1_rules_elem o) l El)|].
    constructor; [apply keeps_one_lasting; auto|]. constructor; [apply keeps_one_lasting; auto|constructor].
Qed.

(** ** A check for examples *)

Definition keeps_one_b (l : list nat) (T : tree) (q : qname) (ns : string) : bool :=
  forallb (fun c =>
    match fst c with [] => true | _ => false end
    || negb (named q (snd c))
    || existsb (fun w => existsb (Nat.eqb (tid w)) l) (removelast (snd c :: fst c))
    || existsb (fun k => is_elem k && negb (type_in ns (snd c :: fst c) k) && negb (existsb (Nat.eqb (tid k)) l))
         (kids (snd c))) (visits [] T).

Lemma keeps_one_check l T q ns : keeps_one_b l T q ns = true <-> keeps_one l T q ns.
Proof.
  unfold keeps_one_b. rewrite forallb_forall. split.
  - intros H a x Hx Na Nx Z. specialize (H (a, x) Hx). cbn [fst snd] in H. rewrite Nx in H.
    apply orb_prop in H as [H|H]; [apply orb_prop in H as [H|H]; [apply orb_prop in H as [H|H]|]|].
    + destruct a; [congruence|discriminate].
    + discriminate.
    + exfalso. apply existsb_exists in H as (w & Hw & H). apply (Z w Hw). apply existsb_exists in H as (i & Hi & H).
      apply Nat.eqb_eq in H. congruence.
    + apply existsb_exists in H as (k & Hk & H). apply andb_prop in H as [H H3]. apply andb_prop in H as [H1 H2].
      exists k. apply negb_true_iff in H2, H3. repeat split; auto. revert H3. apply listed.
  - intros H (a, x) Hx. cbn [fst snd]. destruct a as [|p a]; [reflexivity|]. destruct (named q x) eqn:Nx; [|reflexivity].
    destruct (existsb (fun w => existsb (Nat.eqb (tid w)) l) (removelast (x :: p :: a))) eqn:E; [reflexivity|].
    cbn [negb orb]. destruct (H (p :: a)%list x Hx) as (k & Hk & Ek & Tk & Lk); auto; [discriminate| |].
    + intros w Hw Hl. assert (existsb (fun w => existsb (Nat.eqb (tid w)) l) (removelast (x :: p :: a)) = true).
      { apply existsb_exists. exists w. split; auto. apply existsb_exists. exists (tid w). split; auto. apply Nat.eqb_refl. }
      congruence.
    + apply existsb_exists. exists k. split; auto. rewrite Ek, Tk, unlisted by auto. reflexivity.
Qed.

(** A Malware element that loses one child to the rule about attack patterns
    and keeps another. *)
Definition pkg_half : tree :=
  package "1.0.1"
    [el (qn TTP_NS "Malware") [] [] None
       [el (qn TTP_NS "Malware_Instance") [(Some "capec", CAPEC_2_6)] [(TAG_XSI_TYPE, "capec:CAPEC2.6InstanceType")]
          (Some "m") [];
        el (qn TTP_NS "Malware_Instance") [] [] (Some "n") []]].

Lemma emptied_case :
  let half := numbered 0 pkg_half in
  let hollow := numbered 0 pkg_hollow in
  never_emptied (stix_1_0_1_rules o1) (ttp "Malware") MAEC half /\
  never_emptied (stix_1_0_1_rules o1) (ttp "Attack_Patterns") CAPEC_2_6 half /\
  ~ takes_only (stix_1_0_1_rules o1) (ttp "Malware") MAEC half /\
  ~ never_emptied (stix_1_0_1_rules o1) (ttp "Malware") MAEC hollow.
Proof.
  cbv zeta. split; [|split; [|split]].
  - eapply never_emptied_listed; [vm_compute; reflexivity|]. apply keeps_one_check. vm_compute. reflexivity.
  - eapply never_emptied_listed; [vm_compute; reflexivity|]. apply keeps_one_check. vm_compute. reflexivity.
  - intro H.
    assert (exists l, untranslatable (stix_1_0_1_rules o1) (numbered 0 pkg_half) = Ok l /\ In 2 l) as (l & El & Hl)
      by (eexists; split; [vm_compute; reflexivity|left; reflexivity]).
    apply (untranslatable_spec _ _ _ El) in Hl as (r & Hr & Ho).
    assert (exists anc x k, In (anc, x) (visits [] (numbered 0 pkg_half)) /\ named (ttp "Malware") x = true /\
              In k (kids x) /\ tid k = 2 /\ type_in MAEC (x :: anc) k = false) as (anc & x & k & Hx & Nx & Hk & Tk & Ty).
    { eexists _, _, _. split; [right; left; reflexivity|]. split; [reflexivity|]. split; [left; reflexivity|].
      split; vm_compute; reflexivity. }
    rewrite <- Tk in Ho. rewrite (H anc x k r Hx Nx Hk Hr Ho) in Ty. discriminate.
  - intro H. eapply never_emptied_listed in H; [|vm_compute; reflexivity]. apply keeps_one_check in H.
    vm_compute in H. discriminate.
Qed.
