(** * The command line tool. *)

From Coq Require Import String Ascii List Bool Arith Lia.
From Verif Require Import Str Xml XPath Utils Base Tables Cybox Stix Ramrod Cli Spec SpecDoc SpecPass SpecStep SpecCheck SpecClean
  SpecUpdate SpecReport SpecCli Lib Frame Api Versions NoFail Refine RefineBase RefineTrans RefineCheck RefineClean Relabel RefineUpdate
  Updates Reports Kept.
Import ListNotations.
Local Open Scope string_scope.

(** ** The nodes named by an error *)

Definition exn_nodes (e : exn) : list nat :=
  match e with
  | UpdateError dis dup =>
      ((match dis with Some l => l | None => [] end)
       ++ flat_map snd (match dup with Some d => d | None => [] end))%list
  | InvalidVersionError (Some i) _ _ => [i]
  | _ => []
  end.

Definition points_into (c : tree -> res unit) : Prop :=
  forall T e, c T = Err e -> is_update_failure e = true -> incl (exn_nodes e) (ids T).

Lemma points_asked b c : points_into c -> points_into (if_asked b c).
Proof. intro H. destruct b; [exact H|]. intros T e Q. discriminate. Qed.

Lemma points_turn l : Forall points_into l -> points_into (in_turn l).
Proof.
  intros F T e. unfold in_turn.
  enough (G : forall r, (forall e, r = Err e -> is_update_failure e = true -> incl (exn_nodes e) (ids T)) ->
    fold_left (fun r f => rbind r (fun _ => f T)) l r = Err e -> is_update_failure e = true -> incl (exn_nodes e) (ids T)).
  { apply G. discriminate. }
  induction F as [|c l Hc F IH]; simpl; intros r Hr; [apply Hr|]. apply IH. intros e' E. destruct r as [[]|x]; simpl in E.
  - apply Hc. exact E.
  - apply Hr. exact E.
Qed.

Lemma version_is_names v found i e : version_is v found i = Err e -> is_update_failure e = true -> exn_nodes e = [i].
Proof.
  unfold version_is, is_version_equal. destruct (strict_version v); [destruct (strict_version found)|]; simpl.
  - destruct (sver_compare _ _); intro H; try discriminate; injection H as <-; reflexivity.
  - intro H. injection H as <-. discriminate.
  - intro H. injection H as <-. discriminate.
Qed.

Lemma points_stix_version v : points_into (stix_version_check v).
Proof.
  intros T e. unfold stix_version_check. destruct (selected _ T) as [|[a x] l] eqn:E; [discriminate|]. simpl.
  assert (Hx : In (tid x) (ids T)).
  { assert (Q : In (a, x) (selected (anywhere [stix "STIX_Package"]) T)) by (rewrite E; left; auto).
    apply filter_In in Q as [Q _]. eapply visits_tid_in; eauto. }
  destruct (given _) as [found|].
  - intros H F. rewrite (version_is_names _ _ _ _ H F). intros i [<-|[]]. exact Hx.
  - intros H _. injection H as <-. intros i [].
Qed.

Lemma first_err_at {B} (F : ctx -> res B) l e : first_err F l = Some e -> exists c, In c l /\ F c = Err e.
Proof.
  induction l as [|c l IH]; simpl; [discriminate|]. destruct (F c) eqn:E.
  - intro H. destruct (IH H) as (c' & A & B'). eauto.
  - intro H; injection H as <-. eauto.
Qed.

Lemma points_cybox_version v p : points_into (cybox_version_check v p).
Proof.
  intros T e. unfold cybox_version_check. destruct (first_err _ _) as [x|] eqn:E; [|discriminate].
  intro H. injection H as <-. apply first_err_at in E as ([a y] & Hy & E). apply filter_In in Hy as [Hy _].
  unfold SpecCheck.cybox_version_of in E. simpl in E. destruct (cybox_declared y) as [found|].
  - intro F. rewrite (version_is_names _ _ _ _ E F). intros i [<-|[]]. eapply visits_tid_in; eauto.
  - injection E as <-. intros _ i [].
Qed.

Lemma elements_in rules T l : Forall elem_rule rules -> untranslatable rules T = Ok l -> incl l (ids T).
Proof.
  intros F H i Hi. destruct (untranslatable_elements rules T F l H i Hi) as (a & x & Hx & <- & _). eapply visits_tid_in; eauto.
Qed.

Lemma untranslatable_failure rules T e : untranslatable rules T = Err e -> is_update_failure e = false.
Proof.
  intro H. apply untranslatable_errors in H. destruct e; auto; exfalso; apply H; constructor.
Qed.

Lemma points_untranslatable rules : Forall elem_rule rules -> points_into (nothing_untranslatable rules).
Proof.
  intros F T e. unfold nothing_untranslatable. destruct (untranslatable rules T) as [l|x] eqn:E; simpl.
  - pose proof (elements_in rules T l F E) as I. destruct l as [|i l]; [discriminate|]. intros H _. injection H as <-. simpl. rewrite app_nil_r. exact I.
  - intros H Q. injection H as <-. rewrite (untranslatable_failure _ _ _ E) in Q. discriminate.
Qed.

Lemma points_clean rules dups : Forall elem_rule rules -> (forall T, incl (flat_map snd (dups T)) (ids T)) ->
  points_into (nothing_to_clean rules dups).
Proof.
  intros F D T e. unfold nothing_to_clean. destruct (untranslatable rules T) as [l|x] eqn:E; simpl.
  - pose proof (elements_in rules T l F E) as I. specialize (D T).
    intros H _. assert (Q : e = UpdateError (Some l) (Some (dups T))) by (destruct l; [destruct (dups T); [discriminate|]|]; injection H as <-; reflexivity).
    subst e. simpl. apply incl_app; auto.
  - intros H Q. injection H as <-. rewrite (untranslatable_failure _ _ _ E) in Q. discriminate.
Qed.

Lemma with_bearers_ids nss T l : incl (flat_map snd (with_bearers nss T l)) (ids T).
Proof. intros i Hi. apply with_bearers_in in Hi as (a & x & old & Hx & <- & _). eapply visits_tid_in; eauto. Qed.

Lemma stix_points o opts v c : stix_check o opts v = Some c -> points_into c.
Proof.
  unfold stix_check, dict_get.
  repeat match goal with |- context [String.eqb v ?x] => destruct (String.eqb v x) end; intro H; try discriminate; injection H as <-.
  - apply points_turn. apply Forall_cons; [|apply Forall_cons; [|apply Forall_cons; [|apply Forall_nil]]].
    + apply points_asked, points_stix_version.
    + apply points_asked, points_cybox_version.
    + apply points_untranslatable, stix_1_0_rules_elem.
  - apply points_turn. apply Forall_cons; [|apply Forall_cons; [|apply Forall_cons; [|apply Forall_nil]]].
    + apply points_asked, points_stix_version.
    + apply points_asked, points_cybox_version.
    + apply points_clean; [apply stix_1_0_1_rules_elem|]. intro T. apply with_bearers_ids.
  - apply points_asked, points_stix_version.
  - apply points_asked, points_stix_version.
  - apply points_asked, points_stix_version.
Qed.

Lemma cybox_points opts v c : cybox_check opts v = Some c -> points_into c.
Proof.
  unfold cybox_check, dict_get.
  repeat match goal with |- context [String.eqb v ?x] => destruct (String.eqb v x) end; intro H; try discriminate; injection H as <-.
  - apply points_asked, points_cybox_version.
  - apply points_turn. apply Forall_cons; [|apply Forall_cons; [|apply Forall_nil]].
    + apply points_asked, points_cybox_version.
    + apply points_clean; [apply cybox_2_0_1_rules_elem|]. intro T. apply with_bearers_ids.
Qed.

(** ** They are in memory when the error arrives *)

Definition present (s : st) (i : nat) : Prop := exists anc x, node_at s i anc x.

Definition reportable {A} (r : res A * st) : Prop :=
  forall e, fst r = Err e -> is_update_failure e = true -> Forall (present (snd r)) (exn_nodes e).

Lemma present_in s T i : In T (heap s) -> In i (ids T) -> present s i.
Proof. intros HT Hi. destruct (ids_visits T [] i Hi) as (a & x & Hx & E). exists a, x, T. auto. Qed.

Lemma step_reportable o up c D f d opts force s t :
  In up (map snd (STIX_UPDATERS o) ++ map snd (CYBOX_UPDATERS o)) ->
  describes up (or_default o opts) c D f -> points_into c -> wf_state s -> denotes s d t ->
  reportable (updater_update o up d opts force s).
Proof.
  intros Reg Des P W Dn e He Q. destruct force.
  { destruct (updater_update o up d opts true s) as [x s'] eqn:E. simpl in He. subst x.
    rewrite (forced_not_documented _ _ _ _ _ _ _ Reg E) in Q. discriminate. }
  revert He. unfold updater_update.
  destruct (copied s d t W Dn) as (n1 & E1 & W1). rewrite bind_run, E1. cbv beta zeta.
  set (T := numbered (next s) t) in *. set (s1 := St _ n1 _) in *.
  assert (HT : In T (heap s1)) by (simpl; apply in_app_iff; right; left; auto).
  pose proof Des as (HC & _ & _ & HN). unfold try_catch. rewrite bind_run, (HC s1 T W1 HT). destruct (c T) as [u|x] eqn:Ec.
  - rewrite bind_run. pose proof (HN (tid T) s1) as N.
    destruct (up_update up (tid T) (or_default o opts) s1) as [[j|y] s2]; [discriminate|].
    rewrite andb_false_r. simpl. intro He. injection He as <-. rewrite (other_not_failure y) in Q by (eapply N; reflexivity). discriminate.
  - rewrite andb_false_r. cbn [fst snd]. intro He. injection He as <-. apply Forall_forall. intros i Hi.
    eapply present_in; [exact HT|]. exact (P T x Ec Q i Hi).
Qed.

Lemma reportable_as {A B} e s : reportable (@Err A e, s) -> reportable (@Err B e, s).
Proof. intros R e' H Q. injection H as <-. exact (R e eq_refl Q). Qed.

Lemma steps_reportable o table opts force
  (Hreg : forall v up, dict_get v table = Some up -> In up (map snd (STIX_UPDATERS o) ++ map snd (CYBOX_UPDATERS o)))
  (Hdes : forall v up, dict_get v table = Some up -> exists c D f, describes up (or_default o opts) c D f /\ points_into c) :
  forall vs root removed remapped s t anc, wf_state s -> node_at s root anc t ->
  reportable (run_steps o table vs root opts force removed remapped s).
Proof.
  induction vs as [|v vs IH]; intros root removed remapped s t anc W At; simpl.
  - intros e He. discriminate.
  - destruct (dict_get v table) as [up|] eqn:Eup; [|intros e He Q; injection He as <-; discriminate].
    destruct (Hdes v up Eup) as (c & D & g & Des & P). pose proof (Hreg v up Eup) as Reg.
    assert (Dn : denotes s (DElem root) t) by (exists anc; exact At).
    pose proof (step_reportable o up c D g (DElem root) opts force s t Reg Des P W Dn) as R.
    rewrite bind_run. destruct (updater_update o up (DElem root) opts force s) as [[r|e] s1] eqn:E1; [|exact (reportable_as _ _ R)].
    destruct (step_lists o up c D g (DElem root) opts force s t r s1 Reg Des W Dn E1) as (W1 & _).
    rewrite bind_run. unfold as_element. rewrite bind_run. unfold deref.
    destruct (hfind (r_document r) (heap s1)) as [[b y]|] eqn:Hf; [|intros e He Q; injection He as <-; discriminate].
    cbn [ret]. apply hfind_some in Hf as (X & HX & Hy & _).
    destruct (root_node X b y s1 HX Hy) as (a2 & t2 & At2). eapply IH; eauto.
Qed.

Lemma no_nodes {A} (r : res A * st) : (forall e, fst r = Err e -> is_update_failure e = true -> exn_nodes e = []) -> reportable r.
Proof. intros H e He Q. rewrite (H e He Q). constructor. Qed.

Lemma validate_no_nodes a b vs e : validate_versions a b vs = Err e -> exn_nodes e = [].
Proof.
  assert (V : forall v x, validate_version v vs = Err x -> exn_nodes x = []).
  { intros v x. unfold validate_version. destruct v as [v|]; [|intro H; injection H as <-; reflexivity].
    destruct (negb _); [intro H; injection H as <-; reflexivity|]. destruct (mem_str v vs); [discriminate|].
    intro H; injection H as <-; reflexivity. }
  unfold validate_versions. destruct (validate_version a vs) eqn:E; [|intro H; injection H as <-; eauto].
  destruct (validate_version b vs) eqn:E'; [|intro H; injection H as <-; eauto].
  destruct a; [|intro H; injection H as <-; reflexivity]. destruct b; [|intro H; injection H as <-; reflexivity].
  repeat match goal with |- context [match ?x with _ => _ end] => destruct x end; intro H; try discriminate; injection H as <-; reflexivity.
Qed.

Lemma versioned_reportable o versions table get_version
  (Hreg : forall v up, dict_get v table = Some up -> In up (map snd (STIX_UPDATERS o) ++ map snd (CYBOX_UPDATERS o)))
  (Hdes : forall v up opts, dict_get v table = Some up -> exists c D f, describes up opts c D f /\ points_into c)
  (Hv : forall r, peeks (get_version r))
  (He : forall r s e, fst (get_version r s) = Err e -> exn_nodes e = []) :
  forall d from to opts force s t, wf_state s -> denotes s d t ->
  reportable (versioned_update o versions table get_version d from to opts force s).
Proof.
  intros d from to opts force s t W D. unfold versioned_update. rewrite bind_run.
  destruct (get_etree_root d false s) as [[root|e] s1] eqn:E1.
  2: { exfalso. destruct d as [i|i|[p|]]; simpl in D; try discriminate D; cbn [get_etree_root] in E1; try discriminate E1.
       rewrite copy_push_eq in E1. discriminate E1. }
  assert (L : s1 = loaded s d).
  { destruct d as [i|i|[p|]]; simpl in D; try discriminate D; cbn [get_etree_root] in E1; try (injection E1 as <- <-; reflexivity).
    rewrite copy_push_eq in E1. injection E1 as <- <-. reflexivity. }
  subst s1. destruct (loaded_node s d t root W D E1) as (W1 & G1 & anc & t' & At & _).
  rewrite bind_run.
  assert (P : peeks (if truthy from then ret from else get_version root)) by (destruct (truthy from); [apply peeks_ret|apply Hv]).
  assert (PE : forall e, fst ((if truthy from then ret from else get_version root) (loaded s d)) = Err e -> exn_nodes e = []).
  { destruct (truthy from); [discriminate|apply He]. }
  specialize (P (loaded s d)). destruct ((if truthy from then ret from else get_version root) (loaded s d)) as [[a|e] s1].
  2: { apply no_nodes. intros e' E' _. injection E' as <-. apply PE. reflexivity. }
  simpl in P. subst s1. cbv zeta. rewrite bind_run. unfold liftr at 1. destruct (validate_versions _ _ _) as [[]|e] eqn:Ev.
  2: { apply no_nodes. intros e' E' _. injection E' as <-. eapply validate_no_nodes; eauto. }
  destruct a as [a|]; [|apply no_nodes; intros e' E' _; injection E' as <-; reflexivity].
  destruct (if truthy to then to else Some (last versions "")) as [b|]; [|apply no_nodes; intros e' E' _; injection E' as <-; reflexivity].
  rewrite bind_run.
  pose proof (steps_reportable o table opts force Hreg (fun v up => Hdes v up _) (version_slice a b versions) root [] [] (loaded s d) t' anc W1 At) as R.
  destruct (run_steps _ _ _ _ _ _ _ _ _) as [[[[doc l] dd]|e] s2]; [|exact (reportable_as _ _ R)]. intros e' E'. discriminate.
Qed.

Lemma ramrod_reportable o d from to opts force s t : wf_state s -> denotes s d t ->
  reportable (ramrod_update o d from to opts force s).
Proof.
  intros W D. destruct (String.eqb_spec (q_local (h_tag (head t))) "STIX_Package") as [N|N].
  - rewrite (ramrod_is_stix o d from to opts force s t W D N). eapply versioned_reportable; eauto.
    + intros v up H. apply in_app_iff. left. eapply dict_get_in; eauto.
    + intros v up op H. destruct (stix_described o op v up H) as (c & D' & f & Ec & _ & _ & X). exists c, D', f. split; auto. eapply stix_points; eauto.
    + apply peeks_stix_version.
    + intros r s0 e. unfold stix_node_version. rewrite bind_run. unfold get_hdr. rewrite bind_run. unfold deref.
      destruct (hfind r (heap s0)); simpl; [discriminate|]. intro H. injection H as <-. reflexivity.
  - destruct (String.eqb_spec (q_local (h_tag (head t))) "Observables") as [N'|N'].
    + rewrite (ramrod_is_cybox o d from to opts force s t W D N'). eapply versioned_reportable; eauto.
      * intros v up H. apply in_app_iff. right. eapply dict_get_in; eauto.
      * intros v up op H. destruct (cybox_described o op v up H) as (c & D' & f & Ec & _ & _ & X). exists c, D', f. split; auto. eapply cybox_points; eauto.
      * intro r. apply peeks_bind; [apply peeks_cybox_version|]. intro. apply peeks_ret.
      * intros r s0 e. rewrite bind_run. unfold cybox_node_version. rewrite bind_run. unfold get_hdr. rewrite bind_run. unfold deref.
        destruct (hfind r (heap s0)) as [cc|]; simpl; [|intro H; injection H as <-; reflexivity].
        rewrite cybox_hdr_version_declared. destruct (cybox_declared (snd cc)); simpl; [discriminate|]. intro H; injection H as <-; reflexivity.
    + apply no_nodes. intros e He _. pose proof (ramrod_other o d from to opts force s t W D N N') as Q. rewrite Q in He. injection He as <-. reflexivity.
Qed.

(** ** Printing *)

Lemma present_find s i : present s i -> exists a x, hfind i (heap s) = Some (a, x) /\ node_at s i a x.
Proof.
  intros (a & x & T & HT & Hx & E). destruct (hfind i (heap s)) as [[b y]|] eqn:F.
  - apply hfind_some in F as (X & HX & Hy & Ey). exists b, y. split; auto. exists X. auto.
  - exfalso. unfold hfind in F. pose proof (find_none _ _ F (a, x)) as N. simpl in N.
    assert (Q : In (a, x) (flat_map (visits []) (heap s))) by (apply in_flat_map; eauto). apply N in Q. rewrite E, Nat.eqb_refl in Q. discriminate.
Qed.

Lemma get_hdr_present s i : present s i -> exists a x, get_hdr i s = (Ok (head x), s) /\ node_at s i a x.
Proof.
  intro P. destruct (present_find s i P) as (a & x & F & A). exists a, x. split; auto. unfold get_hdr. rewrite bind_run. unfold deref. rewrite F. reflexivity.
Qed.

Lemma map_m_reads {A B} (m : A -> M B) (R : A -> B -> Prop) s l :
  (forall x, In x l -> exists y, m x s = (Ok y, s) /\ R x y) ->
  exists ys, map_m m l s = (Ok ys, s) /\ Forall2 R l ys.
Proof.
  induction l as [|x l IH]; intro H; simpl; [exists []; split; auto|].
  destruct (H x (or_introl eq_refl)) as (y & E & Ry). destruct (IH (fun z Hz => H z (or_intror Hz))) as (ys & E' & F).
  rewrite bind_run, E, bind_run, E'. exists (y :: ys). split; auto.
Qed.

Lemma tags_print s l : Forall (present s) l ->
  exists qs, map_m (fun i => h <- get_hdr i ;; ret (h_tag h)) l s = (Ok qs, s) /\ Forall2 (called s) l qs.
Proof.
  intro F. apply map_m_reads. intros i Hi. rewrite Forall_forall in F. destruct (get_hdr_present s i (F i Hi)) as (a & x & E & A).
  exists (h_tag (head x)). split; [rewrite bind_run, E; reflexivity|]. exists a, x. auto.
Qed.

(** What is printed comes after what was on the screen. *)
Definition adds (c : screen) (out err : list line) : screen := Screen (stdout c ++ out)%list (stderr c ++ err)%list (outfile c).

Lemma adds_nothing c : adds c [] [] = c.
Proof. destruct c as [a b f]. unfold adds. simpl. rewrite !app_nil_r. reflexivity. Qed.

Lemma adds_twice c a b a' b' : adds (adds c a b) a' b' = adds c (a ++ a')%list (b ++ b')%list.
Proof. unfold adds. simpl. rewrite !app_assoc. reflexivity. Qed.

Lemma t_bind_run {A B} (m : shell A) (k : A -> shell B) c s :
  t_bind m k c s = match m c s with (Ok x, c', s') => k x c' s' | (Err e, c', s') => (Err e, c', s') end.
Proof. reflexivity. Qed.

Lemma t_run_run {A} (m : M A) c s x s' : m s = (x, s') -> t_run m c s = (x, c, s').
Proof. unfold t_run. intros ->. reflexivity. Qed.

Lemma t_each_adds {A B} (f : A -> shell unit) (R : A -> B -> Prop) (out err : B -> list line) s l :
  (forall x, In x l -> exists y, R x y /\ forall c, f x c s = (Ok tt, adds c (out y) (err y), s)) ->
  exists ys, Forall2 R l ys /\ forall c, t_each f l c s = (Ok tt, adds c (flat_map out ys) (flat_map err ys), s).
Proof.
  induction l as [|x l IH]; intro H.
  - exists []. split; [constructor|]. intro c. simpl. rewrite adds_nothing. reflexivity.
  - destruct (H x (or_introl eq_refl)) as (y & Ry & Fy). destruct (IH (fun z Hz => H z (or_intror Hz))) as (ys & Rys & Fys).
    exists (y :: ys). split; [constructor; auto|]. intro c. cbn [t_each]. rewrite t_bind_run, Fy, Fys, adds_twice. reflexivity.
Qed.

Lemma flat_map_one {A} (f : A -> line) (l : list A) : flat_map (fun x => [f x]) l = map f l.
Proof. induction l as [|x l IH]; simpl; [reflexivity|rewrite IH; reflexivity]. Qed.

Lemma flat_map_none {A} (l : list A) : flat_map (fun _ => @nil line) l = [].
Proof. induction l; auto. Qed.

Lemma say_adds l c s : say l c s = (Ok tt, adds c [l] [], s).
Proof. unfold say, adds. simpl. rewrite app_nil_r. reflexivity. Qed.
Lemma complain_adds l c s : complain l c s = (Ok tt, adds c [] [l], s).
Proof. unfold complain, adds. simpl. rewrite app_nil_r. reflexivity. Qed.

Lemma complain_if_adds f x c s : complain_if f x c s = (Ok tt, adds c [] (optional_line f x), s).
Proof. destruct x as [[|a v]|]; unfold optional_line; simpl; [rewrite adds_nothing; reflexivity|apply complain_adds|rewrite adds_nothing; reflexivity]. Qed.

Lemma prints_update_error s dis dup :
  Forall (present s) (match dis with Some l => l | None => [] end) ->
  Forall (fun kv : string * list nat => Forall (present s) (snd kv)) (match dup with Some d => d | None => [] end) ->
  exists out err, explains s (UpdateError dis dup) out err /\ forall c, print_update_error dis dup c s = (Ok tt, adds c out err, s).
Proof.
  intros F1 F2.
  assert (A : exists tags, Forall2 (called s) (match dis with Some l => l | None => [] end) tags /\
    forall c, (match dis with
          | Some (i :: l) =>
              t_bind (complain UntranslatableHeading) (fun _ =>
              t_each (fun i => t_bind (t_run (get_hdr i)) (fun h => complain (Untranslatable (h_tag h)))) (i :: l))
          | _ => t_ret tt
          end) c s = (Ok tt, adds c [] (headed UntranslatableHeading Untranslatable tags), s)).
  { destruct dis as [[|i l]|]; try (exists []; split; [constructor|intro c; simpl; rewrite adds_nothing; reflexivity]).
    destruct (t_each_adds (fun i => t_bind (t_run (get_hdr i)) (fun h => complain (Untranslatable (h_tag h)))) (called s) (fun _ => []) (fun q => [Untranslatable q]) s (i :: l)) as (tags & R & E).
    - intros x Hx. rewrite Forall_forall in F1. destruct (get_hdr_present s x (F1 x Hx)) as (a & y & G & N). exists (h_tag (head y)). split; [exists a, y; auto|].
      intro c. rewrite t_bind_run, (t_run_run _ _ _ _ _ G). apply complain_adds.
    - exists tags. split; [exact R|]. intro c. rewrite t_bind_run, complain_adds, E, adds_twice, flat_map_none, flat_map_one. cbn [app].
      destruct tags as [|q tags]; [inversion R|]. reflexivity. }
  assert (B : exists out, out = (match map fst (match dup with Some d => d | None => [] end) with [] => [] | _ => [DuplicatesHeading] end) /\
    forall c, (match dup with
  | Some (kv :: d) =>
      t_bind (say DuplicatesHeading) (fun _ =>
      t_each (fun kv : string * list nat => t_bind (t_run (map_m get_hdr (snd kv))) (fun _ => complain (Duplicate (fst kv)))) (kv :: d))
  | _ => t_ret tt
  end) c s = (Ok tt, adds c out (map Duplicate (map fst (match dup with Some d => d | None => [] end))), s)).
  { eexists. split; [reflexivity|]. intro c. unfold dict in *. destruct dup as [[|kv d]|]; try (simpl; rewrite adds_nothing; reflexivity).
    destruct (t_each_adds (fun kv : string * list nat => t_bind (t_run (map_m get_hdr (snd kv))) (fun _ => complain (Duplicate (fst kv))))
      (fun kv k => k = fst kv) (fun _ => []) (fun k => [Duplicate k]) s (kv :: d)) as (ks & R & E).
    - intros x Hx. exists (fst x). split; auto. intro c'. rewrite Forall_forall in F2. pose proof (F2 x Hx) as Fx. rewrite Forall_forall in Fx.
      destruct (map_m_reads get_hdr (fun _ _ => True) s (snd x)) as (hs & Eh & _).
      + intros i Hi. destruct (get_hdr_present s i (Fx i Hi)) as (a & y & G & _). eauto.
      + rewrite t_bind_run, (t_run_run _ _ _ _ _ Eh). apply complain_adds.
    - rewrite t_bind_run, say_adds, E, adds_twice, flat_map_none, flat_map_one, app_nil_r. cbn [app].
      assert (ks = map fst (kv :: d)) as ->; [|reflexivity]. clear - R. induction R; simpl; congruence. }
  destruct A as (tags & R & A). destruct B as (out & -> & B). do 2 eexists. split; [eapply ex_update; [exact R|reflexivity]|].
  intro c. unfold print_update_error. rewrite t_bind_run, complain_adds, t_bind_run, A, B, !adds_twice. reflexivity.
Qed.

Lemma prints_invalid s node expected found : (forall i, node = Some i -> present s i) ->
  exists err, explains s (InvalidVersionError node expected found) [] err /\
    forall c, print_invalid_version_error node expected found c s = (Ok tt, adds c [] err, s).
Proof.
  intro P. destruct node as [i|].
  - destruct (present_find s i (P i eq_refl)) as (a & x & E & A).
    assert (Q : deref i s = (Ok (a, x), s)) by (unfold deref; rewrite E; reflexivity).
    destruct (kids x) as [|k ks] eqn:K.
    + eexists. split; [eapply ex_childless; eauto|]. intro c. unfold print_invalid_version_error.
      rewrite t_bind_run, complain_adds, t_bind_run, t_bind_run, (t_run_run _ _ _ _ _ Q). cbn [snd]. rewrite K. cbn [t_ret].
      rewrite t_bind_run, complain_if_adds, complain_if_adds, !adds_twice. reflexivity.
    + eexists. split; [eapply ex_node; eauto; congruence|]. intro c. unfold print_invalid_version_error.
      rewrite t_bind_run, complain_adds, t_bind_run, t_bind_run, (t_run_run _ _ _ _ _ Q). cbn [snd]. rewrite K.
      rewrite complain_adds, t_bind_run, complain_if_adds, complain_if_adds, !adds_twice. reflexivity.
  - eexists. split; [constructor|]. intro c. unfold print_invalid_version_error.
    rewrite t_bind_run, complain_adds, t_bind_run. cbn [t_ret]. rewrite t_bind_run, complain_if_adds, complain_if_adds, !adds_twice. reflexivity.
Qed.

Lemma handles s e : Forall (present s) (exn_nodes e) -> documented e ->
  exists out err, explains s e out err /\ forall c, main_handler e c s = (Ok (Exit 1), adds c out err, s).
Proof.
  intros F Q. destruct Q; simpl in F.
  - apply Forall_app in F as [F1 F2]. destruct (prints_update_error s disallowed duplicates F1) as (out & err & X & P).
    + apply Forall_forall. intros kv Hk. apply Forall_forall. intros i Hi. rewrite Forall_forall in F2. apply F2. apply in_flat_map. exists kv. auto.
    + exists out, err. split; auto. intro c. unfold main_handler. rewrite t_bind_run, P. reflexivity.
  - do 2 eexists. split; [constructor|]. intro c. unfold main_handler, print_unknown_version_error. rewrite t_bind_run, complain_adds. reflexivity.
  - destruct (prints_invalid s node expected found) as (err & X & P).
    + intros i ->. simpl in F. inversion F; auto.
    + exists [], err. split; auto. intro c. unfold main_handler. rewrite t_bind_run, P. reflexivity.
Qed.

Lemma writes_removed s r : Forall (present s) (removed_nodes r) ->
  exists l, tells_removed s r l /\ forall c, write_removed (removed_nodes r) c s = (Ok tt, adds c l [], s).
Proof.
  intro F. destruct (removed_nodes r) as [|i l] eqn:Er.
  - exists []. split; [constructor; exact Er|]. intro c. simpl. rewrite adds_nothing. reflexivity.
  - destruct (t_each_adds (fun i => t_bind (t_run (get_hdr i)) (fun h => say (Removed (h_tag h)))) (called s) (fun q => [Removed q]) (fun _ => []) s (i :: l)) as (tags & R & E).
    + intros x Hx. rewrite Forall_forall in F. destruct (get_hdr_present s x (F x Hx)) as (a & y & G & N). exists (h_tag (head y)). split; [exists a, y; auto|].
      intro c. rewrite t_bind_run, (t_run_run _ _ _ _ _ G). apply say_adds.
    + exists (RemovedHeading :: map Removed tags). split; [apply tr_some; rewrite Er; [discriminate|exact R]|].
      intro c. unfold write_removed. rewrite t_bind_run, say_adds, E, adds_twice, flat_map_none, flat_map_one. reflexivity.
Qed.

Lemma writes_remapped s r :
  (forall old l i, In (old, l) (remapped_ids r) -> In i l -> exists v, (exists h, get_hdr i s = (Ok h, s) /\ attr_get (lq "id") (h_attr h) = Some v) /\ holds_id s i v) ->
  exists l, tells_remapped s r l /\ forall c, write_remapped (remapped_ids r) c s = (Ok tt, adds c l [], s).
Proof.
  intro F. destruct (remapped_ids r) as [|kv d] eqn:Er.
  - exists []. split; [constructor; exact Er|]. intro c. simpl. rewrite adds_nothing. reflexivity.
  - destruct (t_each_adds (fun kv : string * list nat => t_bind (t_run (current_ids (snd kv))) (fun news => say (Remapped (fst kv) news)))
      (fun kv (kv' : string * list string) => fst kv' = fst kv /\ Forall2 (holds_id s) (snd kv) (snd kv')) (fun p => [Remapped (fst p) (snd p)]) (fun _ => []) s (kv :: d)) as (l & R & E).
    + intros [old l] Hk. destruct (map_m_reads (fun i => h <- get_hdr i ;; match attr_get (lq "id") (h_attr h) with Some v => ret v | None => raise KeyError end)
        (holds_id s) s l) as (vs & Ev & Fv).
      * intros i Hi. destruct (F old l i Hk Hi) as (v & (h & G & A) & Hv). exists v. split; auto. rewrite bind_run, G, A. reflexivity.
      * exists (old, vs). split; [split; auto|]. intro c. rewrite t_bind_run, (t_run_run _ _ _ _ _ Ev). apply say_adds.
    + eexists. split; [apply tm_some; [rewrite Er; discriminate|rewrite Er; exact R]|].
      intro c. unfold write_remapped. rewrite t_bind_run, say_adds, E, adds_twice, flat_map_none, flat_map_one. reflexivity.
Qed.

Lemma writes_xml a root s : exists c0, write_xml root (a_outfile a) blank_screen s = (Ok tt, c0, s) /\ forall l, delivered a root (adds c0 l []) l /\ stderr (adds c0 l []) = [].
Proof.
  unfold write_xml, delivered, given. destruct (a_outfile a) as [[|x f]|].
  - rewrite say_adds. eexists. split; [reflexivity|]. intro l. repeat split.
  - eexists. split; [reflexivity|]. intro l. repeat split.
  - rewrite say_adds. eexists. split; [reflexivity|]. intro l. repeat split.
Qed.

Lemma cli_success o a s t r s' : wf_state s -> a_exists a = true -> a_infile a = Some t -> update_of o a (cli_options o a) s = (Ok r, s') ->
  exists removed remapped c, cli_main o a s = (Exit 0, c, s') /\
    tells_removed s' r removed /\ tells_remapped s' r remapped /\ delivered a (r_document r) c (removed ++ remapped) /\ stderr c = [].
Proof.
  intros W Ex In_ E. unfold update_of in E. assert (D : denotes s (DFile (a_infile a)) t) by (simpl; exact In_).
  destruct (ramrod_renumbers _ _ _ _ _ _ _ _ _ _ W D E) as (W' & (call & Rn & _) & C & St).
  destruct (writes_removed s' r) as (rem & R1 & P1).
  { eapply Forall_impl; [|exact St]. intros i (e & T & HT & Ei & _). exists [], T, T. split; auto. split; auto. apply visits_self. }
  destruct (writes_remapped s' r) as (rmp & R2 & P2).
  { intros old l i Hk Hi. destruct (Rn old l i Hk Hi) as (_ & b & x & (T & HT & Hx & Exi) & Ix).
    exists (new_id_func (cli_options o a) (call i) old). split.
    - exists (head x). subst i. split; [exact (get_hdr_in s' T b x W' HT Hx)|exact Ix].
    - exists b, x. split; auto. exists T. auto. }
  destruct (writes_xml a (r_document r) s') as (c0 & Ew & Dl).
  exists rem, rmp, (adds c0 (rem ++ rmp)%list []). split; [|split; [exact R1|split; [exact R2|apply Dl]]].
  unfold cli_main, main_body. rewrite t_bind_run. unfold validate_args. rewrite Ex. cbn [t_run ret].
  rewrite t_bind_run, (t_run_run _ _ _ _ _ E), t_bind_run, Ew, t_bind_run. change (coll_items (r_removed r)) with (removed_nodes r).
  rewrite P1, C, P2, adds_twice. reflexivity.
Qed.

Lemma cli_documented o a s t e s' : wf_state s -> a_exists a = true -> a_infile a = Some t -> update_of o a (cli_options o a) s = (Err e, s') ->
  documented e -> exists out err, cli_main o a s = (Exit 1, Screen out err None, s') /\ explains s' e out err.
Proof.
  intros W Ex In_ E Dc. unfold update_of in E. assert (D : denotes s (DFile (a_infile a)) t) by (simpl; exact In_).
  assert (Q : is_update_failure e = true) by (destruct Dc; reflexivity).
  pose proof (ramrod_reportable o (DFile (a_infile a)) (a_from a) (a_to a) (Some (cli_options o a)) (a_force a) s t W D e) as R.
  rewrite E in R. specialize (R eq_refl Q). destruct (handles s' e R Dc) as (out & err & X & H).
  exists out, err. split; auto. unfold cli_main, main_body. rewrite t_bind_run. unfold validate_args. rewrite Ex. cbn [t_run ret].
  rewrite t_bind_run, (t_run_run _ _ _ _ _ E), H. reflexivity.
Qed.

Lemma cli_undocumented o a s e s' : a_exists a = true -> update_of o a (cli_options o a) s = (Err e, s') -> ~ documented e ->
  cli_main o a s = (Traceback e, blank_screen, s').
Proof.
  intros Ex E N. unfold update_of in E. unfold cli_main, main_body. rewrite t_bind_run. unfold validate_args. rewrite Ex. cbn [t_run ret].
  rewrite t_bind_run, (t_run_run _ _ _ _ _ E). destruct e; try reflexivity; exfalso; apply N; constructor.
Qed.

Lemma cli_missing o a s : a_exists a = false -> cli_main o a s = (Traceback ValueError, blank_screen, s).
Proof. intro E. unfold cli_main, main_body. rewrite t_bind_run. unfold validate_args. rewrite E. reflexivity. Qed.

Lemma meant_options o a opts : meant o a opts -> opts = cli_options o a.
Proof.
  destruct opts as [c n u r]. unfold meant, cli_options. simpl. intros (C & U & R & ->). f_equal.
  - unfold given in C. destruct (a_from a) as [[|ch v]|]; simpl; destruct c; auto.
    + destruct (proj1 C eq_refl) as (v & Q). discriminate.
    + apply C. eauto.
    + destruct (proj1 C eq_refl) as (v & Q). discriminate.
  - destruct (a_disable_vocab_update a), u; simpl; auto; destruct U as [U1 U2]; try (specialize (U1 eq_refl)); try (specialize (U2 eq_refl)); congruence.
  - destruct (a_disable_remove_optionals a), r; simpl; auto; destruct R as [U1 U2]; try (specialize (U1 eq_refl)); try (specialize (U2 eq_refl)); congruence.
Qed.

Lemma options_meant o a : meant o a (cli_options o a).
Proof.
  unfold meant, cli_options. simpl. split; [|split; [destruct (a_disable_vocab_update a)|split; [destruct (a_disable_remove_optionals a)|]]]; simpl; try (split; congruence); auto.
  unfold given. destruct (a_from a) as [[|c v]|]; simpl; split; intro H; eauto; try discriminate; destruct H as (w & Q); discriminate.
Qed.

Lemma unparsed o a opts s : a_infile a = None -> update_of o a opts s = (Err XMLSyntaxError, s).
Proof. intro E. unfold update_of. rewrite E. reflexivity. Qed.

Lemma explains_out s e out err : explains s e out err -> out = [] \/ out = [DuplicatesHeading].
Proof. intro X. destruct X; auto. destruct ids; auto. Qed.

Lemma cli_status o a opts s en c s' : wf_state s -> meant o a opts -> cli_main o a s = (en, c, s') ->
  (exit_status en = 0 <-> a_exists a = true /\ exists r s1, update_of o a opts s = (Ok r, s1)) /\
  (forall r s1, a_exists a = true -> update_of o a opts s = (Ok r, s1) ->
     s' = s1 /\ stderr c = [] /\
     exists removed remapped, tells_removed s1 r removed /\ tells_remapped s1 r remapped /\ delivered a (r_document r) c (removed ++ remapped)) /\
  (exit_status en <> 0 -> exit_status en = 1 /\ outfile c = None /\ (stdout c = [] \/ stdout c = [DuplicatesHeading])).
Proof.
  intros W Me E. apply meant_options in Me. subst opts. destruct (a_exists a) eqn:Ex.
  2: { rewrite (cli_missing o a s Ex) in E. injection E as <- <- <-. simpl. split; [split; [discriminate|intros [Q _]; discriminate]|].
       split; [discriminate|]. auto. }
  destruct (update_of o a (cli_options o a) s) as [[r|e] s1] eqn:U.
  - destruct (a_infile a) as [t|] eqn:I; [|rewrite (unparsed o a _ s I) in U; discriminate].
    destruct (cli_success o a s t r s1 W Ex I U) as (rem & rmp & c0 & C & T1 & T2 & Dl & Se). rewrite C in E. injection E as <- <- <-. simpl.
    split; [split; eauto|]. split; [|congruence]. intros r' s'' _ Q. injection Q as <- <-. split; auto. split; auto. exists rem, rmp. auto.
  - assert (N : exists en' out err, cli_main o a s = (en', Screen out err None, s1) /\ exit_status en' = 1 /\ (out = [] \/ out = [DuplicatesHeading])).
    { destruct (is_update_failure e) eqn:F.
      - destruct (a_infile a) as [t|] eqn:I.
        + destruct (cli_documented o a s t e s1 W Ex I U) as (out & err & C & X); [destruct e; try discriminate; constructor|].
          exists (Exit 1), out, err. split; auto. split; auto. eapply explains_out; eauto.
        + rewrite (unparsed o a _ s I) in U. injection U as <- <-. discriminate.
      - exists (Traceback e), [], []. split; [|split; [reflexivity|auto]]. apply cli_undocumented; auto. intro Q. destruct Q; discriminate. }
    destruct N as (en' & out & err & C & X & Y). rewrite C in E. injection E as <- <- <-. simpl. rewrite X. split; [split; [discriminate|intros (_ & r & s2 & Q); discriminate]|].
    split; [intros r s2 _ Q; discriminate|auto].
Qed.

Lemma cli_caught o a opts s en c s' : wf_state s -> meant o a opts -> cli_main o a s = (en, c, s') ->
  (en = Exit 1 <-> a_exists a = true /\ exists e, fst (update_of o a opts s) = Err e /\ documented e) /\
  (forall e s1, a_exists a = true -> update_of o a opts s = (Err e, s1) ->
     s' = s1 /\ (documented e -> explains s1 e (stdout c) (stderr c)) /\ (~ documented e -> en = Traceback e /\ stdout c = [] /\ stderr c = [])) /\
  (a_exists a = false -> en = Traceback ValueError).
Proof.
  intros W Me E. apply meant_options in Me. subst opts. destruct (a_exists a) eqn:Ex.
  2: { rewrite (cli_missing o a s Ex) in E. injection E as <- <- <-. simpl. split; [split; [discriminate|intros [Q _]; discriminate]|].
       split; [discriminate|auto]. }
  destruct (update_of o a (cli_options o a) s) as [[r|e] s1] eqn:U.
  - destruct (a_infile a) as [t|] eqn:I; [|rewrite (unparsed o a _ s I) in U; discriminate].
    destruct (cli_success o a s t r s1 W Ex I U) as (rem & rmp & c0 & C & _). rewrite C in E. injection E as <- <- <-. simpl.
    split; [split; [discriminate|intros (_ & e & Q & _); discriminate]|]. split; [|discriminate]. intros e' s'' _ Q. discriminate.
  - destruct (is_update_failure e) eqn:F.
    + assert (Dc : documented e) by (destruct e; try discriminate; constructor).
      destruct (a_infile a) as [t|] eqn:I; [|rewrite (unparsed o a _ s I) in U; injection U as <- <-; discriminate].
      destruct (cli_documented o a s t e s1 W Ex I U Dc) as (out & err & C & X). rewrite C in E. injection E as <- <- <-. simpl.
      split; [split; eauto|]. split; [|discriminate]. intros e' s'' _ Q. injection Q as <- <-. split; auto. split; auto. intro; contradiction.
    + assert (Nd : ~ documented e) by (intro Q; destruct Q; discriminate).
      rewrite (cli_undocumented o a s e s1 Ex U Nd) in E. injection E as <- <- <-. simpl.
      split; [split; [discriminate|intros (_ & e' & Q & Q'); injection Q as <-; contradiction]|]. split; [|discriminate].
      intros e' s'' _ Q. injection Q as <- <-. split; auto. split; auto. intro; contradiction.
Qed.

Lemma error_nodes o d from to opts force s t e s' :
  wf_state s -> denotes s d t -> ramrod_update o d from to opts force s = (Err e, s') ->
  match e with
  | UpdateError disallowed duplicates =>
      (forall l i, disallowed = Some l -> In i l -> exists q, called s' i q) /\
      (forall dd k l i, duplicates = Some dd -> In (k, l) dd -> In i l -> exists q, called s' i q)
  | InvalidVersionError (Some i) _ _ => exists q, called s' i q
  | _ => True
  end.
Proof.
  intros W D E. pose proof (ramrod_reportable o d from to opts force s t W D e) as R. rewrite E in R. specialize (R eq_refl).
  assert (C : forall i, present s' i -> exists q, called s' i q).
  { intros i (b & x & H). exists (h_tag (head x)), b, x. auto. }
  destruct e; auto; specialize (R eq_refl); simpl in R; rewrite Forall_forall in R.
  - split.
    + intros l i -> Hi. apply C, R. apply in_app_iff. auto.
    + intros dd k l i -> Hk Hi. apply C, R. apply in_app_iff. right. apply in_flat_map. exists (k, l). auto.
  - destruct node; auto. apply C, R. left. auto.
Qed.

Lemma new_ids_differ o d from to opts force s t r s' old1 l1 i old2 l2 j v w :
  wf_state s -> denotes s d t -> ramrod_update o d from to opts force s = (Ok r, s') ->
  (forall k1 k2 a b, new_id_func (or_default o opts) k1 a = new_id_func (or_default o opts) k2 b -> k1 = k2) ->
  In (old1, l1) (remapped_ids r) -> In i l1 -> In (old2, l2) (remapped_ids r) -> In j l2 -> i <> j ->
  holds_id s' i v -> holds_id s' j w -> v <> w.
Proof.
  intros W D E Inj H1 Hi H2 Hj N Hv Hw Q. subst w.
  destruct (ramrod_renumbers _ _ _ _ _ _ _ _ _ _ W D E) as (W' & (call & C1 & C2) & _).
  assert (U : forall k a b, holds_id s' k a -> holds_id s' k b -> a = b).
  { intros k a b (a1 & x & (T & HT & Hx & <-) & Ix) (a2 & y & (T' & HT' & Hy & Ey) & Iy).
    pose proof (get_hdr_in s' T a1 x W' HT Hx) as G. pose proof (get_hdr_in s' T' a2 y W' HT' Hy) as G'. rewrite Ey in G'.
    rewrite G in G'. injection G' as Q. unfold id_of in *. simpl in *. congruence. }
  apply N. apply C2.
  - apply in_flat_map. exists (old1, l1). auto.
  - apply in_flat_map. exists (old2, l2). auto.
  - destruct (C1 old1 l1 i H1 Hi) as (_ & A). destruct (C1 old2 l2 j H2 Hj) as (_ & B).
    pose proof (U _ _ _ A Hv) as A'. pose proof (U _ _ _ B Hw) as B'. eapply Inj. rewrite A'. symmetry. exact B'.
Qed.
