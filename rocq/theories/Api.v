(** * Facts about the entry points that need no knowledge of the steps. *)

From Coq Require Import String Ascii List Bool Arith Lia.
From Verif Require Import Str Xml XPath Utils Base Cybox Stix Ramrod Lib Frame Spec Samples.
Import ListNotations.
Local Open Scope string_scope.

(** ** Immutability of what existed before *)

Lemma bounded_extends {A} (m : M A) (s : st) :
  wf_state s -> (forall old, safe old m T) ->
  exists new, heap (snd (m s)) = (heap s ++ new)%list.
Proof. intros [_ Hb] H. apply safe_extends; auto. Qed.

(** ** Node lookup *)

Lemma node_at_hfind s i anc t : wf_state s -> node_at s i anc t ->
  hfind i (heap s) = Some (anc, t).
Proof.
  intros [Hn _] (T & HT & Hv & <-). eapply hfind_in; eauto.
Qed.

Lemma hfind_node_at s i anc t : hfind i (heap s) = Some (anc, t) -> node_at s i anc t.
Proof.
  intro H. apply hfind_some in H as (T & HT & Hc & Hi). exists T; auto.
Qed.

Lemma deref_node s i anc t : wf_state s -> node_at s i anc t ->
  deref i s = (Ok (anc, t), s).
Proof. intros W H. unfold deref. rewrite (node_at_hfind _ _ _ _ W H). reflexivity. Qed.

Lemma get_hdr_node s i anc t : wf_state s -> node_at s i anc t ->
  get_hdr i s = (Ok (head t), s).
Proof. intros W H. unfold get_hdr, bind. rewrite (deref_node _ _ _ _ W H). reflexivity. Qed.

(** ** Adding a copy of a tree to the heap *)

Lemma push_copy_wf s t : wf_state s ->
  wf_state (St (heap s ++ [fst (renum (next s) t)])%list (snd (renum (next s) t)) (gen s)).
Proof.
  intros [Hn Hb]. split; simpl.
  - rewrite flat_map_app. simpl. rewrite app_nil_r, renum_ids.
    apply NoDup_app; repeat split; auto.
    + apply seq_NoDup.
    + intros i Hi Hs. apply Hb in Hi. apply in_seq in Hs. lia.
  - intros i Hi. rewrite flat_map_app in Hi. simpl in Hi. rewrite app_nil_r in Hi.
    rewrite renum_next. apply in_app_or in Hi as [Hi|Hi].
    + apply Hb in Hi. lia.
    + rewrite renum_ids in Hi. apply in_seq in Hi. lia.
Qed.

Lemma copy_push_eq s t :
  (t' <- copy_tree t ;; push t') s =
  (Ok (next s), St (heap s ++ [fst (renum (next s) t)])%list (snd (renum (next s) t)) (gen s)).
Proof.
  unfold bind, copy_tree, push. pose proof (renum_tid t (next s)) as Ht.
  destruct (renum (next s) t) as [t' n]; simpl in *. rewrite Ht. reflexivity.
Qed.

Lemma copied_node s t n g : In t (heap s) -> node_at (St (heap s) n g) (tid t) [] t.
Proof. intro H. exists t; repeat split; auto. apply visits_self. Qed.

(** ** C02 *)

Lemma or_default_some o opts : or_default o (Some (or_default o opts)) = or_default o opts.
Proof. reflexivity. Qed.

Lemma updater_update_opts o up d opts force s :
  updater_update o up d (Some (or_default o opts)) force s =
  updater_update o up d opts force s.
Proof. reflexivity. Qed.

Lemma run_steps_opts o table opts force steps : forall root removed remapped s,
  run_steps o table steps root (Some (or_default o opts)) force removed remapped s =
  run_steps o table steps root opts force removed remapped s.
Proof.
  induction steps as [|v vs IH]; intros; simpl; auto.
  destruct (dict_get v table); auto. unfold bind. rewrite updater_update_opts.
  destruct (updater_update o u (DElem root) opts force s) as [[r|e] s1]; auto.
  destruct (as_element (r_document r) s1) as [[r'|e] s2]; auto.
Qed.

Lemma versioned_update_opts o versions table gv d from to opts force s :
  versioned_update o versions table gv d from to (Some (or_default o opts)) force s =
  versioned_update o versions table gv d from to opts force s.
Proof.
  unfold versioned_update, bind. destruct (get_etree_root d false s) as [[root|e] s1]; auto.
  destruct ((if truthy from then ret from else gv root) s1) as [[f|e] s2]; auto.
  simpl. destruct (validate_versions f _ versions) as [u|e]; auto.
  destruct f as [a|]; auto. destruct (if truthy to then to else _) as [b|]; auto.
  rewrite run_steps_opts. reflexivity.
Qed.

(** Reading the version before or inside the language-specific call. *)
Lemma versioned_update_from o versions table gv d from to opts force s :
  (forall i s1, snd (gv i s1) = s1) ->
  match get_etree_root d false s with
  | (Ok root, s1) =>
      (from' <- (if truthy from then ret from else gv root) ;;
       versioned_update o versions table gv (DElem root) from' to opts force) s1
  | (Err e, s1) => (Err e, s1)
  end = versioned_update o versions table gv d from to opts force s.
Proof.
  intro G. unfold versioned_update at 2. unfold bind at 2.
  destruct (get_etree_root d false s) as [[root|e] s1]; auto.
  unfold bind at 1 2.
  destruct (truthy from) eqn:E.
  - cbn [ret]. unfold versioned_update, bind. cbn [get_etree_root ret]. rewrite E. reflexivity.
  - pose proof (G root s1) as Hg. destruct (gv root s1) as [[f|e] s2] eqn:Eg; simpl in Hg; subst; auto.
    unfold versioned_update, bind. cbn [get_etree_root ret].
    destruct (truthy f) eqn:Ef; [reflexivity|]. rewrite Eg. reflexivity.
Qed.

Lemma snd_get_hdr i s : snd (get_hdr i s) = s.
Proof. unfold get_hdr, bind, deref. destruct (hfind i (heap s)); reflexivity. Qed.

Lemma snd_stix_node_version i s : snd (stix_node_version i s) = s.
Proof.
  unfold stix_node_version, bind. pose proof (snd_get_hdr i s).
  destruct (get_hdr i s) as [[h|e] s1]; simpl in *; auto.
Qed.

Lemma snd_cybox_node_version i s :
  snd ((v <- cybox_node_version i ;; ret (Some v)) s) = s.
Proof.
  unfold cybox_node_version, bind. pose proof (snd_get_hdr i s).
  destruct (get_hdr i s) as [[h|e] s1]; simpl in *; auto.
  destruct (cybox_hdr_version h); simpl; auto.
Qed.

(** The root element seen by [ramrod_update]. *)
Lemma get_root_hdr s d t : wf_state s -> denotes s d t ->
  exists root s1 h, get_etree_root d false s = (Ok root, s1) /\ get_hdr root s1 = (Ok h, s1)
                /\ h_tag h = h_tag (head t) /\ h_attr h = h_attr (head t)
                /\ h_kind h = h_kind (head t).
Proof.
  intros W Hd. destruct d as [i|i|p]; simpl in Hd.
  - destruct Hd as [anc Hd]. exists i, s, (head t). simpl.
    rewrite (get_hdr_node _ _ _ _ W Hd). auto.
  - destruct Hd as [anc Hd]. exists i, s, (head t). simpl.
    rewrite (get_hdr_node _ _ _ _ W Hd). auto.
  - subst p. cbn [get_etree_root]. rewrite copy_push_eq.
    eexists _, _, _. split; [reflexivity|]. split.
    + eapply get_hdr_node; [apply push_copy_wf; auto|].
      exists (fst (renum (next s) t)). split; [apply in_or_app; right; left; auto|].
      split; [apply visits_self|apply renum_tid].
    + destruct t as [h ks]. rewrite renum_node. destruct (renum_list (S (next s)) ks). auto.
Qed.

Lemma ramrod_is_stix o d from to opts force s t :
  wf_state s -> denotes s d t -> q_local (h_tag (head t)) = "STIX_Package" ->
  ramrod_update o d from to opts force s = stix_update o d from to opts force s.
Proof.
  intros W Hd Hl. destruct (get_root_hdr s d t W Hd) as (root & s1 & h & E1 & E2 & E3 & _).
  unfold ramrod_update. unfold bind at 1. rewrite E1. unfold bind at 1. rewrite E2.
  rewrite E3, Hl. change (String.eqb "STIX_Package" "STIX_Package") with true. cbv iota.
  unfold stix_update.
  rewrite <- (versioned_update_from o STIX_VERSIONS (STIX_UPDATERS o) stix_node_version
                d from to opts force s snd_stix_node_version), E1.
  unfold bind. destruct (truthy from).
  - cbn [ret]. apply versioned_update_opts.
  - unfold stix_get_version, bind. cbn [get_etree_root ret].
    destruct (stix_node_version root s1) as [[f|e] s2]; auto. apply versioned_update_opts.
Qed.

Lemma ramrod_is_cybox o d from to opts force s t :
  wf_state s -> denotes s d t -> q_local (h_tag (head t)) = "Observables" ->
  ramrod_update o d from to opts force s = cybox_update o d from to opts force s.
Proof.
  intros W Hd Hl. destruct (get_root_hdr s d t W Hd) as (root & s1 & h & E1 & E2 & E3 & _).
  unfold ramrod_update. unfold bind at 1. rewrite E1. unfold bind at 1. rewrite E2.
  rewrite E3, Hl. change (String.eqb "Observables" "STIX_Package") with false.
  change (String.eqb "Observables" "Observables") with true. cbv iota.
  unfold cybox_update.
  rewrite <- (versioned_update_from o CYBOX_VERSIONS (CYBOX_UPDATERS o)
                (fun root => v <- cybox_node_version root ;; ret (Some v))
                d from to opts force s snd_cybox_node_version), E1.
  destruct (truthy from).
  - rewrite !bind_run. cbn [ret]. apply versioned_update_opts.
  - unfold cybox_get_version. cbn [get_etree_root]. rewrite !bind_run. cbn [ret].
    destruct (cybox_node_version root s1) as [[f|e] s2]; auto. apply versioned_update_opts.
Qed.

Lemma ramrod_other o d from to opts force s t :
  wf_state s -> denotes s d t ->
  q_local (h_tag (head t)) <> "STIX_Package" -> q_local (h_tag (head t)) <> "Observables" ->
  fst (ramrod_update o d from to opts force s) = Err (UpdateError None None).
Proof.
  intros W Hd H1 H2. destruct (get_root_hdr s d t W Hd) as (root & s1 & h & E1 & E2 & E3 & _).
  unfold ramrod_update. unfold bind at 1. rewrite E1. unfold bind at 1. rewrite E2.
  rewrite E3. apply String.eqb_neq in H1, H2. rewrite H1, H2. reflexivity.
Qed.

(** ** C03: validation of the version arguments *)

Lemma given_truthy x : truthy x = true <-> exists a, given x = Some a.
Proof.
  destruct x as [[|c s]|]; simpl; split; try discriminate; eauto; intros [a H]; discriminate.
Qed.

Lemma given_some x a : given x = Some a -> x = Some a /\ truthy x = true.
Proof. destruct x as [[|c s]|]; simpl; intro H; inversion H; auto. Qed.

Lemma given_none x : given x = None <-> truthy x = false.
Proof. destruct x as [[|c s]|]; simpl; split; congruence. Qed.

Section Validate.
  Variable versions : list string.
  (** What must hold of a version table; both tables satisfy it by computation. *)
  Definition table_ok : bool :=
    forallb (fun a => truthy (Some a)) versions &&
    forallb (fun a => forallb (fun b =>
      match strict_version a, strict_version b with
      | Some x, Some y =>
          match sver_compare x y with
          | Lt => Nat.ltb (index_of a versions) (index_of b versions)
          | _ => negb (Nat.ltb (index_of a versions) (index_of b versions))
          end
      | _, _ => false
      end) versions) versions.

  Lemma index_of_split l1 a l2 : ~ In a l1 -> index_of a (l1 ++ a :: l2) = length l1.
  Proof.
    induction l1 as [|x l1 IH]; simpl; intro H.
    - rewrite seqb_refl. reflexivity.
    - destruct (String.eqb_spec x a) as [E|E]; [exfalso; auto|]. rewrite IH; auto.
  Qed.

  Lemma older_index a b : NoDup versions ->
    older versions a b <->
    In a versions /\ In b versions /\ index_of a versions < index_of b versions.
  Proof.
    intro Hn. split.
    - intros (l1 & l2 & l3 & E). rewrite E in Hn. rewrite E.
      assert (Ha : ~ In a l1).
      { apply NoDup_remove_2 in Hn. intro H; apply Hn, in_or_app; auto. }
      assert (Hb : ~ In b (l1 ++ a :: l2)).
      { replace (l1 ++ a :: l2 ++ b :: l3)%list with ((l1 ++ a :: l2) ++ b :: l3)%list in Hn
          by (rewrite <- app_assoc; reflexivity).
        apply NoDup_remove_2 in Hn. intro H; apply Hn, in_or_app; auto. }
      split; [|split].
      + apply in_or_app; right; left; auto.
      + apply in_or_app; right; right. apply in_or_app; right; left; auto.
      + rewrite (index_of_split l1 a _ Ha).
        replace (l1 ++ a :: l2 ++ b :: l3)%list with ((l1 ++ a :: l2) ++ b :: l3)%list
          by (rewrite <- app_assoc; reflexivity).
        rewrite (index_of_split _ b _ Hb), app_length. simpl. lia.
    - intros (Ha & Hb & Hlt).
      apply in_split in Ha as (l1 & l2 & E).
      assert (Ha : ~ In a l1).
      { rewrite E in Hn. apply NoDup_remove_2 in Hn. intro H; apply Hn, in_or_app; auto. }
      rewrite E in Hlt. rewrite (index_of_split _ _ _ Ha) in Hlt.
      rewrite E in Hb. apply in_app_or in Hb as [Hb|[Hb|Hb]].
      + exfalso. apply in_split in Hb as (m1 & m2 & E1).
        assert (Hb1 : ~ In b m1).
        { rewrite E, E1 in Hn. rewrite <- app_assoc in Hn. simpl in Hn.
          apply NoDup_remove_2 in Hn. intro H; apply Hn, in_or_app; auto. }
        rewrite E1, <- app_assoc in Hlt. simpl in Hlt.
        rewrite (index_of_split _ _ _ Hb1), app_length in Hlt. lia.
      + subst b. rewrite (index_of_split _ _ _ Ha) in Hlt. lia.
      + apply in_split in Hb as (m1 & m2 & E1). exists l1, m1, m2. congruence.
  Qed.

  Lemma validate_version_given v : table_ok = true ->
    validate_version v versions =
    match given v with
    | None => Err UnknownVersionError
    | Some a => if mem_str a versions then Ok tt else Err (InvalidVersionError None None None)
    end.
  Proof.
    intros _. destruct v as [[|c s]|]; simpl; auto.
  Qed.

  Lemma validate_ok a b : NoDup versions -> table_ok = true ->
    (older versions a b -> validate_versions (Some a) (Some b) versions = Ok tt) /\
    (a <> "" -> b <> "" -> ~ older versions a b ->
     validate_versions (Some a) (Some b) versions = Err (InvalidVersionError None None None)).
  Proof.
    intros Hn Hok. pose proof Hok as Hok'. unfold table_ok in Hok'.
    apply andb_true_iff in Hok' as [Ht Hc].
    rewrite forallb_forall in Ht, Hc.
    assert (Hcmp : In a versions -> In b versions ->
      match strict_version a, strict_version b with
      | Some x, Some y =>
          match sver_compare x y with
          | Lt => index_of a versions < index_of b versions
          | _ => ~ index_of a versions < index_of b versions
          end
      | _, _ => False
      end).
    { intros Ha Hb. specialize (Hc a Ha). rewrite forallb_forall in Hc. specialize (Hc b Hb).
      destruct (strict_version a) as [x|], (strict_version b) as [y|]; try discriminate.
      destruct (sver_compare x y); try (apply Nat.ltb_lt; auto);
        apply negb_true_iff, Nat.ltb_ge in Hc; lia. }
    split.
    - intro H. apply older_index in H as (Ha & Hb & Hlt); auto.
      unfold validate_versions. rewrite !validate_version_given by auto.
      assert (Ga : given (Some a) = Some a) by (destruct a; auto; apply Ht in Ha; discriminate).
      assert (Gb : given (Some b) = Some b) by (destruct b; auto; apply Ht in Hb; discriminate).
      rewrite Ga, Gb.
      pose proof Ha as Ha'; apply mem_str_In in Ha'. rewrite Ha'.
      pose proof Hb as Hb'; apply mem_str_In in Hb'. rewrite Hb'.
      specialize (Hcmp Ha Hb).
      destruct (strict_version a), (strict_version b); try tauto.
      destruct (sver_compare s s0); try tauto; auto.
    - intros Na Nb H. unfold validate_versions. rewrite !validate_version_given by auto.
      assert (Ga : given (Some a) = Some a) by (destruct a; auto; congruence).
      assert (Gb : given (Some b) = Some b) by (destruct b; auto; congruence).
      rewrite Ga, Gb.
      destruct (mem_str a versions) eqn:Ea; auto. destruct (mem_str b versions) eqn:Eb; auto.
      apply mem_str_In in Ea, Eb. specialize (Hcmp Ea Eb).
      assert (Hlt : ~ index_of a versions < index_of b versions).
      { intro Hlt; apply H, older_index; auto. }
      destruct (strict_version a), (strict_version b); try tauto.
      destruct (sver_compare s s0); try tauto; auto.
  Qed.
End Validate.

Lemma stix_table_ok : table_ok STIX_VERSIONS = true /\ NoDup STIX_VERSIONS.
Proof.
  split; [vm_compute; reflexivity|].
  repeat constructor; simpl; intuition discriminate.
Qed.

Lemma cybox_table_ok : table_ok CYBOX_VERSIONS = true /\ NoDup CYBOX_VERSIONS.
Proof.
  split; [vm_compute; reflexivity|].
  repeat constructor; simpl; intuition discriminate.
Qed.

(** The shared driver, once the version of the document is known. *)
Lemma versioned_bad o versions table gv d from to opts force s root s1 v :
  table_ok versions = true -> NoDup versions -> (exists b, given (Some (last versions "")) = Some b) ->
  get_etree_root d false s = (Ok root, s1) ->
  (if truthy from then ret from else gv root) s1 = (Ok v, s1) ->
  (given v = None ->
   versioned_update o versions table gv d from to opts force s = (Err UnknownVersionError, s1)) /\
  (forall a b, given v = Some a ->
     b = match given to with Some b => b | None => last versions "" end ->
     ~ older versions a b ->
     versioned_update o versions table gv d from to opts force s
     = (Err (InvalidVersionError None None None), s1)).
Proof.
  intros Ht Hn Hl E1 E2. split.
  - intro G. unfold versioned_update. rewrite bind_run, E1, bind_run, E2. cbv zeta.
    rewrite bind_run. unfold liftr, validate_versions.
    rewrite validate_version_given by auto. rewrite G. reflexivity.
  - intros a b G -> Ho. unfold versioned_update. rewrite bind_run, E1, bind_run, E2. cbv zeta.
    rewrite bind_run. unfold liftr.
    apply given_some in G as [-> Ga].
    assert (Hto : (if truthy to then to else Some (last versions ""))
                  = Some (match given to with Some b => b | None => last versions "" end)).
    { destruct to as [[|c w]|]; reflexivity. }
    rewrite Hto.
    destruct (validate_ok versions a (match given to with Some b => b | None => last versions "" end)
                Hn Ht) as [_ Hbad].
    rewrite Hbad; auto.
    + intros ->; discriminate.
    + destruct to as [[|c w]|]; simpl; try discriminate;
        destruct Hl as [b Hl]; destruct (last versions ""); discriminate.
Qed.

Lemma versioned_good o versions table gv d from to opts force s root s1 v a b :
  table_ok versions = true -> NoDup versions ->
  get_etree_root d false s = (Ok root, s1) ->
  (if truthy from then ret from else gv root) s1 = (Ok v, s1) ->
  given v = Some a -> b = match given to with Some b => b | None => last versions "" end ->
  older versions a b ->
  versioned_update o versions table gv d from to opts force s =
  (r <- run_steps o table (version_slice a b versions) root opts force [] [] ;;
   let '(doc, removed, remapped) := r in
   ret (update_results doc (CList removed) (CDict remapped))) s1.
Proof.
  intros Ht Hn E1 E2 G -> Ho.
  unfold versioned_update. rewrite bind_run, E1, bind_run, E2. cbv zeta.
  apply given_some in G as [-> Ga].
  assert (Hto : (if truthy to then to else Some (last versions ""))
                = Some (match given to with Some b => b | None => last versions "" end)).
  { destruct to as [[|c w]|]; reflexivity. }
  rewrite Hto, bind_run. unfold liftr.
  destruct (validate_ok versions a (match given to with Some b => b | None => last versions "" end)
              Hn Ht) as [Hok _].
  rewrite Hok; auto.
Qed.

(** The state after reading the document argument. *)
Definition loaded (s : st) (d : docarg) : st :=
  match d with
  | DFile (Some t) =>
      St (heap s ++ [fst (renum (next s) t)])%list (snd (renum (next s) t)) (gen s)
  | _ => s
  end.

Lemma get_root_loaded s d t : wf_state s -> denotes s d t ->
  exists root h, get_etree_root d false s = (Ok root, loaded s d)
    /\ get_hdr root (loaded s d) = (Ok h, loaded s d)
    /\ h_tag h = h_tag (head t) /\ h_attr h = h_attr (head t).
Proof.
  intros W Hd. destruct (get_root_hdr s d t W Hd) as (root & s1 & h & E1 & E2 & E3 & E4 & _).
  assert (s1 = loaded s d).
  { destruct d as [i|i|[p|]]; simpl in *; try (inversion E1; auto).
    rewrite copy_push_eq in E1. inversion E1. reflexivity. }
  subst s1. exists root, h. auto.
Qed.

Lemma stix_source s d t from : wf_state s -> denotes s d t ->
  exists root v, get_etree_root d false s = (Ok root, loaded s d)
    /\ (if truthy from then ret from else stix_node_version root) (loaded s d) = (Ok v, loaded s d)
    /\ given v = stix_start from t.
Proof.
  intros W Hd. destruct (get_root_loaded s d t W Hd) as (root & h & E1 & E2 & E3 & E4).
  exists root. unfold stix_start.
  destruct (truthy from) eqn:Ef.
  - exists from. repeat split; auto. apply given_truthy in Ef as [a Ha]. rewrite Ha. auto.
  - exists (attr_get (lq "version") (h_attr h)). split; auto. split.
    + unfold stix_node_version. rewrite bind_run, E2. reflexivity.
    + apply given_none in Ef. rewrite Ef, E4. reflexivity.
Qed.

Lemma stix_validation o d from to opts force s t :
  wf_state s -> denotes s d t ->
  let b := match given to with Some b => b | None => "1.2.1" end in
  match stix_start from t with
  | None => stix_update o d from to opts force s = (Err UnknownVersionError, loaded s d)
  | Some a =>
      (~ older STIX_VERSIONS a b ->
       stix_update o d from to opts force s
       = (Err (InvalidVersionError None None None), loaded s d)) /\
      (older STIX_VERSIONS a b ->
       exists root, get_etree_root d false s = (Ok root, loaded s d) /\
       stix_update o d from to opts force s =
       (r <- run_steps o (STIX_UPDATERS o) (version_slice a b STIX_VERSIONS) root opts force [] [] ;;
        let '(doc, removed, remapped) := r in
        ret (update_results doc (CList removed) (CDict remapped))) (loaded s d))
  end.
Proof.
  intros W Hd b. destruct (stix_source s d t from W Hd) as (root & v & E1 & E2 & E3).
  destruct stix_table_ok as [Ht Hn].
  assert (Hl : exists b, given (Some (last STIX_VERSIONS "")) = Some b) by (exists "1.2.1"; reflexivity).
  destruct (versioned_bad o STIX_VERSIONS (STIX_UPDATERS o) stix_node_version d from to opts force
              s root (loaded s d) v Ht Hn Hl E1 E2) as [Hu Hi].
  rewrite <- E3. destruct (given v) as [a|] eqn:G.
  - split.
    + intro Ho. apply (Hi a b); auto.
    + intro Ho. exists root; split; auto.
      apply (versioned_good o STIX_VERSIONS (STIX_UPDATERS o) stix_node_version d from to opts force
               s root (loaded s d) v a b); auto.
  - apply Hu; auto.
Qed.

Lemma cybox_hdr_version_spec h :
  cybox_hdr_version h =
  match cybox_declared (Node h []) with Some v => Ok v | None => Err UnknownVersionError end.
Proof.
  unfold cybox_hdr_version, cybox_declared. simpl head.
  change TAG_CYBOX_MAJOR with (lq "cybox_major_version").
  change TAG_CYBOX_MINOR with (lq "cybox_minor_version").
  change TAG_CYBOX_UPDATE with (lq "cybox_update_version").
  destruct (attr_get (lq "cybox_major_version") (h_attr h)) as [[|x a]|];
  destruct (attr_get (lq "cybox_minor_version") (h_attr h)) as [[|y b]|];
  destruct (attr_get (lq "cybox_update_version") (h_attr h)) as [[|z c]|]; reflexivity.
Qed.

Lemma cybox_declared_attr h t : h_attr h = h_attr (head t) ->
  cybox_declared (Node h []) = cybox_declared t.
Proof. intro E. unfold cybox_declared. simpl. rewrite E. reflexivity. Qed.

Lemma cybox_declared_given t v : cybox_declared t = Some v -> given (Some v) = Some v.
Proof.
  unfold cybox_declared.
  destruct (given (attr_get (lq "cybox_major_version") _)) as [a|] eqn:Ga; [|discriminate].
  destruct (given (attr_get (lq "cybox_minor_version") _)) as [b|] eqn:Gb; [|discriminate].
  destruct (attr_get (lq "cybox_major_version") _) as [[|x a']|]; inversion Ga; subst.
  destruct (given (attr_get (lq "cybox_update_version") _)) as [c|]; intro H; inversion H;
    reflexivity.
Qed.

Lemma cybox_source s d t from : wf_state s -> denotes s d t ->
  exists root, get_etree_root d false s = (Ok root, loaded s d)
    /\ match cybox_start from t with
       | Some a => exists v, given v = Some a /\
           (if truthy from then ret from
            else v <- cybox_node_version root ;; ret (Some v)) (loaded s d) = (Ok v, loaded s d)
       | None =>
           (if truthy from then ret from
            else v <- cybox_node_version root ;; ret (Some v)) (loaded s d)
           = (Err UnknownVersionError, loaded s d)
       end.
Proof.
  intros W Hd. destruct (get_root_loaded s d t W Hd) as (root & h & E1 & E2 & E3 & E4).
  exists root. split; auto. unfold cybox_start.
  destruct (truthy from) eqn:Ef.
  - apply given_truthy in Ef as [a Ha]. rewrite Ha. exists from; auto.
  - apply given_none in Ef. rewrite Ef. unfold cybox_node_version.
    rewrite bind_run, bind_run, E2. unfold liftr.
    rewrite cybox_hdr_version_spec, (cybox_declared_attr h t E4).
    destruct (cybox_declared t) as [v|] eqn:E; auto.
    exists (Some v); split; auto. eapply cybox_declared_given; eauto.
Qed.

Lemma cybox_validation o d from to opts force s t :
  wf_state s -> denotes s d t ->
  let b := match given to with Some b => b | None => "2.1" end in
  match cybox_start from t with
  | None => cybox_update o d from to opts force s = (Err UnknownVersionError, loaded s d)
  | Some a =>
      (~ older CYBOX_VERSIONS a b ->
       cybox_update o d from to opts force s
       = (Err (InvalidVersionError None None None), loaded s d)) /\
      (older CYBOX_VERSIONS a b ->
       exists root, get_etree_root d false s = (Ok root, loaded s d) /\
       cybox_update o d from to opts force s =
       (r <- run_steps o (CYBOX_UPDATERS o) (version_slice a b CYBOX_VERSIONS) root opts force [] [] ;;
        let '(doc, removed, remapped) := r in
        ret (update_results doc (CList removed) (CDict remapped))) (loaded s d))
  end.
Proof.
  intros W Hd b. destruct (cybox_source s d t from W Hd) as (root & E1 & E2).
  destruct cybox_table_ok as [Ht Hn].
  assert (Hl : exists b, given (Some (last CYBOX_VERSIONS "")) = Some b) by (exists "2.1"; reflexivity).
  destruct (cybox_start from t) as [a|] eqn:G.
  - destruct E2 as (v & Gv & E2).
    destruct (versioned_bad o CYBOX_VERSIONS (CYBOX_UPDATERS o)
                (fun root => v <- cybox_node_version root ;; ret (Some v)) d from to opts force
                s root (loaded s d) v Ht Hn Hl E1 E2) as [Hu Hi].
    split.
    + intro Ho. apply (Hi a b); auto.
    + intro Ho. exists root; split; auto.
      apply (versioned_good o CYBOX_VERSIONS (CYBOX_UPDATERS o)
               (fun root => v <- cybox_node_version root ;; ret (Some v)) d from to opts force
               s root (loaded s d) v a b); auto.
  - unfold cybox_update, versioned_update. rewrite bind_run, E1, bind_run, E2. reflexivity.
Qed.

(** ** The steps between two versions *)

Lemma skipn_app_exact {A} (l1 l2 : list A) : skipn (length l1) (l1 ++ l2) = l2.
Proof. induction l1 as [|x l1 IH]; simpl; auto. Qed.

Lemma firstn_app_exact {A} (l1 l2 : list A) : firstn (length l1) (l1 ++ l2) = l1.
Proof. induction l1 as [|x l1 IH]; simpl; [|rewrite IH]; reflexivity. Qed.

Lemma slice_between versions a b : NoDup versions ->
  older versions a b -> between versions a b (version_slice a b versions).
Proof.
  intros Hn (l1 & l2 & l3 & E). exists l1, l2, l3.
  assert (H : version_slice a b versions = (a :: l2)%list).
  { rewrite E in Hn. rewrite E.
    assert (Ha : ~ In a l1).
    { apply NoDup_remove_2 in Hn. intro H; apply Hn, in_or_app; auto. }
    assert (Hb : ~ In b (l1 ++ a :: l2)).
    { replace (l1 ++ a :: l2 ++ b :: l3)%list with ((l1 ++ a :: l2) ++ b :: l3)%list in Hn
        by (rewrite <- app_assoc; reflexivity).
      apply NoDup_remove_2 in Hn. intro H; apply Hn, in_or_app; auto. }
    unfold version_slice. rewrite (index_of_split l1 a _ Ha).
    replace (index_of b (l1 ++ a :: l2 ++ b :: l3)) with (length l1 + length (a :: l2)).
    - rewrite skipn_app_exact. replace (length l1 + length (a :: l2) - length l1) with (length (a :: l2)) by lia.
      apply (firstn_app_exact (a :: l2) (b :: l3)).
    - replace (l1 ++ a :: l2 ++ b :: l3)%list with ((l1 ++ a :: l2) ++ b :: l3)%list
        by (rewrite <- app_assoc; reflexivity).
      rewrite (index_of_split _ b _ Hb), app_length. reflexivity. }
  rewrite H. split; auto.
Qed.

Lemma between_unique versions a b l l' : NoDup versions ->
  between versions a b l -> between versions a b l' -> l = l'.
Proof.
  intros Hn H H'.
  assert (K : forall l, between versions a b l -> l = version_slice a b versions).
  { clear l l' H H'. intros l (l1 & l2 & l3 & E & ->).
    unfold version_slice. rewrite E in Hn |- *.
    assert (Ha : ~ In a l1).
    { cbn [app] in Hn. apply NoDup_remove_2 in Hn. intro H; apply Hn, in_or_app; auto. }
    assert (Hb : ~ In b (l1 ++ a :: l2)).
    { rewrite app_assoc in Hn. apply NoDup_remove_2 in Hn. intro H; apply Hn, in_or_app; auto. }
    cbn [app]. rewrite (index_of_split l1 a _ Ha).
    change (a :: l2 ++ b :: l3)%list with ((a :: l2) ++ b :: l3)%list.
    rewrite skipn_app_exact. rewrite app_assoc, (index_of_split _ b _ Hb), app_length.
    replace (length l1 + length (a :: l2) - length l1) with (length (a :: l2)) by lia.
    symmetry. apply firstn_app_exact. }
  rewrite (K l H), (K l' H'). reflexivity.
Qed.

Lemma slice_split versions a b c : NoDup versions ->
  older versions a b -> older versions b c ->
  older versions a c /\
  version_slice a c versions = (version_slice a b versions ++ version_slice b c versions)%list.
Proof.
  intros Hn Hab Hbc.
  pose proof (slice_between versions a b Hn Hab) as (l1 & l2 & l3 & E & E').
  pose proof (slice_between versions b c Hn Hbc) as (m1 & m2 & m3 & F & F').
  rewrite E' in E. rewrite F' in F.
  assert (H : (l1 ++ a :: l2 = m1)%list /\ l3 = (m2 ++ c :: m3)%list).
  { rewrite E in F, Hn. cbn [app] in F.
    change (m1 ++ b :: m2 ++ c :: m3)%list with (m1 ++ b :: (m2 ++ c :: m3))%list in F.
    replace (l1 ++ a :: l2 ++ b :: l3)%list with ((l1 ++ a :: l2) ++ b :: l3)%list in F
      by (rewrite <- app_assoc; reflexivity).
    cbn [app] in Hn.
    replace (l1 ++ a :: l2 ++ b :: l3)%list with ((l1 ++ a :: l2) ++ b :: l3)%list in Hn
      by (rewrite <- app_assoc; reflexivity).
    apply NoDup_remove_2 in Hn.
    remember (l1 ++ a :: l2)%list as p eqn:Hp. clear - F Hn.
    revert m1 F Hn. induction p as [|x p IH]; intros [|y m1] F Hn; simpl in *.
    - inversion F; auto.
    - inversion F; subst. exfalso. apply Hn. apply in_or_app; right; left; auto.
    - inversion F; subst. exfalso. apply Hn; auto.
    - inversion F; subst. destruct (IH m1 H1) as [-> ->]; auto. }
  destruct H as [H1 H2].
  assert (Hac : older versions a c).
  { exists l1, (l2 ++ b :: m2)%list, m3. rewrite E, H2. simpl. rewrite <- app_assoc. reflexivity. }
  split; auto. eapply (between_unique versions a c); auto.
  - apply slice_between; auto.
  - exists l1, (l2 ++ b :: m2)%list, m3. rewrite E', F'. split.
    + rewrite E, H2. simpl. rewrite <- app_assoc. reflexivity.
    + reflexivity.
Qed.

(** ** C05: composition *)

Lemma run_steps_app o table opts force l1 : forall l2 root removed remapped s,
  run_steps o table (l1 ++ l2) root opts force removed remapped s =
  (x <- run_steps o table l1 root opts force removed remapped ;;
   let '(root', removed', remapped') := x in
   run_steps o table l2 root' opts force removed' remapped') s.
Proof.
  induction l1 as [|v vs IH]; intros l2 root removed remapped s; [reflexivity|].
  simpl. destruct (dict_get v table) as [up|]; [|reflexivity].
  rewrite !bind_run. destruct (updater_update o up (DElem root) opts force s) as [[r|e] s1]; auto.
  rewrite !bind_run. destruct (as_element (r_document r) s1) as [[r'|e] s2]; auto.
  rewrite IH. reflexivity.
Qed.

(** Dictionaries *)
Lemma dict_get_set_same {A} k (v : A) d : dict_get k (dict_set k v d) = Some v.
Proof.
  induction d as [|[k' v'] d IH]; simpl; [rewrite seqb_refl; auto|].
  destruct (String.eqb k k') eqn:E; simpl; rewrite E; auto.
Qed.

Lemma dict_get_set_other {A} k k' (v : A) d : k <> k' ->
  dict_get k (dict_set k' v d) = dict_get k d.
Proof.
  intro N. induction d as [|[x w] d IH]; simpl.
  - apply String.eqb_neq in N. rewrite N. auto.
  - destruct (String.eqb_spec k' x) as [E|E]; simpl.
    + subst x. apply String.eqb_neq in N. rewrite N. reflexivity.
    + rewrite IH. reflexivity.
Qed.

Lemma dict_set_in {A} k (v : A) d : In k (map fst d) -> map fst (dict_set k v d) = map fst d.
Proof.
  induction d as [|[x w] d IH]; simpl; intros H; [tauto|].
  destruct (String.eqb_spec k x) as [E|E]; simpl; [congruence|].
  f_equal. apply IH. destruct H; [congruence|auto].
Qed.

Lemma dict_set_notin {A} k (v : A) d : ~ In k (map fst d) ->
  dict_set k v d = (d ++ [(k, v)])%list.
Proof.
  induction d as [|[x w] d IH]; simpl; intros H; auto.
  destruct (String.eqb_spec k x) as [E|E]; [exfalso; auto|]. rewrite IH; auto.
Qed.

Lemma dict_set_keys {A} k (v : A) d x :
  In x (map fst (dict_set k v d)) <-> x = k \/ In x (map fst d).
Proof.
  induction d as [|[y w] d IH]; simpl; [intuition|].
  destruct (String.eqb_spec k y) as [E|E]; simpl; [subst; intuition|]. rewrite IH. intuition.
Qed.

Lemma dict_set_NoDup {A} k (v : A) d : NoDup (map fst d) -> NoDup (map fst (dict_set k v d)).
Proof.
  intro H. induction d as [|[y w] d IH]; simpl; [constructor; [tauto|constructor]|].
  inversion H as [|? ? Hy Hd]; subst.
  destruct (String.eqb_spec k y) as [E|E]; simpl; constructor; auto.
  intro Hi. apply dict_set_keys in Hi as [Hi|Hi]; congruence.
Qed.

Lemma dict_update_NoDup {A} (e d : dict A) :
  NoDup (map fst d) -> NoDup (map fst (dict_update d e)).
Proof.
  unfold dict_update. revert d. induction e as [|[k v] e IH]; intros d H; simpl; auto.
  apply IH, dict_set_NoDup, H.
Qed.

Lemma dict_set_set {A} k (v w : A) d : dict_set k v (dict_set k w d) = dict_set k v d.
Proof.
  induction d as [|[x u] d IH]; simpl; [rewrite seqb_refl; auto|].
  destruct (String.eqb k x) eqn:E; simpl; rewrite E; [reflexivity|]. rewrite IH. reflexivity.
Qed.

Lemma dict_set_comm {A} k k' (v w : A) d : k <> k' -> In k (map fst d) ->
  dict_set k v (dict_set k' w d) = dict_set k' w (dict_set k v d).
Proof.
  intros N. induction d as [|[x u] d IH]; simpl; intros H; [tauto|].
  destruct (String.eqb_spec k' x) as [E'|E'], (String.eqb_spec k x) as [E|E]; subst; simpl.
  - congruence.
  - rewrite seqb_refl. destruct (String.eqb_spec k x); [congruence|]. reflexivity.
  - rewrite seqb_refl. destruct (String.eqb_spec k' x); [congruence|]. reflexivity.
  - destruct (String.eqb_spec k x); [congruence|].
    destruct (String.eqb_spec k' x); [congruence|]. f_equal. apply IH.
    destruct H; [congruence|auto].
Qed.

Lemma dict_update_set_in {A} k (v : A) e : ~ In k (map fst e) -> forall d,
  In k (map fst d) -> dict_set k v (dict_update d e) = dict_update (dict_set k v d) e.
Proof.
  unfold dict_update. induction e as [|[x u] e IH]; intros Hk d Hd; simpl; auto.
  simpl in Hk. rewrite IH.
  - rewrite dict_set_comm; auto.
  - auto.
  - apply dict_set_keys; auto.
Qed.

Lemma dict_update_dset {A} k (v : A) e : NoDup (map fst e) -> forall d,
  dict_update d (dict_set k v e) = dict_set k v (dict_update d e).
Proof.
  intros Hn. induction e as [|[x u] e IH]; intro d; [reflexivity|].
  inversion Hn as [|? ? Hx He]; subst. cbn [dict_set].
  destruct (String.eqb_spec k x) as [E|E].
  - subst x. change (dict_update d ((k, v) :: e)) with (dict_update (dict_set k v d) e).
    change (dict_update d ((k, u) :: e)) with (dict_update (dict_set k u d) e).
    rewrite dict_update_set_in; auto.
    + rewrite dict_set_set. reflexivity.
    + apply dict_set_keys; auto.
  - apply (IH He).
Qed.

Lemma dict_update_assoc {A} (a b c : dict A) : NoDup (map fst b) ->
  dict_update a (dict_update b c) = dict_update (dict_update a b) c.
Proof.
  revert b. induction c as [|[k v] c IH]; intros b Hb; [reflexivity|].
  change (dict_update b ((k, v) :: c)) with (dict_update (dict_set k v b) c).
  rewrite IH by (apply dict_set_NoDup; auto). rewrite dict_update_dset by auto. reflexivity.
Qed.

(** The accumulators of the loop over steps only collect. *)
Lemma run_steps_acc o table opts force l : forall root removed remapped s,
  NoDup (map fst remapped) ->
  run_steps o table l root opts force removed remapped s =
  match run_steps o table l root opts force [] [] s with
  | (Ok (root', rem', rmp'), s') =>
      (Ok (root', (removed ++ rem')%list, dict_update remapped rmp'), s')
  | (Err e, s') => (Err e, s')
  end.
Proof.
  induction l as [|v vs IH]; intros root removed remapped s Hn; simpl.
  - rewrite app_nil_r. reflexivity.
  - destruct (dict_get v table) as [up|]; [|reflexivity].
    rewrite !bind_run. destruct (updater_update o up (DElem root) opts force s) as [[r|e] s1]; auto.
    rewrite !bind_run. destruct (as_element (r_document r) s1) as [[r'|e] s2]; auto.
    rewrite IH by (apply dict_update_NoDup; auto).
    rewrite (IH r' (coll_items (r_removed r)) (dict_update [] (coll_dict (r_remapped r))) s2)
      by (apply dict_update_NoDup; constructor).
    destruct (run_steps o table vs r' opts force [] [] s2) as [[[[a b] c]|e] s3]; auto.
    f_equal. f_equal. rewrite app_assoc. f_equal.
    rewrite (dict_update_assoc remapped (dict_update [] _) c)
      by (apply dict_update_NoDup; constructor).
    rewrite (dict_update_assoc remapped [] (coll_dict (r_remapped r))) by constructor.
    reflexivity.
Qed.

Lemma update_results_doc i a b : r_document (update_results i a b) = i.
Proof. reflexivity. Qed.

Lemma update_results_removed i l c : removed_nodes (update_results i (CList l) c) = l.
Proof. destruct l; reflexivity. Qed.

Lemma update_results_remapped i a d : remapped_ids (update_results i a (CDict d)) = d.
Proof. destruct d; reflexivity. Qed.

Lemma versioned_compose o versions table gv d opts force s a b c :
  table_ok versions = true -> NoDup versions ->
  older versions a b -> older versions b c ->
  match versioned_update o versions table gv d (Some a) (Some b) opts force s with
  | (Err e, s1) => versioned_update o versions table gv d (Some a) (Some c) opts force s = (Err e, s1)
  | (Ok r1, s1) =>
      match versioned_update o versions table gv (DElem (r_document r1)) (Some b) (Some c) opts force s1 with
      | (Err e, s2) => versioned_update o versions table gv d (Some a) (Some c) opts force s = (Err e, s2)
      | (Ok r2, s2) =>
          exists r, versioned_update o versions table gv d (Some a) (Some c) opts force s = (Ok r, s2)
            /\ r_document r = r_document r2
            /\ removed_nodes r = (removed_nodes r1 ++ removed_nodes r2)%list
            /\ remapped_ids r = dict_update (remapped_ids r1) (remapped_ids r2)
      end
  end.
Proof.
  intros Ht Hn Hab Hbc. destruct (slice_split versions a b c Hn Hab Hbc) as [Hac Hs].
  assert (G : forall x y, older versions x y -> given (Some x) = Some x /\ given (Some y) = Some y).
  { intros x y Hxy. apply older_index in Hxy as (Hx & Hy & _); auto.
    unfold table_ok in Ht. apply andb_true_iff in Ht as [Ht _]. rewrite forallb_forall in Ht.
    split; [apply Ht in Hx; destruct x|apply Ht in Hy; destruct y]; auto; discriminate. }
  destruct (G a b Hab) as [Ga Gb]. destruct (G b c Hbc) as [_ Gc].
  destruct (get_etree_root d false s) as [[root|e] s0] eqn:E0.
  - assert (R : forall x y, older versions x y -> given (Some x) = Some x -> given (Some y) = Some y ->
      forall d s root s0, get_etree_root d false s = (Ok root, s0) ->
      versioned_update o versions table gv d (Some x) (Some y) opts force s =
      (r <- run_steps o table (version_slice x y versions) root opts force [] [] ;;
       let '(doc, removed, remapped) := r in
       ret (update_results doc (CList removed) (CDict remapped))) s0).
    { intros x y Hxy Gx Gy d' s' root' s0' E. eapply versioned_good with (v := Some x); eauto.
      - destruct x; [discriminate|reflexivity].
      - rewrite Gy. reflexivity. }
    rewrite (R a b Hab Ga Gb d s root s0 E0), (R a c Hac Ga Gc d s root s0 E0), Hs.
    rewrite !bind_run, run_steps_app, bind_run.
    destruct (run_steps o table (version_slice a b versions) root opts force [] [] s0)
      as [[[[doc1 rem1] rmp1]|e] s1] eqn:E1; [|reflexivity].
    cbn [ret]. rewrite update_results_doc.
    rewrite (R b c Hbc Gb Gc (DElem doc1) s1 doc1 s1 eq_refl). rewrite bind_run.
    assert (Hd1 : NoDup (map fst rmp1)).
    { assert (K : forall l root acc1 acc2 s x s', NoDup (map fst acc2) ->
         run_steps o table l root opts force acc1 acc2 s = (Ok x, s') -> NoDup (map fst (snd x))).
      { clear. induction l as [|v vs IH]; intros root acc1 acc2 s x s' Hn H; simpl in H.
        - inversion H; subst; auto.
        - destruct (dict_get v table) as [up|]; [|discriminate].
          apply bind_ok in H as (r & s1 & _ & H). apply bind_ok in H as (r' & s2 & _ & H).
          eapply IH; [|exact H]. apply dict_update_NoDup; auto. }
      apply (K _ root [] [] s0 (doc1, rem1, rmp1) s1 (NoDup_nil _) E1). }
    rewrite (run_steps_acc o table opts force _ doc1 rem1 rmp1 s1 Hd1).
    destruct (run_steps o table (version_slice b c versions) doc1 opts force [] [] s1)
      as [[[[doc2 rem2] rmp2]|e] s2]; [|reflexivity].
    cbn [ret]. eexists; split; [reflexivity|].
    rewrite !update_results_removed, !update_results_remapped. auto.
  - unfold versioned_update. rewrite !bind_run, E0. reflexivity.
Qed.

(** ** C11: force changes nothing when nothing needs forcing *)

Lemma updater_update_force o up d opts s r s' :
  updater_update o up d opts false s = (Ok r, s') ->
  updater_update o up d opts true s = (Ok r, s').
Proof.
  unfold updater_update. rewrite !bind_run.
  destruct (get_etree_root d true s) as [[root|e] s1]; auto.
  cbv zeta. unfold try_catch.
  destruct ((up_check up root (or_default o opts);;; _) s1) as [[a|e] s2]; auto.
  rewrite andb_false_r. discriminate.
Qed.

Lemma run_steps_force o table opts steps : forall root removed remapped s x s',
  run_steps o table steps root opts false removed remapped s = (Ok x, s') ->
  run_steps o table steps root opts true removed remapped s = (Ok x, s').
Proof.
  induction steps as [|v vs IH]; intros root removed remapped s x s' H; simpl in *; auto.
  destruct (dict_get v table) as [up|]; [|discriminate].
  apply bind_ok in H as (r & s1 & H1 & H2). apply bind_ok in H2 as (r' & s2 & H2 & H3).
  rewrite bind_run. apply updater_update_force in H1. rewrite H1. rewrite bind_run, H2. auto.
Qed.

Lemma versioned_update_force o versions table gv d from to opts s r s' :
  versioned_update o versions table gv d from to opts false s = (Ok r, s') ->
  versioned_update o versions table gv d from to opts true s = (Ok r, s').
Proof.
  unfold versioned_update. rewrite !bind_run.
  destruct (get_etree_root d false s) as [[root|e] s1]; auto. rewrite !bind_run.
  destruct ((if truthy from then ret from else gv root) s1) as [[f|e] s2]; auto.
  cbv zeta. rewrite !bind_run. unfold liftr.
  destruct (validate_versions f _ versions) as [u|e]; auto.
  destruct f as [a|]; auto. destruct (if truthy to then to else _) as [b|]; auto.
  intro H. apply bind_ok in H as (x & s3 & H1 & H2). rewrite bind_run.
  apply run_steps_force in H1. rewrite H1. auto.
Qed.

Lemma ramrod_update_force o d from to opts s r s' :
  ramrod_update o d from to opts false s = (Ok r, s') ->
  ramrod_update o d from to opts true s = (Ok r, s').
Proof.
  unfold ramrod_update. rewrite !bind_run.
  destruct (get_etree_root d false s) as [[root|e] s1]; auto. rewrite !bind_run.
  destruct (get_hdr root s1) as [[h|e] s2]; auto. cbv zeta.
  destruct (String.eqb _ "STIX_Package"); [|destruct (String.eqb _ "Observables")]; auto.
  - rewrite !bind_run.
    match goal with |- context [(if truthy from then ?a else ?b) s2] =>
      destruct ((if truthy from then a else b) s2) as [[f|e] s3] end; auto.
    apply versioned_update_force.
  - rewrite !bind_run.
    match goal with |- context [(if truthy from then ?a else ?b) s2] =>
      destruct ((if truthy from then a else b) s2) as [[f|e] s3] end; auto.
    apply versioned_update_force.
Qed.

(** ** The remaining cases used by the property files *)

Lemma registered_safe o up :
  In up (map snd (STIX_UPDATERS o) ++ map snd (CYBOX_UPDATERS o)) ->
  forall old, safe_updater old up.
Proof.
  simpl. intros H old.
  repeat destruct H as [<-|H]; try tauto;
    auto using su_stix_1_0, su_stix_1_0_1, su_stix_1_1, su_stix_1_1_1, su_stix_1_2,
      su_cybox_2_0, su_cybox_2_0_1.
Qed.

Lemma loaded_elem s d : (forall p, d <> DFile p) -> loaded s d = s.
Proof. destruct d as [i|i|p]; intro H; auto. exfalso; eapply H; eauto. Qed.

Lemma stix_validation_cases o d from to opts force s t :
  wf_state s -> denotes s d t ->
  let target := match given to with Some b => b | None => "1.2.1" end in
  let versions := ["1.0"; "1.0.1"; "1.1"; "1.1.1"; "1.2"; "1.2.1"] in
  (stix_start from t = None ->
   fst (stix_update o d from to opts force s) = Err UnknownVersionError) /\
  (forall a, stix_start from t = Some a -> ~ older versions a target ->
   fst (stix_update o d from to opts force s) = Err (InvalidVersionError None None None)) /\
  ((stix_start from t = None \/
    exists a, stix_start from t = Some a /\ ~ older versions a target) ->
   (forall p, d <> DFile p) ->
   snd (stix_update o d from to opts force s) = s).
Proof.
  intros W D target versions. pose proof (stix_validation o d from to opts force s t W D) as H.
  cbv zeta in H. fold target in H. change STIX_VERSIONS with versions in H.
  destruct (stix_start from t) as [a|].
  - destruct H as [H _]. split; [discriminate|]. split.
    + intros a' E N. inversion E; subst. rewrite H; auto.
    + intros [E|(a' & E & N)] F; [discriminate|]. inversion E; subst.
      rewrite H by auto. apply loaded_elem; auto.
  - rewrite H. split; [auto|]. split; [discriminate|]. intros _ F. apply loaded_elem; auto.
Qed.

Lemma cybox_validation_cases o d from to opts force s t :
  wf_state s -> denotes s d t ->
  let target := match given to with Some b => b | None => "2.1" end in
  let versions := ["2.0"; "2.0.1"; "2.1"] in
  (cybox_start from t = None ->
   fst (cybox_update o d from to opts force s) = Err UnknownVersionError) /\
  (forall a, cybox_start from t = Some a -> ~ older versions a target ->
   fst (cybox_update o d from to opts force s) = Err (InvalidVersionError None None None)) /\
  ((cybox_start from t = None \/
    exists a, cybox_start from t = Some a /\ ~ older versions a target) ->
   (forall p, d <> DFile p) ->
   snd (cybox_update o d from to opts force s) = s).
Proof.
  intros W D target versions. pose proof (cybox_validation o d from to opts force s t W D) as H.
  cbv zeta in H. fold target in H. change CYBOX_VERSIONS with versions in H.
  destruct (cybox_start from t) as [a|].
  - destruct H as [H _]. split; [discriminate|]. split.
    + intros a' E N. inversion E; subst. rewrite H; auto.
    + intros [E|(a' & E & N)] F; [discriminate|]. inversion E; subst.
      rewrite H by auto. apply loaded_elem; auto.
  - rewrite H. split; [auto|]. split; [discriminate|]. intros _ F. apply loaded_elem; auto.
Qed.

Lemma load_wf l : forall n, let '(hp, m) := load l n in
  n <= m /\ NoDup (hids hp) /\ (forall i, In i (hids hp) -> n <= i < m).
Proof.
  induction l as [|t l IH]; intro n; simpl.
  - repeat split; auto; try constructor; contradiction.
  - pose proof (renum_ids t n) as Hi. pose proof (renum_next t n) as Hx.
    destruct (renum n t) as [t' m]. simpl in *. specialize (IH m).
    destruct (load l m) as [r k]. simpl in *. destruct IH as (H1 & H2 & H3).
    assert (Ht : forall i, In i (ids t') -> n <= i < m).
    { intros i H. rewrite Hi in H. apply in_seq in H. lia. }
    split; [lia|]. split.
    + apply NoDup_app. split; [rewrite Hi; apply seq_NoDup|]. split; auto.
      intros i H H'. apply Ht in H. apply H3 in H'. lia.
    + intros i H. apply in_app_or in H as [H|H]; [apply Ht in H|apply H3 in H]; lia.
Qed.

Lemma memory_wf l : wf_state (memory l).
Proof.
  unfold memory. pose proof (load_wf l 0) as H. destruct (load l 0) as [hp n].
  destruct H as (_ & H2 & H3). split; auto. intros i Hi; apply H3 in Hi; tauto.
Qed.

Lemma older_cases :
  stix_start None pkg_1_1 = Some "1.1" /\
  ~ older STIX_VERSIONS "1.1" "1.1" /\ ~ older STIX_VERSIONS "9.9" "1.2.1" /\
  older STIX_VERSIONS "1.1" "1.2.1" /\ stix_start None obs_2_0 = None.
Proof.
  destruct stix_table_ok as [_ Hn].
  split; [reflexivity|]. split; [|split; [|split; [|reflexivity]]].
  - intro H. apply older_index in H as (_ & _ & H); auto. lia.
  - intro H. apply older_index in H as (H & _ & _); auto. vm_compute in H.
    repeat destruct H as [H|H]; try discriminate. contradiction.
  - exists ["1.0"; "1.0.1"], ["1.1.1"; "1.2"], []. reflexivity.
Qed.
