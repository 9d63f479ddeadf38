(** * The helpers of base.py compute the passes of [SpecPass]. *)

From Coq Require Import String Ascii List Bool Arith Lia Permutation.
From Verif Require Import Str Xml XPath Utils Base Spec SpecDoc SpecPass Lib Api Scripts Refine.
Import ListNotations.
Local Open Scope string_scope.

(** ** XPath matching only sees content *)

Lemma is_elem_erase t : is_elem (erase t) = is_elem t.
Proof. destruct t; reflexivity. Qed.

Lemma has_tag_erase q t : has_tag q (erase t) = has_tag q t.
Proof. destruct t; reflexivity. Qed.

Lemma match_step_erase r t : match_step r (erase t) = match_step r t.
Proof.
  unfold match_step. rewrite is_elem_erase. destruct t as [h ks]. simpl.
  destruct (r_pred r) as [[q|q]|]; auto.
  rewrite existsb_map. f_equal. apply existsb_ext. intros k _; apply has_tag_erase.
Qed.

Lemma match_alt_erase a anc t : match_alt a (map erase anc) (erase t) = match_alt a anc t.
Proof.
  destruct a as [|r|b r [r2|]]; simpl.
  - destruct anc; reflexivity.
  - destruct anc as [|p [|q anc]]; auto. simpl. apply match_step_erase.
  - destruct anc as [|p anc]; auto. simpl. rewrite !match_step_erase. destruct anc; reflexivity.
  - rewrite match_step_erase. destruct anc; reflexivity.
Qed.

Lemma match_path_erase l anc t : match_path l (map erase anc, erase t) = match_path l (anc, t).
Proof. unfold match_path. apply existsb_ext. intros a _. apply match_alt_erase. Qed.

Definition pathf (l : list ralt) : list tree -> tree -> bool := fun anc t => match_path l (anc, t).

Lemma match_path_natural l : natural (match_path l) (pathf l).
Proof. intros [a x]. unfold pathf. simpl. symmetry. apply match_path_erase. Qed.

Definition pure_alts (l : list ralt) : bool := forallb alt_abs l || negb (existsb alt_abs l).

Lemma xpath_root s T path ns l : wf_state s -> In T (heap s) ->
  xcompile ns path = Some l -> pure_alts l = true ->
  xpath (tid T) path ns s = (Ok (select_ids (match_path l) T), s).
Proof.
  intros W HT C P. pose proof (visits_self [] T) as V. unfold pure_alts in P.
  destruct (forallb alt_abs l) eqn:F.
  - eapply xpath_read_abs; eauto.
  - simpl in P. apply negb_true_iff in P. eapply xpath_read; eauto.
Qed.

(** ** In-place loops *)

Definition total (g : hdr -> res hdr) (h : hdr) : hdr :=
  match g h with Ok h' => h' | Err _ => h end.

Definition same_id (g : hdr -> res hdr) : Prop := forall h h', g h = Ok h' -> h_id h' = h_id h.

Lemma total_keeps g : same_id g -> keeps_id (total g).
Proof. intros K h. unfold total. destruct (g h) eqn:E; auto. Qed.

(** [body] changes the header of a node by [g] and nothing else. *)
Definition edits_hdr (body : nat -> M unit) (g : hdr -> res hdr) : Prop :=
  forall s T a x, wf_state s -> In T (heap s) -> In (a, x) (visits [] T) ->
    match g (head x) with
    | Ok _ => exists s', body (tid x) s = (Ok tt, s') /\
                         steps T s (tset (tid x) (total g) T) s' /\ gen s' = gen s
    | Err e => exists s', body (tid x) s = (Err e, s')
    end.

Definition mem_nat (j : nat) (l : list nat) : bool := existsb (Nat.eqb j) l.

Lemma mem_nat_In j l : mem_nat j l = true <-> In j l.
Proof.
  unfold mem_nat. rewrite existsb_exists. split.
  - intros (i & H & E). apply Nat.eqb_eq in E. subst; auto.
  - intro H. exists j. split; auto. apply Nat.eqb_refl.
Qed.

Lemma hdr_loop body g T0 : edits_hdr body g -> same_id g -> NoDup (ids T0) ->
  forall l F s, wf_state s -> In (tmap F T0) (heap s) -> keeps_ids F ->
  NoDup (keys l) -> incl l (visits [] T0) ->
  (forall j h, In j (keys l) -> F j h = h) ->
  match first_err (fun c => g (head (snd c))) l with
  | Some e => exists s', for_each (keys l) body s = (Err e, s')
  | None => exists s', for_each (keys l) body s = (Ok tt, s') /\
      steps (tmap F T0) s (tmap (fun j h => if mem_nat j (keys l) then total g h else F j h) T0) s' /\
      gen s' = gen s
  end.
Proof.
  intros HB HG N0. induction l as [|[a x] l IH]; intros F s W HT KF ND HI HF; simpl.
  - exists s. split; auto. split; auto. apply steps_refl; auto.
  - simpl in ND. inversion ND as [|? ? N1 N2]; subst.
    assert (Hx : In (map (tmap F) a, tmap F x) (visits [] (tmap F T0))).
    { change (@nil tree) with (map (tmap F) []). rewrite tmap_visits. apply in_map_iff.
      exists (a, x). split; auto. apply HI; left; auto. }
    pose proof (HB s (tmap F T0) _ (tmap F x) W HT Hx) as B.
    rewrite tmap_head, tmap_tid in B by auto. rewrite HF in B by (left; auto).
    destruct (g (head x)) as [h'|e] eqn:G.
    + destruct B as (s1 & E1 & S1 & G1). rewrite bind_run, E1.
      set (F1 := fun j h => if Nat.eqb j (tid x) then total g (F j h) else F j h).
      assert (ET : tset (tid x) (total g) (tmap F T0) = tmap F1 T0).
      { rewrite tset_tmap, tmap_tmap by auto. reflexivity. }
      rewrite ET in S1.
      assert (KF1 : keeps_ids F1).
      { intros j h. unfold F1. destruct (Nat.eqb j (tid x)); [|apply KF].
        rewrite total_keeps by auto. apply KF. }
      assert (HF1 : forall j h, In j (keys l) -> F1 j h = h).
      { intros j h Hj. unfold F1. destruct (Nat.eqb_spec j (tid x)).
        - subst. contradiction.
        - apply HF. right; auto. }
      specialize (IH F1 s1 (st_wf _ _ _ _ S1) (st_in _ _ _ _ S1) KF1 N2
                    (fun c Hc => HI c (or_intror Hc)) HF1).
      destruct (first_err _ l) as [e|]; auto.
      destruct IH as (s2 & E2 & S2 & G2). exists s2. split; auto. split; [|congruence].
      rewrite (tmap_ext (fun j h => if Nat.eqb j (tid x) || mem_nat j (keys l) then total g h else F j h)
                        (fun j h => if mem_nat j (keys l) then total g h else F1 j h)).
      * apply (steps_trans _ s (tmap F1 T0) s1); auto.
      * intros j h _. unfold F1. simpl.
        destruct (Nat.eqb_spec j (tid x)) as [->|Hj]; simpl; auto.
        destruct (mem_nat (tid x) (keys l)) eqn:M; auto. rewrite HF; auto. left; auto.
    + destruct B as (s1 & E1). exists s1. rewrite bind_run, E1. reflexivity.
Qed.

(** Header functions that do not look at identities. *)
Definition hnat (g : hdr -> res hdr) : Prop :=
  forall h, g (set_id 0 h) = match g h with Ok h' => Ok (set_id 0 h') | Err e => Err e end.

Lemma set_id_idem h : set_id 0 (set_id 0 h) = set_id 0 h. Proof. reflexivity. Qed.

Lemma total_nat g h : hnat g -> set_id 0 (total g h) = total g (set_id 0 h).
Proof. intro N. unfold total. rewrite N. destruct (g h); reflexivity. Qed.

Definition err_of {A} (r : res A) : option exn := match r with Err e => Some e | Ok _ => None end.

Lemma first_err_map {A B} (G : ctx -> res A) (G' : ctx -> res B) (f : ctx -> ctx) l :
  (forall c, In c l -> err_of (G c) = err_of (G' (f c))) ->
  first_err G l = first_err G' (map f l).
Proof.
  induction l as [|c l IH]; simpl; intro H; auto.
  specialize (H c (or_introl eq_refl)) as Hc. rewrite IH by auto.
  destruct (G c), (G' (f c)); simpl in Hc; congruence.
Qed.

Lemma keys_select p T : keys (select p T) = select_ids p T.
Proof. reflexivity. Qed.

Lemma hdr_pass s T p q body g : wf_state s -> In T (heap s) ->
  edits_hdr body g -> same_id g -> hnat g -> natural p q ->
  match first_err (fun c => g (head (snd c))) (filter (fun c => q (fst c) (snd c)) (visits [] (erase T))) with
  | Some e => exists s', for_each (select_ids p T) body s = (Err e, s')
  | None => exists F s', for_each (select_ids p T) body s = (Ok tt, s') /\
      steps T s (tmap F T) s' /\ gen s' = gen s /\ keeps_ids F /\
      (forall j h, F j h = total g h \/ F j h = h) /\
      erase (tmap F T) = edit (fun anc x => if q anc x then total g (head x) else head x) [] (erase T)
  end.
Proof.
  intros W HT HB HG HN NP. pose proof (wf_NoDup s T W HT) as N.
  assert (HI : incl (select p T) (visits [] T)).
  { intros c Hc. apply filter_In in Hc as [Hc _]. auto. }
  pose proof (hdr_loop body g T HB HG N (select p T) (fun _ h => h) s) as L.
  rewrite tmap_id in L. specialize (L W HT (fun i h => eq_refl) (select_ids_NoDup p T N) HI).
  specialize (L (fun j h _ => eq_refl)).
  rewrite <- (select_erase p q T NP).
  rewrite (first_err_map (fun c => g (head (snd c))) (fun c => g (head (snd c))) econtent) in L.
  2:{ intros [a x] _. unfold econtent. simpl. rewrite erase_head, HN. destruct (g (head x)); reflexivity. }
  destruct (first_err _ _) as [e|]; [exact L|].
  destruct L as (s' & E & S & G). rewrite keys_select in *.
  eexists. exists s'. split; [exact E|]. split; [exact S|]. split; auto.
  split. { intros j h. destruct (mem_nat j _); auto. apply total_keeps; auto. }
  split. { intros j h. destruct (mem_nat j _); auto. }
  rewrite (tmap_edit _ T []).
  rewrite (edit_ext _ (fun a x => if p (a, x) then total g (head x) else head x) T []).
  - apply (erase_edit _ _ T []). intros a x _. rewrite (NP (a, x)). simpl.
    rewrite erase_head. destruct (q _ _); auto. apply total_nat; auto.
  - intros a x Hx. destruct (p (a, x)) eqn:P.
    + rewrite (proj2 (mem_nat_In _ _)); auto. apply select_ids_iff with (a := a); auto.
    + destruct (mem_nat (tid x) (select_ids p T)) eqn:M; auto.
      apply mem_nat_In in M. apply (select_ids_iff p T a x) in M; auto. congruence.
Qed.

(** A total change of the nodes selected by a path. *)
Lemma edit_computes path ns l body g :
  xcompile ns path = Some l -> pure_alts l = true ->
  edits_hdr body (fun h => Ok (g h)) -> keeps_id g -> (forall h, g (set_id 0 h) = set_id 0 (g h)) ->
  computes (fun r => nodes <- xpath r path ns ;; for_each nodes body)
           (fun t => Ok (edit_where (pathf l) g t)).
Proof.
  intros C P HB HK HN s T W HT. rewrite bind_run, (xpath_root s T path ns l) by auto.
  pose proof (hdr_pass s T (match_path l) (pathf l) body (fun h => Ok (g h)) W HT HB) as H.
  specialize (H (fun h h' E => ltac:(inversion E; apply HK))).
  specialize (H (fun h => f_equal Ok (HN h)) (match_path_natural l)).
  assert (FE : forall cs, first_err (fun c : ctx => Ok (g (head (snd c)))) cs = None).
  { induction cs; simpl; auto. }
  rewrite FE in H. destruct H as (F & s' & E & S & G & K & _ & X).
  exists (tmap F T), s'. split; auto. split; auto. split; auto. split; [apply tmap_tid; auto|].
  exact X.
Qed.

(** *** Bodies *)

Lemma modify_modify i f g s : keeps_id f ->
  (modify i f ;;; modify i g) s = modify i (fun h => g (f h)) s.
Proof.
  intro K. unfold modify. rewrite bind_run. simpl. f_equal. f_equal. rewrite map_map.
  apply map_ext_in. intros t _. clear s. tree_induction t. simpl.
  destruct (Nat.eqb_spec (h_id h) i) as [E|E].
  - rewrite K, E, Nat.eqb_refl. f_equal. rewrite map_map. apply map_ext_in; auto.
  - destruct (Nat.eqb_spec (h_id h) i); [congruence|]. f_equal. rewrite map_map. apply map_ext_in; auto.
Qed.

Lemma tset_ext_at i f g T : NoDup (ids T) -> (forall a x, In (a, x) (visits [] T) -> tid x = i -> f (head x) = g (head x)) ->
  tset i f T = tset i g T.
Proof.
  intros _ H. rewrite !tset_tmap. apply tmap_ext_hdr. intros a x Hx.
  destruct (Nat.eqb_spec (tid x) i); auto. eapply H; eauto.
Qed.

Lemma modify_edits g : keeps_id g -> edits_hdr (fun i => modify i g) (fun h => Ok (g h)).
Proof.
  intros K s T a x W HT Hx. destruct (modify_steps s T (tid x) g) as (s' & E & S & G); auto.
  { eapply visits_tid_in; eauto. }
  exists s'. split; auto.
Qed.

Lemma edits_ext b1 b2 g : (forall i s, b1 i s = b2 i s) -> edits_hdr b1 g -> edits_hdr b2 g.
Proof.
  intros E H s T a x W HT Hx. specialize (H s T a x W HT Hx). destruct (g (head x)).
  - destruct H as (s' & H). exists s'. rewrite <- E. auto.
  - destruct H as (s' & H). exists s'. rewrite <- E. auto.
Qed.

(** A body that reads the header of the node first. *)
Lemma read_edits (k : hdr -> nat -> M unit) (g : hdr -> hdr) : keeps_id g ->
  (forall h i s, (exists f, keeps_id f /\ f h = g h /\ k h i s = modify i f s) \/
                 (k h i s = (Ok tt, s) /\ g h = h)) ->
  edits_hdr (fun i => h <- get_hdr i ;; k h i) (fun h => Ok (g h)).
Proof.
  intros K HK s T a x W HT Hx.
  assert (HI : In (tid x) (ids T)) by (eapply visits_tid_in; eauto).
  pose proof (wf_NoDup s T W HT) as N.
  assert (U : forall b y, In (b, y) (visits [] T) -> tid y = tid x -> y = x).
  { intros b y Hy E. destruct (visits_unique T [] b y a x N Hy Hx E); auto. }
  destruct (HK (head x) (tid x) s) as [(f & Kf & Ef & E)|[E Eg]].
  - destruct (modify_steps s T (tid x) f) as (s' & Es & S & G); auto.
    exists s'. rewrite bind_run, (get_hdr_in s T a x) by auto. rewrite E, Es. split; auto. split; auto.
    rewrite (tset_ext_at (tid x) _ f T); auto. intros b y Hy Ey. rewrite (U b y) by auto.
    unfold total. auto.
  - exists s. rewrite bind_run, (get_hdr_in s T a x) by auto. rewrite E. split; auto. split; auto.
    replace (tset (tid x) (total (fun h => Ok (g h))) T) with T; [apply steps_refl; auto|].
    rewrite <- (tset_ext_at (tid x) (fun h => h) _ T).
    + rewrite tset_tmap. rewrite <- (tmap_id T) at 1. apply tmap_ext. intros j h _.
      destruct (Nat.eqb j (tid x)); auto.
    + auto.
    + intros b y Hy Ey. rewrite (U b y) by auto. unfold total. auto.
Qed.

(** *** The individual passes *)

Lemma root_computes (m : nat -> M unit) (f : hdr -> hdr) : keeps_id f ->
  (forall h, f (set_id 0 h) = set_id 0 (f h)) ->
  edits_hdr m (fun h => Ok (f h)) -> computes m (fun t => Ok (on_root f t)).
Proof.
  intros K HN HE s T W HT.
  destruct (HE s T [] T W HT (visits_self [] T)) as (s' & E & S & G).
  eexists. exists s'. split; [exact E|]. split; [exact S|]. split; auto.
  split; [apply tset_tid; auto|].
  pose proof (wf_NoDup s T W HT) as N. destruct T as [h ks]. simpl in N.
  inversion N as [|? ? N1 N2]; subst. unfold tid. simpl. rewrite Nat.eqb_refl. unfold total.
  unfold on_root. simpl. rewrite HN. f_equal. rewrite map_map. apply map_ext_in.
  intros k Hk. rewrite tset_id_notin; auto. intro Hi. apply N1. apply in_flat_map; eauto.
Qed.

Lemma relocated_model u v :
  create_schemaloc_str (remap_schemalocs u (clean_schemalocs u (schemaloc_pairs v))) =
  relocated (c_disallowed_ns u) (c_ns_map u) (c_schemaloc_map u) v.
Proof.
  unfold create_schemaloc_str, relocated, remap_schemalocs, clean_schemalocs, schemaloc_pairs.
  rewrite map_map. reflexivity.
Qed.

Lemma update_schemalocs_computes u :
  computes (update_schemalocs u)
    (fun t => Ok (schemaloc_pass (c_disallowed_ns u) (c_ns_map u) (c_schemaloc_map u) t)).
Proof.
  unfold schemaloc_pass. apply root_computes.
  - intro h. destruct (attr_get _ _); reflexivity.
  - intro h. simpl. destruct (attr_get _ _); reflexivity.
  - unfold update_schemalocs. apply read_edits.
    + intro h. destruct (attr_get _ _); reflexivity.
    + intros h i s. destruct (attr_get TAG_SCHEMALOCATION (h_attr h)) as [v|] eqn:E; auto.
      left. eexists. split; [|split; [|rewrite relocated_model; reflexivity]].
      * apply keeps_hset.
      * reflexivity.
Qed.

(** ** Controlled vocabularies *)

Lemma modify_id i s : modify i (fun h => h) s = (Ok tt, s).
Proof.
  unfold modify. f_equal. destruct s as [hp n g]. simpl. f_equal.
  rewrite <- (map_id hp) at 2. apply map_ext_in. intros t _. rewrite tset_tmap.
  rewrite <- (tmap_id t) at 2. apply tmap_ext. intros j h _. destruct (Nat.eqb j i); auto.
Qed.

Lemma edits_by_modify body g : same_id g ->
  (forall s T a x, wf_state s -> In T (heap s) -> In (a, x) (visits [] T) ->
     match g (head x) with
     | Ok h' => exists f, keeps_id f /\ f (head x) = h' /\ body (tid x) s = modify (tid x) f s
     | Err e => exists s', body (tid x) s = (Err e, s')
     end) -> edits_hdr body g.
Proof.
  intros HG H s T a x W HT Hx. specialize (H s T a x W HT Hx).
  destruct (g (head x)) as [h'|e] eqn:E; auto. destruct H as (f & Kf & Ef & Eb).
  destruct (modify_steps s T (tid x) f) as (s' & Es & S & G); auto.
  { eapply visits_tid_in; eauto. }
  exists s'. rewrite Eb, Es. split; auto. split; auto.
  rewrite (tset_ext_at (tid x) _ f T); auto.
  - eapply wf_NoDup; eauto.
  - intros b y Hy Ey. pose proof (wf_NoDup s T W HT) as N.
    destruct (visits_unique T [] b y a x N Hy Hx Ey) as [_ ->]. unfold total. rewrite E. auto.
Qed.

Lemma get_hdr_modified s T a x f : wf_state s -> In T (heap s) -> In (a, x) (visits [] T) -> keeps_id f ->
  get_hdr (tid x) (snd (modify (tid x) f s)) =
  (Ok (f (head x)), snd (modify (tid x) f s)).
Proof.
  intros W HT Hx K. destruct (modify_steps s T (tid x) f) as (s' & E & S & _); auto.
  { eapply visits_tid_in; eauto. }
  rewrite E. simpl.
  assert (Hx' : In (map (tset (tid x) f) a, tset (tid x) f x) (visits [] (tset (tid x) f T))).
  { pose proof (tset_visits (tid x) f T []) as V. simpl in V. rewrite V. apply in_map_iff.
    exists (a, x). auto. }
  pose proof (get_hdr_in s' _ _ _ (st_wf _ _ _ _ S) (st_in _ _ _ _ S) Hx') as G.
  rewrite tset_tid in G by auto. rewrite G. f_equal. f_equal.
  destruct x as [h ks]. unfold tid. simpl. rewrite Nat.eqb_refl. reflexivity.
Qed.

Lemma attr_get_set k k' v l :
  attr_get k (attr_set k' v l) = if qn_eqb k k' then Some v else attr_get k l.
Proof.
  induction l as [|[k1 v1] l IH]; simpl.
  - destruct (qn_eqb k k'); auto.
  - destruct (qn_eqb k' k1) eqn:E1; simpl.
    + apply qn_eqb_eq in E1. subst k1. destruct (qn_eqb k k'); auto.
    + rewrite IH. destruct (qn_eqb k k1) eqn:E2; auto.
      apply qn_eqb_eq in E2. subst k1. destruct (qn_eqb k k') eqn:E3; auto.
      apply qn_eqb_eq in E3. subst k'. rewrite qn_eqb_refl in E1. discriminate.
Qed.

Lemma has_attr_set k k' v h : has_attr k (hset_attr k' v h) = qn_eqb k k' || has_attr k h.
Proof.
  unfold has_attr, hset_attr. simpl. rewrite attr_get_set. destruct (qn_eqb k k'); auto.
Qed.

Definition vg (v : vocab) (h : hdr) : res hdr :=
  rbind (type_info h) (fun i => upgraded_with v (fst i) h).

Lemma set_if_present_id k v h0 h h' : set_if_present k v h0 h = Ok h' -> h_id h' = h_id h.
Proof.
  unfold set_if_present. destruct (has_attr k h0), v; intro E; inversion E; reflexivity.
Qed.

Lemma vg_same_id v : same_id (vg v).
Proof.
  intros h h' H. unfold vg, upgraded_with, rbind in H. destruct (type_info h) as [i|]; [|discriminate].
  destruct (set_if_present _ (v_reference v) h _) as [h1|] eqn:E1; [|discriminate].
  destruct (set_if_present _ (v_name v) h h1) as [h2|] eqn:E2; [|discriminate].
  apply set_if_present_id in E1. apply set_if_present_id in E2. simpl in E1. inversion H.
  destruct (h_text h); simpl; [|congruence]. destruct (dict_get _ _); simpl; congruence.
Qed.

Lemma vg_nat v : hnat (vg v).
Proof.
  intro h. unfold vg, upgraded_with, set_if_present, rbind.
  change (type_info (set_id 0 h)) with (type_info h).
  destruct (type_info h) as [i|]; auto.
  change (has_attr (lq "vocab_reference") (set_id 0 h)) with (has_attr (lq "vocab_reference") h).
  change (has_attr (lq "vocab_name") (set_id 0 h)) with (has_attr (lq "vocab_name") h).
  change (h_text (set_id 0 h)) with (h_text h).
  destruct (has_attr (lq "vocab_reference") h), (v_reference v); auto;
  destruct (has_attr (lq "vocab_name") h), (v_name v); auto;
  destruct (h_text h); auto; destruct (dict_get _ _); reflexivity.
Qed.

Lemma set_pystr_cond (b : bool) i k v :
  match (if b then match v with PStr s => Some (hset_attr k s) | PTuple _ => None end
         else Some (fun h => h)) with
  | Some f => keeps_id f /\ forall s, (if b then set_pystr i k v else ret tt) s = modify i f s
  | None => forall s, (if b then set_pystr i k v else ret tt) s = (Err TypeError, s)
  end.
Proof.
  destruct b; [destruct v; simpl|].
  - split; [apply keeps_hset|auto].
  - auto.
  - split; [intro; reflexivity|]. intro s0. rewrite modify_id. reflexivity.
Qed.

Lemma set_if_present_cond k v h0 h :
  set_if_present k v h0 h =
  match (if has_attr k h0 then match v with PStr s => Some (hset_attr k s) | PTuple _ => None end
         else Some (fun h => h)) with
  | Some f => Ok (f h)
  | None => Err TypeError
  end.
Proof. unfold set_if_present. destruct (has_attr k h0), v; reflexivity. Qed.

Lemma bind_ext_run {A B} (m m' : M A) (k : A -> M B) s : m s = m' s -> bind m k s = bind m' k s.
Proof. intro E. rewrite !bind_run, E. reflexivity. Qed.

Lemma vocab_node_edits v : edits_hdr (vocab_update_node v) (vg v).
Proof.
  apply edits_by_modify; [apply vg_same_id|]. intros s T a x W HT Hx.
  unfold vocab_update_node, vg, get_type_info.
  rewrite !bind_run. rewrite (get_hdr_in s T a x) by auto. unfold liftr.
  destruct (type_info (head x)) as [[alias nm]|e]; simpl rbind; [|exists s; reflexivity].
  set (f1 := hset_attr TAG_XSI_TYPE (fst (alias, nm) ++ ":" ++ v_new_type v)).
  assert (K1 : keeps_id f1) by apply keeps_hset.
  rewrite bind_run.
  assert (GH := get_hdr_modified s T a x f1 W HT Hx K1).
  destruct (modify (tid x) f1 s) as [r s1] eqn:E1. simpl in GH.
  assert (r = Ok tt) by (unfold modify in E1; inversion E1; auto). subst r.
  rewrite bind_run, GH.
  change (has_attr (lq "vocab_reference") (f1 (head x))) with
         (has_attr (lq "vocab_reference") (hset_attr TAG_XSI_TYPE (fst (alias, nm) ++ ":" ++ v_new_type v) (head x))).
  change (has_attr (lq "vocab_name") (f1 (head x))) with
         (has_attr (lq "vocab_name") (hset_attr TAG_XSI_TYPE (fst (alias, nm) ++ ":" ++ v_new_type v) (head x))).
  rewrite !has_attr_set. 
  change (qn_eqb (lq "vocab_reference") TAG_XSI_TYPE) with false.
  change (qn_eqb (lq "vocab_name") TAG_XSI_TYPE) with false. simpl orb.
  pose proof (set_pystr_cond (has_attr (lq "vocab_reference") (head x)) (tid x) (lq "vocab_reference") (v_reference v)) as C1.
  pose proof (set_pystr_cond (has_attr (lq "vocab_name") (head x)) (tid x) (lq "vocab_name") (v_name v)) as C2.
  unfold upgraded_with. rewrite set_if_present_cond. fold f1.
  change (h_text (f1 (head x))) with (h_text (head x)).
  assert (C3 : exists f, keeps_id f /\
    (forall s, (match h_text (head x) with
     | Some value => match dict_get value (v_terms v) with
                     | Some new => modify (tid x) (set_text (Some new))
                     | None => ret tt
                     end
     | None => ret tt
     end) s = modify (tid x) f s) /\
    forall h2, f h2 = match h_text (head x) with
      | Some text => match dict_get text (v_terms v) with
                     | Some new => set_text (Some new) h2
                     | None => h2
                     end
      | None => h2
      end).
  { destruct (h_text (head x)) as [t|].
    - destruct (dict_get t (v_terms v)) as [nw|].
      + exists (set_text (Some nw)). split; [apply keeps_set_text|]. auto.
      + exists (fun h => h). split; [intro; reflexivity|]. split; auto. intro. rewrite modify_id. auto.
    - exists (fun h => h). split; [intro; reflexivity|]. split; auto. intro. rewrite modify_id. auto. }
  destruct C3 as (f4 & K4 & E4 & V4).
  assert (M : forall f s, exists s', modify (tid x) f s = (Ok tt, s')) by (intros; eexists; reflexivity).
  change (hset_attr TAG_XSI_TYPE (fst (alias, nm) ++ ":" ++ v_new_type v) (head x)) with (f1 (head x)).
  destruct (if has_attr (lq "vocab_reference") (head x) then _ else _) as [f2|] eqn:D2;
    simpl rbind; [destruct C1 as [K2 C1]|].
  - rewrite set_if_present_cond.
    destruct (if has_attr (lq "vocab_name") (head x) then _ else _) as [f3|] eqn:D3;
      simpl rbind; [destruct C2 as [K3 C2]|].
    + exists (fun h => f4 (f3 (f2 (f1 h)))). split.
      { intro h. rewrite K4, K3, K2, K1. reflexivity. }
      split; [apply V4|].
      rewrite bind_run, C1. 
      destruct (M f2 s1) as (s2 & E2). rewrite E2. rewrite bind_run, C2.
      destruct (M f3 s2) as (s3 & E3). rewrite E3. rewrite E4.
      rewrite <- (modify_modify (tid x) (fun h => f3 (f2 (f1 h))) f4 s)
        by (intro h; rewrite K3, K2, K1; reflexivity).
      rewrite bind_run.
      rewrite <- (modify_modify (tid x) (fun h => f2 (f1 h)) f3 s)
        by (intro h; rewrite K2, K1; reflexivity).
      rewrite bind_run. rewrite <- (modify_modify (tid x) f1 f2 s) by auto.
      rewrite bind_run, E1, E2, E3. reflexivity.
    + destruct (M f2 s1) as (s2 & E2). exists s2. rewrite bind_run, C1, E2, bind_run, C2. reflexivity.
  - exists s1. rewrite bind_run, C1. reflexivity.
Qed.

(** Typed nodes. *)
Definition typed_alts : list ralt := [RDesc false (RStep None (Some (RAttr TAG_XSI_TYPE))) None].

Lemma typed_alts_ok c : match_path typed_alts c = typed c.
Proof.
  destruct c as [anc t]. unfold match_path, typed, inside. simpl. unfold match_step. simpl.
  rewrite orb_false_r. destruct anc; simpl; auto. rewrite andb_true_r. reflexivity.
Qed.

Lemma typed_natural : natural typed (fun a x => typed (a, x)).
Proof.
  intro c. rewrite <- !typed_alts_ok. destruct c as [a x]. symmetry. apply (match_path_erase typed_alts a x).
Qed.

Lemma get_typed_nodes_read s T : wf_state s -> In T (heap s) ->
  get_typed_nodes (tid T) s = (Ok (select_ids typed T), s).
Proof.
  intros W HT. unfold get_typed_nodes.
  rewrite (xpath_root s T _ _ typed_alts) by (auto; vm_compute; reflexivity).
  f_equal. f_equal. unfold select_ids, select. f_equal. apply filter_ext. apply typed_alts_ok.
Qed.

Lemma filter_m_err {A} (f : nat -> M bool) (G : ctx -> res A) (g : ctx -> bool) l s :
  (forall c, In c l -> match G c with
                       | Ok _ => f (tid (snd c)) s = (Ok (g c), s)
                       | Err e => f (tid (snd c)) s = (Err e, s)
                       end) ->
  filter_m f (keys l) s = match first_err G l with
                          | Some e => (Err e, s)
                          | None => (Ok (keys (filter g l)), s)
                          end.
Proof.
  induction l as [|c l IH]; intro H; simpl; auto.
  pose proof (H c (or_introl eq_refl)) as Hc. rewrite bind_run. destruct (G c) as [x|e].
  - rewrite Hc, bind_run, IH by (intros; apply H; right; auto).
    destruct (first_err G l); auto. destruct (g c); reflexivity.
  - rewrite Hc. reflexivity.
Qed.

Lemma type_of_parts c :
  type_of c = rbind (type_info (head (snd c))) (fun i =>
              rbind (ext_namespace c) (fun ns => Ok (fst i, snd i, ns))).
Proof.
  unfold type_of, type_info, ext_namespace.
  destruct (attr_get TAG_XSI_TYPE (h_attr (head (snd c)))) as [v|]; auto.
  destruct (split_char ":" v) as [|a [|b [|]]]; auto. simpl.
  destruct (env_get (Some a) _); auto.
Qed.

Lemma env_of_erase anc t : env_of (map erase anc) (erase t) = env_of anc t.
Proof.
  unfold env_of. rewrite <- map_cons, flat_map_map. apply flat_map_ext_in. intros x _.
  destruct x; reflexivity.
Qed.

Lemma type_of_erase c : type_of (econtent c) = type_of c.
Proof.
  destruct c as [a x]. unfold econtent, type_of. simpl. rewrite erase_head, env_of_erase. reflexivity.
Qed.

Definition is_outdated (v : vocab) (c : ctx) : bool :=
  match type_of c with
  | Ok (_, name, ns) => String.eqb ns (v_namespace v) && mem_str name (v_old_types v)
  | Err _ => false
  end.

Lemma outdated_natural v : natural (outdated v) (fun a x => outdated v (a, x)).
Proof.
  intro c. unfold outdated. rewrite (typed_natural c).
  change (map erase (fst c), erase (snd c)) with (econtent c). rewrite type_of_erase. reflexivity.
Qed.

Lemma filter_filter {A} (f g : A -> bool) l : filter g (filter f l) = filter (fun x => f x && g x) l.
Proof.
  induction l as [|x l IH]; simpl; auto. destruct (f x); simpl; auto. destruct (g x); rewrite IH; auto.
Qed.

Lemma vocab_find_read v s T : wf_state s -> In T (heap s) ->
  vocab_find v (select_ids typed T) s =
  match first_err type_of (filter typed (visits [] T)) with
  | Some e => (Err e, s)
  | None => (Ok (select_ids (outdated v) T), s)
  end.
Proof.
  intros W HT. unfold vocab_find.
  change (select_ids typed T) with (keys (filter typed (visits [] T))).
  rewrite (filter_m_err _ type_of (is_outdated v)).
  - destruct (first_err _ _); auto. rewrite filter_filter. reflexivity.
  - intros [a x] Hc. apply filter_In in Hc as [Hx _]. simpl snd.
    unfold get_type_info, get_ext_namespace. rewrite !bind_run, (get_hdr_in s T a x) by auto.
    unfold liftr. unfold is_outdated. rewrite type_of_parts. simpl snd.
    destruct (type_info (head x)) as [i|e]; simpl; auto.
    rewrite !bind_run, (deref_in s T a x) by auto.
    destruct (ext_namespace (a, x)) as [ns|e]; simpl; auto.
Qed.

Lemma first_err_erase {A B} (G : ctx -> res A) (G' : ctx -> res B) p q T :
  natural p q -> (forall c, p c = true -> err_of (G c) = err_of (G' (econtent c))) ->
  first_err G (filter p (visits [] T)) =
  first_err G' (filter (fun c => q (fst c) (snd c)) (visits [] (erase T))).
Proof.
  intros NP E. rewrite <- (select_erase p q T NP). apply first_err_map.
  intros c Hc. apply filter_In in Hc as [_ Hc]. auto.
Qed.

Lemma first_err_ext {A B} (G : ctx -> res A) (G' : ctx -> res B) l :
  (forall c, In c l -> err_of (G c) = err_of (G' c)) -> first_err G l = first_err G' l.
Proof. intro H. rewrite (first_err_map G G' (fun c => c)) by auto. rewrite map_id. auto. Qed.

Lemma vg_upgraded v c : outdated v c = true -> vg v (head (snd c)) = upgraded v c.
Proof.
  unfold outdated, upgraded, vg. rewrite type_of_parts. intro H. apply andb_true_iff in H as [_ H].
  destruct (type_info (head (snd c))) as [[al nm]|e]; simpl in *; [|discriminate].
  destruct (ext_namespace c); simpl in *; [reflexivity|discriminate].
Qed.

Lemma vg_typed v h h' : vg v h = Ok h' -> has_attr TAG_XSI_TYPE h' = true /\ h_kind h' = h_kind h.
Proof.
  intro H. unfold vg, rbind in H. destruct (type_info h) as [i|]; [|discriminate].
  unfold upgraded_with, set_if_present, rbind in H.
  assert (X : forall k s g, has_attr TAG_XSI_TYPE g = true ->
            has_attr TAG_XSI_TYPE (hset_attr k s g) = true).
  { intros k s g Hg. rewrite has_attr_set, Hg. apply orb_true_r. }
  assert (X0 : has_attr TAG_XSI_TYPE (hset_attr TAG_XSI_TYPE (fst i ++ ":" ++ v_new_type v) h) = true).
  { rewrite has_attr_set. reflexivity. }
  destruct (has_attr (lq "vocab_reference") h), (v_reference v); try discriminate;
  destruct (has_attr (lq "vocab_name") h), (v_name v); try discriminate;
  inversion H; clear H; destruct (h_text h) as [t|]; try destruct (dict_get t _);
  split; try reflexivity;
  repeat match goal with
  | |- has_attr TAG_XSI_TYPE (set_text ?a ?b) = true => change (has_attr TAG_XSI_TYPE b = true)
  end; first [exact X0 | apply X; exact X0 | apply X; apply X; exact X0].
Qed.

Lemma typed_tmap F T : keeps_ids F ->
  (forall a x, In (a, x) (visits [] T) ->
     has_attr TAG_XSI_TYPE (F (tid x) (head x)) = has_attr TAG_XSI_TYPE (head x) /\
     h_kind (F (tid x) (head x)) = h_kind (head x)) ->
  select_ids typed (tmap F T) = select_ids typed T.
Proof.
  intros K H. unfold select_ids, select.
  change (@nil tree) with (map (tmap F) []) at 1. rewrite tmap_visits.
  rewrite filter_map_comm, map_map. 
  rewrite (map_ext (fun c : ctx => tid (snd (map (tmap F) (fst c), tmap F (snd c)))) (fun c => tid (snd c)))
    by (intro c; apply tmap_tid; auto).
  f_equal. apply filter_ext_in. intros [a x] Hx. destruct (H a x Hx) as [H1 H2].
  unfold typed, inside, is_elem. simpl. rewrite tmap_head, H1, H2. destruct a; reflexivity.
Qed.

Lemma vocab_class_step v s T : wf_state s -> In T (heap s) ->
  match vocab_pass v (erase T) with
  | Err e => exists s', vocab_update v (select_ids typed T) s = (Err e, s')
  | Ok e => exists T' s', vocab_update v (select_ids typed T) s = (Ok tt, s') /\
      steps T s T' s' /\ gen s' = gen s /\ tid T' = tid T /\ erase T' = e /\
      select_ids typed T' = select_ids typed T
  end.
Proof.
  intros W HT. unfold vocab_update, vocab_pass. rewrite bind_run, (vocab_find_read v s T) by auto.
  rewrite (first_err_erase type_of type_of typed (fun a x => typed (a, x)) T typed_natural)
    by (intros c _; rewrite type_of_erase; auto).
  change (fun c : ctx => typed (fst c, snd c)) with typed.
  destruct (first_err type_of _) as [e|]; [exists s; reflexivity|].
  pose proof (hdr_pass s T (outdated v) (fun a x => outdated v (a, x)) (vocab_update_node v) (vg v)
                W HT (vocab_node_edits v) (vg_same_id v) (vg_nat v) (outdated_natural v)) as H.
  change (fun c : ctx => outdated v (fst c, snd c)) with (outdated v) in H.
  rewrite (first_err_ext (fun c : ctx => vg v (head (snd c))) (upgraded v)) in H.
  2:{ intros c Hc. apply filter_In in Hc as [_ Hc]. rewrite vg_upgraded; auto. }
  destruct (first_err (upgraded v) _) as [e|]; auto.
  destruct H as (F & s' & E & S & G & K & HF & X). exists (tmap F T), s'.
  split; auto. split; auto. split; auto. split; [apply tmap_tid; auto|]. split.
  - rewrite X. apply edit_ext. intros a x Hx. destruct (outdated v (a, x)) eqn:O; auto.
    unfold total. rewrite <- (vg_upgraded v (a, x) O). reflexivity.
  - apply typed_tmap; auto. intros a x Hx. destruct (HF (tid x) (head x)) as [Q|Q]; rewrite Q; auto.
    unfold total. destruct (vg v (head x)) as [h'|] eqn:V; auto.
    destruct (vg_typed _ _ _ V) as [V1 V2]. split; auto. rewrite V1. symmetry.
    unfold vg, type_info in V. unfold has_attr. destruct (attr_get TAG_XSI_TYPE (h_attr (head x))); auto.
    discriminate.
Qed.

Lemma vocab_loop vs : forall s T, wf_state s -> In T (heap s) ->
  match passes vocab_pass vs (erase T) with
  | Err e => exists s', for_each vs (fun v => vocab_update v (select_ids typed T)) s = (Err e, s')
  | Ok e => exists T' s', for_each vs (fun v => vocab_update v (select_ids typed T)) s = (Ok tt, s') /\
      steps T s T' s' /\ gen s' = gen s /\ tid T' = tid T /\ erase T' = e
  end.
Proof.
  induction vs as [|v vs IH]; intros s T W HT.
  - simpl. exists T, s. split; auto. split; auto. apply steps_refl; auto.
  - rewrite passes_cons. simpl. pose proof (vocab_class_step v s T W HT) as C.
    destruct (vocab_pass v (erase T)) as [e|e]; simpl.
    + destruct C as (T1 & s1 & E1 & S1 & G1 & R1 & X1 & TY). rewrite bind_run, E1.
      specialize (IH s1 T1 (st_wf _ _ _ _ S1) (st_in _ _ _ _ S1)). rewrite X1, TY in IH.
      destruct (passes vocab_pass vs e) as [e2|x]; auto.
      destruct IH as (T2 & s2 & E2 & S2 & G2 & R2 & X2). exists T2, s2. split; auto.
      split; [eapply steps_trans; eauto|]. split; [congruence|]. split; congruence.
    + destruct C as (s1 & E1). exists s1. rewrite bind_run, E1. auto.
Qed.

Lemma update_vocabs_computes u : computes (update_vocabs u) (passes vocab_pass (c_vocabs u)).
Proof.
  intros s T W HT. unfold update_vocabs. rewrite bind_run, (get_typed_nodes_read s T) by auto.
  apply vocab_loop; auto.
Qed.
