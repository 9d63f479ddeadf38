(** * Cleaning as a function of the document. *)

From Coq Require Import String Ascii List Bool Arith Lia.
From Verif Require Import Str Xml XPath Utils Base Tables Cybox Stix Spec SpecDoc SpecPass SpecStep
  SpecCheck SpecClean Lib Api Scripts Refine RefineBase RefineTrans RefineLists RefineSteps RefineCheck.
Import ListNotations.
Local Open Scope string_scope.

(** ** New ids *)

(** [fresh_ids] keyed by node identity. *)
Definition renumber (f : nat -> string -> string) (g : nat) (l : list nat) (i : nat) (h : hdr) : hdr :=
  match position i l, attr_get (lq "id") (h_attr h) with
  | Some k, Some old => hset_attr (lq "id") (f (g + k) old) h
  | _, _ => h
  end.

Lemma fresh_ids_tmap f g l t : fresh_ids f g l t = tmap (renumber f g l) t.
Proof. rewrite (tmap_edit _ t []). reflexivity. Qed.

Lemma renumber_keeps f g l : keeps_ids (renumber f g l).
Proof.
  intros i h. unfold renumber. destruct (position i l); auto. destruct (attr_get _ _); auto.
Qed.

Lemma fresh_ids_nil f g t : fresh_ids f g [] t = t.
Proof. rewrite fresh_ids_tmap. apply tmap_id. Qed.

Lemma position_notin i l : ~ In i l -> position i l = None.
Proof.
  induction l as [|j l IH]; simpl; auto. intro H. destruct (Nat.eqb_spec i j); [subst; tauto|].
  rewrite IH; auto.
Qed.

Lemma fresh_ids_cons f g i l t old : ~ In i l ->
  (forall a x, In (a, x) (visits [] t) -> tid x = i -> id_of x = Some old) ->
  fresh_ids f g (i :: l) t = fresh_ids f (S g) l (tset i (hset_attr (lq "id") (f g old)) t).
Proof.
  intros Hi Hx. rewrite !fresh_ids_tmap, tset_tmap, tmap_tmap.
  - apply tmap_ext_hdr. intros a x Hv. specialize (Hx a x Hv). unfold renumber at 1. cbn [position].
    destruct (Nat.eqb_spec (tid x) i) as [E|E].
    + specialize (Hx E). unfold id_of in Hx. rewrite Hx, Nat.add_0_r.
      unfold renumber. rewrite E, position_notin by auto. reflexivity.
    + unfold renumber. destruct (position (tid x) l) as [k|]; cbn [option_map]; auto.
      rewrite <- plus_n_Sm. reflexivity.
  - intros j h. destruct (Nat.eqb j i); reflexivity.
Qed.

Lemma apply_new_id_steps f s T a x old : wf_state s -> In T (heap s) -> In (a, x) (visits [] T) ->
  id_of x = Some old ->
  exists s', apply_new_id f (tid x) s = (Ok tt, s') /\
    steps T s (tset (tid x) (hset_attr (lq "id") (f (gen s) old)) T) s' /\ gen s' = S (gen s).
Proof.
  intros W HT Hx Ho. unfold apply_new_id. rewrite bind_run, (get_hdr_in s T a x) by auto.
  unfold id_of in Ho. rewrite Ho.
  destruct (modify_steps (St (heap s) (next s) (S (gen s))) T (tid x)
             (hset_attr (lq "id") (f (gen s) old))) as (s' & E & S' & G); auto.
  - eapply visits_tid_in; eauto.
  - intro h; reflexivity.
  - exists s'. split; auto. split; auto. destruct S' as [A B C D F]. constructor; auto.
Qed.

Lemma visits_tset i f t : forall anc b y, In (b, y) (visits anc t) ->
  exists b', In (b', tset i f y) (visits (map (tset i f) anc) (tset i f t)).
Proof.
  tree_induction t. intros anc b y H. simpl in H. destruct H as [H|H].
  - injection H as <- <-. exists (map (tset i f) anc). apply visits_self.
  - apply in_flat_map in H as (k & Hk & H). destruct (IH k Hk _ _ _ H) as (b' & H').
    exists b'. simpl. right. apply in_flat_map. exists (tset i f k). split; [apply in_map; auto|]. exact H'.
Qed.

Lemma new_ids_loop f l : forall s T, wf_state s -> In T (heap s) -> NoDup l ->
  (forall i, In i l -> exists a x old, In (a, x) (visits [] T) /\ tid x = i /\ id_of x = Some old) ->
  exists s', for_each l (apply_new_id f) s = (Ok tt, s') /\
    steps T s (fresh_ids f (gen s) l T) s' /\ gen s' = gen s + length l.
Proof.
  induction l as [|i l IH]; intros s T W HT N H; simpl.
  - exists s. split; auto. rewrite fresh_ids_nil. split; [apply steps_refl; auto|lia].
  - inversion N as [|? ? N1 N2]; subst.
    destruct (H i (or_introl eq_refl)) as (a & x & old & Hx & Ex & Ho). subst i.
    destruct (apply_new_id_steps f s T a x old W HT Hx Ho) as (s1 & E1 & S1 & G1).
    rewrite bind_run, E1.
    set (T1 := tset (tid x) (hset_attr (lq "id") (f (gen s) old)) T) in *.
    destruct (IH s1 T1) as (s2 & E2 & S2 & G2); auto.
    + apply (st_wf _ _ _ _ S1).
    + apply (st_in _ _ _ _ S1).
    + intros j Hj. destruct (H j (or_intror Hj)) as (b & y & o2 & Hy & Ey & Hoy).
      destruct (visits_tset (tid x) (hset_attr (lq "id") (f (gen s) old)) T [] b y Hy) as (b' & Hy').
      exists b', (tset (tid x) (hset_attr (lq "id") (f (gen s) old)) y), o2. split; auto.
      assert (Ne : tid y <> tid x) by (intro E; apply N1; rewrite <- E, Ey; auto).
      destruct y as [hy ky]. unfold id_of in *. cbn [tset head kids tid] in *.
      destruct (Nat.eqb_spec (h_id hy) (tid x)) as [E|E]; [elim Ne; exact E|]. split; auto.
    + exists s2. split; auto. split; [|lia].
      rewrite (fresh_ids_cons f (gen s) (tid x) l T old); auto.
      * rewrite <- G1. eapply steps_trans; eauto.
      * intros b y Hy Ey. destruct (visits_unique T [] b y a x (wf_NoDup s T W HT) Hy Hx Ey). subst; auto.
Qed.

Lemma for_each_app {A} (f : A -> M unit) l1 l2 s :
  for_each (l1 ++ l2) f s = (for_each l1 f ;;; for_each l2 f) s.
Proof.
  revert s. induction l1 as [|x l1 IH]; intro s; auto.
  simpl. rewrite !bind_run. destruct (f x s) as [[u|e] s1]; auto. rewrite IH, bind_run. reflexivity.
Qed.

Lemma for_each_flat {A B} (g : A -> list B) (f : B -> M unit) l s :
  for_each l (fun x => for_each (g x) f) s = for_each (flat_map g l) f s.
Proof.
  revert s. induction l as [|x l IH]; intro s; auto. simpl flat_map. rewrite for_each_app. simpl.
  rewrite !bind_run. destruct (for_each (g x) f s) as [[u|e] s1]; auto.
Qed.

Lemma clean_duplicates_steps opts d s T : wf_state s -> In T (heap s) ->
  NoDup (flat_map snd d) ->
  (forall i, In i (flat_map snd d) -> exists a x old, In (a, x) (visits [] T) /\ tid x = i /\ id_of x = Some old) ->
  exists s', clean_duplicates opts d s = (Ok d, s') /\
    steps T s (fresh_ids (new_id_func opts) (gen s) (flat_map snd d) T) s' /\
    gen s' = gen s + length (flat_map snd d).
Proof.
  intros W HT N H. unfold clean_duplicates. rewrite bind_run, (for_each_flat snd).
  destruct (new_ids_loop (new_id_func opts) (flat_map snd d) s T W HT N H) as (s' & E & S' & G).
  rewrite E. exists s'. auto.
Qed.

(** ** Removal with copies *)

Lemma without_rwm l t : without l t = rwm (mrem l (fun _ => None)) t.
Proof.
  unfold without, prune.
  enough (H : forall anc, subst_nodes (fun _ x => if existsb (Nat.eqb (tid x)) l then Some [] else None) anc t
                          = rwm (mrem l (fun _ => None)) t) by apply H.
  tree_induction t. intro anc. simpl. f_equal.
  apply flat_map_ext_in. intros k Hk. unfold mrem. destruct (existsb _ l); auto. f_equal. apply IH; auto.
Qed.

Lemma tsubst_ids_incl i t : incl (ids (tsubst i [] t)) (ids t).
Proof.
  tree_induction t. simpl. intros j [Hj|Hj]; [left; auto|]. right.
  apply in_flat_map in Hj as (k & Hk & Hj). apply in_flat_map in Hk as (k0 & Hk0 & Hk).
  apply in_flat_map. exists k0. split; auto.
  destruct (Nat.eqb (tid k0) i); [destruct Hk|]. destruct Hk as [<-|[]]. apply (IH k0 Hk0); auto.
Qed.

Lemma remove_ids_incl i s s' : remove_xml_element i s = (Ok tt, s') ->
  forall j, In j (hids (heap s')) -> In j (hids (heap s)).
Proof.
  unfold remove_xml_element, supplant. rewrite bind_run. unfold deref.
  destruct (hfind i (heap s)) as [[a x]|] eqn:E; [|discriminate].
  assert (Hx : exists X, In X (heap s) /\ In (a, x) (visits [] X)).
  { unfold hfind in E. apply find_some in E as [E _]. apply in_flat_map in E. auto. }
  destruct Hx as (X & HX & Hx). destruct (parent (a, x)).
  - intro Q. injection Q as <-. simpl. intros j Hj. fold (hids (map (tsubst i []) (heap s) ++ [x])) in Hj.
    rewrite hids_app in Hj. apply in_app_iff in Hj as [Hj|Hj].
    + apply in_flat_map in Hj as (t1 & Ht & Hj). apply in_map_iff in Ht as (t0 & <- & Ht).
      apply in_flat_map. exists t0. split; auto. apply (tsubst_ids_incl i t0); auto.
    + simpl in Hj. rewrite app_nil_r in Hj. apply in_flat_map. exists X. split; auto.
      eapply visits_sub; eauto.
  - intro Q. injection Q as <-. auto.
Qed.

Lemma retag_same h ks : Node (set_tag (h_tag h) h) ks = Node h ks.
Proof. destruct h; reflexivity. Qed.

Lemma remove_copies_loop T n0 g0 : NoDup (ids T) -> (forall i, In i (ids T) -> i < n0) ->
  forall l before F s,
  (forall i, In i l -> exists a x, In (a, x) (visits [] T) /\ tid x = i /\ is_elem x = true) ->
  tracks F n0 g0 T (mrem before (fun _ => None)) s ->
  exists copies s', clean_disallowed l s = (Ok (map tid copies), s') /\
    tracks (rev copies ++ F) n0 g0 T (mrem (before ++ l) (fun _ => None)) s' /\
    map erase copies = map erase (taken before l T) /\
    (forall c, In c copies -> n0 <= tid c).
Proof.
  intros N LT. induction l as [|i l IH]; intros before F s Hl K; simpl.
  - exists [], s. rewrite app_nil_r. split; auto. split; auto. split; auto. intros c [].
  - destruct (Hl i (or_introl eq_refl)) as (a & x & Hx & Ex & El). subst i.
    unfold clean_disallowed. simpl map_m. rewrite !bind_run.
    destruct (tracks_deref _ _ _ _ _ _ a x K Hx) as (a' & D & _).
    unfold copy_xml_element at 1. rewrite bind_run, D. cbn [snd].
    destruct (copy_builds (rwm (mrem before (fun _ => None)) x) s) as (t' & s1 & E1 & B1 & R1 & _).
    rewrite bind_run, E1. cbv beta iota.
    assert (Et : is_elem t' = true).
    { rewrite <- is_elem_erase, R1, is_elem_erase. unfold is_elem in *. rewrite rwm_head. auto. }
    rewrite Et. destruct t' as [ht kt]. unfold ret at 1. cbv beta iota.
    pose proof (tracks_builds _ _ _ _ _ _ _ _ K B1) as K1.
    destruct (tracks_remove1 _ _ _ _ _ _ a x N K1 Hx) as (s2 & E2 & N2 & K2).
    rewrite !bind_run, E2. unfold push at 1. cbv beta iota.
    rewrite retag_same.
    assert (L2 : loose [Node ht kt] s2).
    { destruct (builds_loose s _ s1 (tk_wf _ _ _ _ _ _ K) B1) as [L1 L1']. split; auto.
      intros j Hj. destruct (L1' j Hj) as [Q1 Q2]. split; [lia|]. intro Q. apply Q2.
      eapply remove_ids_incl; eauto. }
    assert (Fr : forall j, In j (ids (Node ht kt)) -> next s <= j).
    { intros j Hj. pose proof (bd_range _ _ _ B1 j). simpl in H. rewrite app_nil_r in H.
      specialize (H Hj). lia. }
    pose proof (tk_next _ _ _ _ _ _ K) as Nx.
    assert (K3 := tracks_push _ _ _ _ _ _ (Node ht kt) N LT K2 L2).
    lapply K3; [clear K3; intro K3|intros j Hj Q; apply Fr in Hj; apply LT in Q; lia].
    eapply tracks_ext in K3; [|intro j; apply (mrem_mrem before [tid x])].
    destruct (IH (before ++ [tid x])%list (Node ht kt :: F) _ (fun j Hj => Hl j (or_intror Hj)) K3)
      as (copies & s4 & E4 & K4 & R4 & F4).
    unfold clean_disallowed in E4. rewrite bind_run, E4. unfold ret.
    exists (Node ht kt :: copies), s4. split; [reflexivity|]. split; [|split].
    + simpl rev. rewrite <- app_assoc. simpl app. rewrite <- app_assoc in K4. exact K4.
    + assert (Q : filter (fun y => Nat.eqb (tid y) (tid x)) (map snd (visits [] T)) = [x]).
      { clear -Hx N. pose proof (visits_keys_NoDup T [] N) as Kd.
        induction (visits [] T) as [|[b y] v IHv]; [destruct Hx|]. simpl in *.
        inversion Kd as [|? ? Kd1 Kd2]; subst. destruct Hx as [E|Hx].
        - injection E as -> ->. rewrite Nat.eqb_refl. f_equal.
          clear IHv Kd Kd2 N. induction v as [|[c z] v IHv]; simpl; auto. simpl in Kd1.
          destruct (Nat.eqb_spec (tid z) (tid x)); [exfalso; apply Kd1; left; auto|].
          apply IHv. intro Q. apply Kd1. right; auto.
        - destruct (Nat.eqb_spec (tid y) (tid x)) as [E|E]; [|auto].
          exfalso. apply Kd1. rewrite E. apply in_map_iff. exists (a, x). auto. }
      rewrite Q. cbn [map app]. rewrite R4. f_equal. rewrite R1, without_rwm. reflexivity.
    + intros c [<-|Hc]; auto. pose proof (Fr (tid (Node ht kt)) (in_ids_self _)). lia.
Qed.

(** ** The nodes to clean *)

Definition elem_rule (r : rule) : Prop :=
  match r with
  | Elements p => forall anc t, p anc t = true -> is_elem t = true
  | Instances _ _ => True
  | Parents p => forall q anc t, p (q :: anc) t = true -> is_elem q = true
  end.

Lemma named_elem q t : named q t = true -> is_elem t = true.
Proof. unfold named, is_elem. destruct (h_kind (head t)); auto; discriminate. Qed.

Lemma named_in_elem qs t : named_in qs t = true -> is_elem t = true.
Proof. intro H. apply existsb_exists in H as (q & _ & H). eapply named_elem; eauto. Qed.

Definition at_element (T : tree) (i : nat) : Prop :=
  exists a x, In (a, x) (visits [] T) /\ tid x = i /\ is_elem x = true.

Lemma offenders_elements r T l : elem_rule r -> offenders r T = Ok l -> forall i, In i l -> at_element T i.
Proof.
  intros R H i Hi. destruct r as [p|name ns|p]; simpl in *.
  - injection H as <-. apply in_map_iff in Hi as ([a x] & <- & Hx).
    apply filter_In in Hx as [Hx Q]. exists a, x. simpl in *. eauto.
  - destruct (first_err _ _); [discriminate|]. injection H as <-.
    apply in_map_iff in Hi as ([a x] & <- & Hx). apply filter_In in Hx as [Hx Q].
    exists a, x. split; auto. split; auto. unfold of_type, typed in Q. cbn [snd fst] in Q.
    destruct (is_elem x); auto. rewrite andb_false_r in Q. discriminate.
  - injection H as <-. apply in_flat_map in Hi as ([a x] & Hx & Hi).
    apply filter_In in Hx as [Hx Q]. simpl in *. destruct a as [|q a]; [destruct Hi|].
    destruct Hi as [<-|[]]. exists a, q. split; [|split; eauto].
    apply (visits_parent T [] q a x); auto. discriminate.
Qed.

Lemma untranslatable_elements rules T : Forall elem_rule rules ->
  forall l, untranslatable rules T = Ok l -> forall i, In i l -> at_element T i.
Proof.
  intro F. induction F as [|r rules R F IH]; simpl; intros l H i Hi.
  - injection H as <-. destruct Hi.
  - destruct (offenders r T) as [a|] eqn:Ea; [|discriminate]. simpl in H.
    destruct (untranslatable rules T) as [b|]; [|discriminate]. simpl in H. injection H as <-.
    apply in_app_iff in Hi as [Hi|Hi]; eauto using offenders_elements.
Qed.

Lemma only_holds_elem q ns anc t : only_holds q ns anc t = true -> is_elem t = true.
Proof.
  unfold only_holds, any_inside. intro H. apply andb_prop in H as [H _]. apply andb_prop in H as [_ H].
  eapply named_in_elem; eauto.
Qed.

Lemma any_inside_elem qs anc t : any_inside qs anc t = true -> is_elem t = true.
Proof. unfold any_inside. intro H. apply andb_prop in H as [_ H]. eapply named_in_elem; eauto. Qed.

Lemma child_in_elem ps q anc t : child_in ps q anc t = true -> is_elem t = true.
Proof. unfold child_in. intro H. apply andb_prop in H as [_ H]. eapply named_elem; eauto. Qed.

Lemma stix_1_0_rules_elem : Forall elem_rule stix_1_0_rules.
Proof. repeat constructor; simpl; intros anc t; apply only_holds_elem. Qed.

Lemma cybox_2_0_1_rules_elem : Forall elem_rule cybox_2_0_1_rules.
Proof.
  repeat constructor; simpl; intros anc t H.
  - eapply any_inside_elem; eauto.
  - eapply any_inside_elem; eauto.
  - eapply child_in_elem; eauto.
  - apply andb_prop in H as [H _]. apply andb_prop in H as [H _]. eapply any_inside_elem; eauto.
Qed.

Lemma stix_1_0_1_rules_elem o : Forall elem_rule (stix_1_0_1_rules o).
Proof.
  unfold stix_1_0_1_rules. apply Forall_app. split; [|apply cybox_2_0_1_rules_elem].
  repeat constructor; simpl.
  - intros q anc t H. apply andb_prop in H as [H _]. unfold child_in in H. apply andb_prop in H as [H _].
    unfold child_of in H. apply andb_prop in H as [H _]. eapply named_in_elem. exact H.
  - intros anc t; apply only_holds_elem.
  - intros anc t; apply only_holds_elem.
Qed.

Lemma bearers_in nss i T j : In j (bearers nss i T) ->
  exists a x, In (a, x) (visits [] T) /\ tid x = j /\ id_of x = Some i.
Proof.
  unfold bearers, counted. intro H. apply in_map_iff in H as (x & <- & H).
  apply filter_In in H as [H Q]. apply filter_In in H as [H _].
  apply in_map_iff in H as ([a y] & E & H). simpl in E. subst y. apply in_tl_visits in H.
  exists a, x. split; auto. split; auto. destruct (id_of x) as [k|]; [|discriminate].
  simpl in Q. apply String.eqb_eq in Q. congruence.
Qed.

Lemma NoDup_map_filter {A B} (f : A -> B) p l : NoDup (map f l) -> NoDup (map f (filter p l)).
Proof.
  induction l as [|x l IH]; simpl; auto. intro N. inversion N as [|? ? N1 N2]; subst.
  destruct (p x); auto. simpl. constructor; auto. intro H. apply N1.
  apply in_map_iff in H as (y & E & H). apply filter_In in H as [H _]. apply in_map_iff. eauto.
Qed.

Lemma bearers_NoDup nss i T : NoDup (ids T) -> NoDup (bearers nss i T).
Proof.
  intro N. unfold bearers, counted. apply NoDup_map_filter. apply NoDup_map_filter.
  rewrite map_map. pose proof (visits_keys_NoDup T [] N) as H.
  destruct (visits [] T); simpl in *; auto. inversion H; auto.
Qed.

Lemma with_bearers_NoDup nss T l : NoDup (ids T) -> NoDup l -> NoDup (flat_map snd (with_bearers nss T l)).
Proof.
  intros N H. induction H as [|i l Hi Hl IH]; simpl; [constructor|].
  apply NoDup_app. split; [apply bearers_NoDup; auto|]. split; auto.
  intros j Hj Hk. apply in_flat_map in Hk as ([k b] & Hk & Hb). apply in_map_iff in Hk as (k' & E & Hk).
  injection E as <- <-. simpl in Hb.
  apply bearers_in in Hj as (a & x & Hx & Ex & Ox). apply bearers_in in Hb as (b & y & Hy & Ey & Oy).
  destruct (visits_unique T [] a x b y N Hx Hy (eq_trans Ex (eq_sym Ey))); subst. congruence.
Qed.

Lemma with_bearers_in nss T l j : In j (flat_map snd (with_bearers nss T l)) ->
  exists a x old, In (a, x) (visits [] T) /\ tid x = j /\ id_of x = Some old.
Proof.
  intro H. apply in_flat_map in H as ([k b] & Hk & Hb). apply in_map_iff in Hk as (k' & E & Hk).
  injection E as <- <-. apply bearers_in in Hb as (a & x & Hx & Ex & Ox). eauto 6.
Qed.

(** ** Cleaning *)

(** Running the cleaning program of [up] does what [D] says. *)
Definition cleans (up : updater) (opts : options) (D : tree -> res dirt) : Prop :=
  forall s T, wf_state s -> In T (heap s) ->
    match D T with
    | Err e => clean_root up (tid T) opts s = (Err e, s)
    | Ok d => exists copies s',
        clean_root up (tid T) opts s
          = (Ok (Results (tid T) (CTuple (map tid copies)) (CDict (snd d))), s') /\
        steps T s (cleaned (new_id_func opts) (gen s) d T) s' /\
        gen s' = gen s + length (renumbered d) /\
        map erase copies = map erase (removed_content (new_id_func opts) (gen s) d T) /\
        (forall c, In c copies -> In c (heap s') /\ next s <= tid c)
    end.

Lemma fresh_ids_visits f g l T i : at_element T i -> at_element (fresh_ids f g l T) i.
Proof.
  intros (a & x & Hx & Ex & El). rewrite fresh_ids_tmap.
  exists (map (tmap (renumber f g l)) a), (tmap (renumber f g l) x). split.
  - pose proof (tmap_visits (renumber f g l) T []) as Q. simpl in Q. rewrite Q. apply in_map_iff.
    exists (a, x). auto.
  - rewrite tmap_tid by apply renumber_keeps. split; auto. unfold is_elem in *. rewrite tmap_head.
    unfold renumber. destruct (position _ _); auto. destruct (attr_get _ _); auto.
Qed.

Lemma clean_parts s T d l f : wf_state s -> In T (heap s) ->
  NoDup (flat_map snd d) ->
  (forall i, In i (flat_map snd d) -> exists a x old, In (a, x) (visits [] T) /\ tid x = i /\ id_of x = Some old) ->
  (forall i, In i l -> at_element T i) ->
  forall opts, f = new_id_func opts ->
  exists copies s1 s', clean_duplicates opts d s = (Ok d, s1) /\
    clean_disallowed l s1 = (Ok (map tid copies), s') /\
    steps T s (cleaned f (gen s) (l, d) T) s' /\
    gen s' = gen s + length (renumbered (l, d)) /\
    map erase copies = map erase (removed_content f (gen s) (l, d) T) /\
    (forall c, In c copies -> In c (heap s') /\ next s <= tid c).
Proof.
  intros W HT N Hd Hl opts ->.
  destruct (clean_duplicates_steps opts d s T W HT N Hd) as (s1 & E1 & S1 & G1).
  set (T1 := fresh_ids (new_id_func opts) (gen s) (flat_map snd d) T) in *.
  pose proof (st_wf _ _ _ _ S1) as W1. pose proof (st_in _ _ _ _ S1) as HT1.
  destruct (remove_copies_loop T1 (next s1) (gen s1) (wf_NoDup s1 T1 W1 HT1) (fun i => wf_lt s1 T1 i W1 HT1)
              l [] (others T1 s1) s1) as (copies & s2 & E2 & K2 & R2 & F2).
  - intros i Hi. apply (fresh_ids_visits (new_id_func opts) (gen s) (flat_map snd d)). auto.
  - eapply tracks_ext; [|apply tracks_init; auto]. intro j. reflexivity.
  - exists copies, s1, s2. split; auto. split; auto.
    assert (S2 : steps T1 s1 (rwm (mrem l (fun _ => None)) T1) s2).
    { apply tracks_steps; auto. destruct K2 as [A B C D E F]. constructor; auto.
      intros X HX. apply D. apply in_app_iff; auto. }
    split; [|split; [|split]].
    + eapply steps_trans; eauto. unfold cleaned. rewrite without_rwm. exact S2.
    + rewrite (tk_gen _ _ _ _ _ _ K2). exact G1.
    + exact R2.
    + intros c Hc. split.
      * apply (tk_frame _ _ _ _ _ _ K2). apply in_app_iff. left. apply in_rev in Hc. auto.
      * pose proof (st_next _ _ _ _ S1). specialize (F2 c Hc). lia.
Qed.

Lemma clean_root_cleans up opts (D : tree -> res dirt) dis dup
  (Rdis : forall s T, wf_state s -> In T (heap s) ->
     up_get_disallowed up (tid T) s = (match dis T with Ok l => Ok (Some l) | Err e => Err e end, s))
  (Rdup : forall s T, wf_state s -> In T (heap s) ->
     up_get_duplicates up (tid T) s = (Ok (dup T), s))
  (HD : forall T, D T = rbind (dis T) (fun l => Ok (l, match dup T with Some d => d | None => [] end)))
  (Cdis : forall l s, up_clean_disallowed up l opts s = clean_disallowed l s)
  (Cdup : forall T, dup T <> None -> forall d s, up_clean_duplicates up d opts s = clean_duplicates opts d s)
  (Edis : forall T l, dis T = Ok l -> forall i, In i l -> at_element T i)
  (Ndup : forall T d, dup T = Some d -> NoDup (ids T) -> NoDup (flat_map snd d))
  (Edup : forall T d, dup T = Some d -> forall i, In i (flat_map snd d) ->
     exists a x old, In (a, x) (visits [] T) /\ tid x = i /\ id_of x = Some old) :
  cleans up opts D.
Proof.
  intros s T W HT. rewrite HD. unfold clean_root. rewrite bind_run, (Rdis s T W HT).
  destruct (dis T) as [l|e] eqn:El; simpl rbind; [|reflexivity].
  rewrite bind_run, (Rdup s T W HT).
  set (d := match dup T with Some d => d | None => [] end).
  assert (N : NoDup (flat_map snd d)).
  { unfold d. destruct (dup T) eqn:Ed; [|constructor]. eapply Ndup; eauto. eapply wf_NoDup; eauto. }
  assert (H : forall i, In i (flat_map snd d) -> exists a x old, In (a, x) (visits [] T) /\ tid x = i /\ id_of x = Some old).
  { unfold d. destruct (dup T) eqn:Ed; [|intros i []]. eapply Edup; eauto. }
  destruct (clean_parts s T d l (new_id_func opts) W HT N H (Edis T l El) opts eq_refl)
    as (copies & s1 & s2 & E1 & E2 & R).
  exists copies, s2. split; [|exact R].
  assert (Q1 : (match dup T with
               | Some (x :: l0) => up_clean_duplicates up (x :: l0) opts
               | _ => ret []
               end) s = (Ok d, s1)).
  { etransitivity; [|exact E1]. unfold d. destruct (dup T) as [[|x l0]|] eqn:Ed; auto. apply (Cdup T). rewrite Ed; discriminate. }
  rewrite bind_run, Q1.
  assert (Q2 : (match Some l with
               | Some (x :: l0) => up_clean_disallowed up (x :: l0) opts
               | _ => ret []
               end) s1 = (Ok (map tid copies), s2)).
  { etransitivity; [|exact E2]. destruct l as [|x l]; auto. }
  rewrite bind_run, Q2. reflexivity.
Qed.

Lemma cleaned_nothing f g t : cleaned f g ([], []) t = t.
Proof. unfold cleaned. simpl. rewrite without_rwm, fresh_ids_nil. apply rwm_none. Qed.

Lemma no_cleaning up opts : (forall r s, up_get_disallowed up r s = (Ok None, s)) ->
  (forall r s, up_get_duplicates up r s = (Ok None, s)) -> cleans up opts (fun _ => Ok ([], [])).
Proof.
  intros H1 H2 s T W HT. exists [], s. split; [|split; [|split; [|split]]].
  - unfold clean_root. rewrite bind_run, H1, bind_run, H2. reflexivity.
  - rewrite cleaned_nothing. apply steps_refl; auto.
  - simpl. lia.
  - reflexivity.
  - intros c [].
Qed.

Lemma shared_keys_NoDup t :
  NoDup (shared stix_namespaces t ++ filter (fun i => negb (mem_str i (shared stix_namespaces t)))
           (shared (stix_namespaces ++ cybox_namespaces)%list t)).
Proof.
  apply NoDup_app. split; [apply shared_NoDup|]. split; [apply NoDup_filter, shared_NoDup|].
  intros i Hi Hj. apply filter_In in Hj as [_ Hj]. apply mem_str_In in Hi. rewrite Hi in Hj. discriminate.
Qed.

Lemma stix_cleans o opts v up D : dict_get v (STIX_UPDATERS o) = Some up ->
  stix_dirt o v = Some D -> cleans up opts D.
Proof.
  unfold STIX_UPDATERS, stix_dirt, dict_get.
  repeat match goal with |- context [String.eqb v ?x] => destruct (String.eqb v x) end;
    intros H1 H2; try discriminate; injection H1 as <-; injection H2 as <-.
  - apply (clean_root_cleans _ _ _ (untranslatable stix_1_0_rules) (fun _ => None)); auto; try congruence.
    + intros s T W HT. cbn [STIX_1_0_Updater up_get_disallowed].
      rewrite bind_run, (stix_1_0_get_disallowed_reads o s T W HT).
      destruct (untranslatable stix_1_0_rules T); reflexivity.
    + intros T l. apply untranslatable_elements, stix_1_0_rules_elem.
  - apply (clean_root_cleans _ _ _ (untranslatable (stix_1_0_1_rules o)) (fun t => Some (stix_duplicates t))); auto.
    + intros s T W HT. cbn [STIX_1_0_1_Updater up_get_disallowed].
      rewrite bind_run, (stix_1_0_1_get_disallowed_reads o s T W HT).
      destruct (untranslatable (stix_1_0_1_rules o) T); reflexivity.
    + intros s T W HT. cbn [STIX_1_0_1_Updater up_get_duplicates].
      rewrite bind_run, (stix_1_0_1_get_duplicates_reads s T W HT). reflexivity.
    + intros T l. apply untranslatable_elements, stix_1_0_1_rules_elem.
    + intros T d H N. injection H as <-. apply with_bearers_NoDup; auto. apply shared_keys_NoDup.
    + intros T d H. injection H as <-. intro i. apply with_bearers_in.
  - apply no_cleaning; reflexivity.
  - apply no_cleaning; reflexivity.
  - intros s T W HT. reflexivity.
Qed.

Lemma cybox_cleans o opts v up D : dict_get v (CYBOX_UPDATERS o) = Some up ->
  cybox_dirt v = Some D -> cleans up opts D.
Proof.
  unfold CYBOX_UPDATERS, cybox_dirt, dict_get.
  repeat match goal with |- context [String.eqb v ?x] => destruct (String.eqb v x) end;
    intros H1 H2; try discriminate; injection H1 as <-; injection H2 as <-.
  - apply no_cleaning; reflexivity.
  - apply (clean_root_cleans _ _ _ (untranslatable cybox_2_0_1_rules) (fun t => Some (cybox_duplicates t))); auto.
    + intros s T W HT. cbn [Cybox_2_0_1_Updater up_get_disallowed].
      rewrite bind_run, (cybox_2_0_1_get_disallowed_reads o s T W HT).
      destruct (untranslatable cybox_2_0_1_rules T); reflexivity.
    + intros s T W HT. cbn [Cybox_2_0_1_Updater up_get_duplicates].
      rewrite bind_run, (cybox_2_0_1_get_duplicates_reads s T W HT). reflexivity.
    + intros T l. apply untranslatable_elements, cybox_2_0_1_rules_elem.
    + intros T d H N. injection H as <-. apply with_bearers_NoDup; auto. apply shared_NoDup.
    + intros T d H. injection H as <-. intro i. apply with_bearers_in.
Qed.
