(** * Proofs: the translation of fields that keep their type. *)

From Coq Require Import String Ascii List Bool Arith Lia Permutation.
From Verif Require Import Str Xml XPath Utils Base Spec SpecField SpecHelper Lib Refine RefineBase Helpers Transfer SpecTransfer.
Import ListNotations.
Local Open Scope list_scope.

(** ** One node *)

Lemma tbare_notin i t : ~ In i (ids t) -> tbare i t = t.
Proof.
  tree_induction t. simpl. intro H. destruct (Nat.eqb_spec (h_id h) i) as [E|E]; [exfalso; auto|]. f_equal.
  rewrite <- (map_id ks) at 2. apply map_ext_in. intros k Hk. apply IH; auto. intro Hi. apply H. right. apply in_flat_map. eauto.
Qed.

Lemma tbare_tid i t : tid (tbare i t) = tid t.
Proof. destruct t; reflexivity. Qed.

Definition const_hdr (N : hdr) : hdr -> hdr := fun _ => N.

(** Taking the children away and putting the new element with them in the place
    of the node changes the header of the node. *)
Lemma transfer_tree N x t : forall anc a, NoDup (ids t) -> In (a, x) (visits anc t) -> tid t <> tid x ->
  tsubst (tid x) [Node N (kids x)] (tbare (tid x) t) = tset (tid x) (const_hdr N) t.
Proof.
  tree_induction t. intros anc a Nd Hx Ne. unfold tid in Ne at 1. cbn [head] in Ne. cbn [tbare tset].
  destruct (Nat.eqb_spec (h_id h) (tid x)) as [E|_]; [contradiction|]. cbn [tsubst]. f_equal.
  cbn [visits] in Hx. destruct Hx as [Hx|Hx]; [injection Hx as <- <-; exfalso; apply Ne; reflexivity|].
  apply in_flat_map in Hx as (k & Hk & Hx). cbn [ids] in Nd. apply NoDup_cons_iff in Nd as [_ Nd].
  rewrite flat_map_map, <- flat_map_single. apply flat_map_ext_in. intros k' Hk'. rewrite tbare_tid.
  assert (Q : k' <> k -> ~ In (tid x) (ids k')).
  { intros D Hi. apply D. eapply (NoDup_flat_map_disjoint ids ks); eauto. eapply visits_tid_in; eauto. }
  pose proof (NoDup_flat_map_in ids ks k' Nd Hk') as Nk'.
  destruct (Nat.eqb_spec (tid k') (tid x)) as [Ek|Ek].
  - assert (k' = k).
    { apply (NoDup_flat_map_disjoint ids ks k' k (tid x)); auto; [rewrite <- Ek; apply in_ids_self|eapply visits_tid_in; eauto]. }
    subst k'. pose proof (visits_self (Node h ks :: anc) k) as Hs.
    destruct (visits_unique k (Node h ks :: anc) _ _ _ _ Nk' Hs Hx Ek) as [_ <-]. f_equal. destruct k as [hk kk]. cbn [tset kids tid head] in *. unfold tid. cbn [head].
    rewrite Nat.eqb_refl. unfold const_hdr. f_equal. rewrite <- (map_id kk) at 1. apply map_ext_in. intros z Hz. symmetry. apply tset_id_notin.
    cbn [ids] in Nk'. apply NoDup_cons_iff in Nk' as [Nn _]. intro Hi. apply Nn. apply in_flat_map. eauto.
  - f_equal. destruct (in_dec Nat.eq_dec (tid x) (ids k')) as [Hi|Hi].
    + assert (k' = k).
      { eapply (NoDup_flat_map_disjoint ids ks); eauto. eapply visits_tid_in; eauto. }
      subst k'. eapply IH; eauto.
    + rewrite (tbare_notin _ _ Hi), (tset_id_notin _ _ _ Hi). apply tsubst_id_notin. exact Hi.
Qed.

Definition swap (i n j : nat) : nat := if Nat.eqb j i then n else j.

Lemma tset_const_ids i N t : ids (tset i (const_hdr N) t) = map (swap i (h_id N)) (ids t).
Proof.
  tree_induction t. cbn [tset ids map]. f_equal.
  - unfold swap, const_hdr. destruct (Nat.eqb (h_id h) i); reflexivity.
  - rewrite flat_map_map, map_flat_map. apply flat_map_ext_in. auto.
Qed.

Lemma swap_NoDup i n l : NoDup l -> ~ In n l -> NoDup (map (swap i n) l).
Proof.
  induction l as [|j l IH]; intros Nd Hn; simpl; [constructor|]. apply NoDup_cons_iff in Nd as [Nj Nd]. constructor.
  - intro H. apply in_map_iff in H as (k & E & Hk). unfold swap in E. destruct (Nat.eqb_spec k i) as [K|K], (Nat.eqb_spec j i) as [J|J].
    + apply Nj. congruence.
    + apply Hn. left. congruence.
    + apply Hn. right. congruence.
    + apply Nj. congruence.
  - apply IH; auto. intro H. apply Hn. right. exact H.
Qed.

Lemma swap_out i n l : i <> n -> ~ In i (map (swap i n) l).
Proof.
  intros D H. apply in_map_iff in H as (k & E & _). unfold swap in E. destruct (Nat.eqb_spec k i); congruence.
Qed.

Definition header_of (tag : option qname) (copy : bool) (over : list (qname * string)) (n : nat) (h : hdr) : hdr :=
  Hdr n KElem (match tag with Some q => q | None => h_tag h end) [] (translate_attributes copy over h) None false None.

Lemma bare_visits i t x : forall anc a, NoDup (ids t) -> In (a, x) (visits anc t) -> tid x = i ->
  exists a', In (a', Node (head x) []) (visits anc (tbare i t)) /\ (a = anc <-> a' = anc) /\ List.length a' = List.length a.
Proof.
  tree_induction t. intros anc a Nd Hx E. revert anc a Hx.
  assert (G : forall anc0 anc1 a, List.length anc0 = List.length anc1 -> In (a, x) (visits anc0 (Node h ks)) ->
     exists a', In (a', Node (head x) []) (visits anc1 (tbare i (Node h ks))) /\ List.length a' = List.length a).
  { revert Nd. clear IH. generalize (Node h ks). clear h ks. intro t. tree_induction t. intros Nd anc0 anc1 a L Hx. cbn [visits] in Hx. destruct Hx as [Hx|Hx].
    - injection Hx as <- <-. unfold tid in E. cbn [head] in E. cbn [tbare]. rewrite E, Nat.eqb_refl. exists anc1. split; [left; reflexivity|auto].
    - apply in_flat_map in Hx as (k & Hk & Hx). cbn [ids] in Nd. apply NoDup_cons_iff in Nd as [Nn Nd]. cbn [tbare].
      destruct (Nat.eqb_spec (h_id h) i) as [Eh|Eh].
      { exfalso. apply Nn. apply in_flat_map. exists k. split; auto. rewrite Eh, <- E. eapply visits_tid_in; eauto. }
      destruct (IH k Hk (NoDup_flat_map_in ids ks k Nd Hk) (Node h ks :: anc0) (Node h (map (tbare i) ks) :: anc1) a) as (a' & Ha & La).
      { simpl. congruence. } { exact Hx. }
      exists a'. split; auto. cbn [visits]. right. apply in_flat_map. exists (tbare i k). split; [apply in_map; auto|exact Ha]. }
  intros anc a Hx. destruct (G anc anc a eq_refl Hx) as (a' & Ha & La). exists a'. split; auto. split; auto.
  assert (Q : forall t b y, In (b, y) (visits anc t) -> exists p, b = p ++ anc).
  { clear. intros t b y H. revert H. revert b y. assert (G : forall t anc b y, In (b, y) (visits anc t) -> exists p, b = p ++ anc).
    { clear. intro t. tree_induction t. intros anc b y H. cbn [visits] in H. destruct H as [H|H]; [injection H as <- _; exists []; reflexivity|].
      apply in_flat_map in H as (k & Hk & H). destruct (IH k Hk _ _ _ H) as (p & ->). exists (p ++ [Node h ks]). rewrite <- app_assoc. reflexivity. }
    apply G. }
  destruct (Q _ _ _ Hx) as (p & ->). destruct (Q _ _ _ Ha) as (p' & ->). rewrite !app_length in La.
  split; intro H; [destruct p as [|? p]; [|exfalso; apply (f_equal (@List.length tree)) in H; rewrite app_length in H; simpl in H; lia]; destruct p'; [reflexivity|simpl in La; lia]
                  |destruct p' as [|? p']; [|exfalso; apply (f_equal (@List.length tree)) in H; rewrite app_length in H; simpl in H; lia]; destruct p; [reflexivity|simpl in La; lia]].
Qed.

Lemma tbare_perm i x t : forall anc a, NoDup (ids t) -> In (a, x) (visits anc t) -> tid x = i ->
  Permutation (ids t) (ids (tbare i t) ++ flat_map ids (kids x)).
Proof.
  tree_induction t. intros anc a Nd Hx E. cbn [visits] in Hx. destruct Hx as [Hx|Hx].
  - injection Hx as _ <-. unfold tid in E. cbn [head] in E. cbn [tbare]. rewrite E, Nat.eqb_refl. cbn. rewrite E. apply Permutation_refl.
  - apply in_flat_map in Hx as (k & Hk & Hx). cbn [ids] in Nd. apply NoDup_cons_iff in Nd as [Nn Nd]. cbn [tbare].
    destruct (Nat.eqb_spec (h_id h) i) as [Eh|Eh].
    { exfalso. apply Nn. apply in_flat_map. exists k. split; auto. rewrite Eh, <- E. eapply visits_tid_in; eauto. }
    cbn [ids app]. apply perm_skip. pose proof (IH k Hk _ _ (NoDup_flat_map_in ids ks k Nd Hk) Hx E) as P. clear IH.
    assert (Hi : In i (ids k)) by (rewrite <- E; eapply visits_tid_in; eauto).
    apply in_split in Hk as (l1 & l2 & ->). rewrite map_app, !flat_map_app. cbn [map flat_map].
    assert (R : forall l, (forall y, In y l -> ~ In i (ids y)) -> map (tbare i) l = l).
    { intros l H. rewrite <- (map_id l) at 2. apply map_ext_in. intros y Hy. apply tbare_notin. auto. }
    rewrite flat_map_app in Nd. cbn [flat_map] in Nd.
    rewrite (R l1), (R l2).
    + rewrite <- app_assoc. apply Permutation_app_head. rewrite P, <- !app_assoc. apply Permutation_app_head. apply Permutation_app_comm.
    + intros y Hy Iy. apply NoDup_app in Nd as (_ & Nd & _). apply NoDup_app in Nd as (_ & _ & D). apply (D i Hi). apply in_flat_map. eauto.
    + intros y Hy Iy. apply NoDup_app in Nd as (_ & _ & D). apply (D i); [apply in_flat_map; eauto|]. apply in_app_iff. auto.
Qed.

Lemma heap_perm i x T hp a : NoDup (hids hp) -> In T hp -> In (a, x) (visits [] T) -> tid x = i ->
  Permutation (hids hp) (hids (map (tbare i) hp) ++ flat_map ids (kids x)).
Proof.
  intros Nd HT Hx E. assert (Hi : In i (ids T)) by (rewrite <- E; eapply visits_tid_in; eauto).
  pose proof (tbare_perm i x T [] a (NoDup_flat_map_in ids hp T Nd HT) Hx E) as P.
  apply in_split in HT as (l1 & l2 & ->). unfold hids in *. rewrite map_app, !flat_map_app in *. cbn [map flat_map] in *.
  assert (R : forall l, (forall y, In y l -> ~ In i (ids y)) -> map (tbare i) l = l).
  { intros l H. rewrite <- (map_id l) at 2. apply map_ext_in. intros y Hy. apply tbare_notin. auto. }
  rewrite (R l1), (R l2).
  - rewrite <- app_assoc. apply Permutation_app_head. rewrite P, <- !app_assoc. apply Permutation_app_head. apply Permutation_app_comm.
  - intros y Hy Iy. apply NoDup_app in Nd as (_ & Nd & _). apply NoDup_app in Nd as (_ & _ & D). apply (D i Hi). apply in_flat_map. eauto.
  - intros y Hy Iy. apply NoDup_app in Nd as (_ & _ & D). apply (D i); [apply in_flat_map; eauto|]. apply in_app_iff. auto.
Qed.

Lemma fresh_wf s : wf_state s -> wf_state (St (heap s) (S (next s)) (gen s)).
Proof. intros [A B]. split; [exact A|]. cbn. intros i Hi. specialize (B i Hi). lia. Qed.

Lemma bare_wf s T a x : wf_state s -> In T (heap s) -> In (a, x) (visits [] T) ->
  wf_state (St (map (tbare (tid x)) (heap s)) (S (next s)) (gen s)).
Proof.
  intros [A B] HT Hx. pose proof (heap_perm (tid x) x T (heap s) a A HT Hx eq_refl) as P. unfold hids in P. split; cbn.
  - pose proof (Permutation_NoDup P A) as N. apply NoDup_app in N. tauto.
  - intros i Hi. assert (In i (flat_map ids (heap s))) as H.
    { eapply Permutation_in; [apply Permutation_sym, P|]. apply in_app_iff. auto. }
    specialize (B i H). lia.
Qed.

Section One.
Variables (tag : option qname) (copy : bool) (over : list (qname * string)).

Lemma same_starts s T a x : wf_state s -> In T (heap s) -> In (a, x) (visits [] T) ->
  exists a', (a = [] <-> a' = []) /\
    located (St (map (tbare (tid x)) (heap s)) (S (next s)) (gen s)) a' (Node (head x) []) /\
    translate_same tag copy over (tid x) s =
    (let new := Node (header_of tag copy over (next s) (head x)) (kids x) in
     match a' with [] => push new ;;; ret tt | _ => replace_xml_element (tid x) new end) (St (map (tbare (tid x)) (heap s)) (S (next s)) (gen s)).
Proof.
  intros W HT Hx. destruct (bare_visits (tid x) T x [] a (wf_NoDup s T W HT) Hx eq_refl) as (a' & Ha & Q & _). exists a'. split; [exact Q|].
  assert (L : located (St (map (tbare (tid x)) (heap s)) (S (next s)) (gen s)) a' (Node (head x) [])).
  { exists (tbare (tid x) T). split; [apply in_map; exact HT|exact Ha]. }
  split; [exact L|]. unfold translate_same. rewrite bind_run. unfold get_hdr. rewrite bind_run, (deref_in s T a x W HT Hx). unfold ret at 1.
  rewrite bind_run. unfold fresh. rewrite bind_run. unfold take_children. rewrite bind_run.
  pose proof (fresh_wf s W) as W1. rewrite (deref_in _ T a x W1) by auto. cbn [heap next gen snd]. cbv zeta.
  rewrite bind_run. pose proof (located_deref _ a' _ (bare_wf s T a x W HT Hx) L) as D. change (tid (Node (head x) [])) with (tid x) in D. rewrite D.
  unfold parent. cbn [fst]. destruct a'; reflexivity.
Qed.

Lemma same_inner s T p a x : wf_state s -> In T (heap s) -> In (p :: a, x) (visits [] T) ->
  translate_same tag copy over (tid x) s =
  (Ok tt, St (map (tset (tid x) (const_hdr (header_of tag copy over (next s) (head x)))) (heap s) ++ [Node (head x) []]) (S (next s)) (gen s)).
Proof.
  intros W HT Hx. destruct (same_starts s T (p :: a) x W HT Hx) as (a' & Q & L & ->). cbv zeta.
  destruct a' as [|q a']; [exfalso; destruct Q as [_ Q]; specialize (Q eq_refl); discriminate|]. unfold replace_xml_element.
  pose proof (bare_wf s T _ x W HT Hx) as W2.
  pose proof (supplant_run _ q a' (Node (head x) []) [Node (header_of tag copy over (next s) (head x)) (kids x)] W2 L) as R.
  change (tid (Node (head x) [])) with (tid x) in R. rewrite R. cbn [heap next gen]. rewrite map_map.
  match goal with |- (_, St (map ?f _ ++ _) _ _) = (_, St (map ?g _ ++ _) _ _) => assert (M : map f (heap s) = map g (heap s)); [|rewrite M; reflexivity] end.
  apply map_ext_in. intros y Hy. destruct (in_dec Nat.eq_dec (tid x) (ids y)) as [Hi|Hi].
  - assert (y = T) as -> by (apply (wf_same s y T (tid x)); auto; eapply visits_tid_in; eauto). apply (transfer_tree _ x T [] (p :: a) (wf_NoDup s T W HT) Hx).
    intro E. destruct (visits_unique T [] _ _ _ _ (wf_NoDup s T W HT) (visits_self [] T) Hx E) as [Z _]. discriminate.
  - rewrite (tbare_notin _ _ Hi), (tset_id_notin _ _ _ Hi). apply tsubst_id_notin. exact Hi.
Qed.

Lemma same_root s T : wf_state s -> In T (heap s) ->
  translate_same tag copy over (tid T) s =
  (Ok tt, St (map (tbare (tid T)) (heap s) ++ [Node (header_of tag copy over (next s) (head T)) (kids T)]) (S (next s)) (gen s)).
Proof.
  intros W HT. destruct (same_starts s T [] T W HT (visits_self [] T)) as (a' & Q & L & ->). cbv zeta.
  destruct Q as [Q _]. rewrite (Q eq_refl). reflexivity.
Qed.

Lemma inner_wf s T p a x : wf_state s -> In T (heap s) -> In (p :: a, x) (visits [] T) ->
  wf_state (St (map (tset (tid x) (const_hdr (header_of tag copy over (next s) (head x)))) (heap s) ++ [Node (head x) []]) (S (next s)) (gen s)).
Proof.
  intros [A B] HT Hx.
  assert (E : hids (map (tset (tid x) (const_hdr (header_of tag copy over (next s) (head x)))) (heap s)) = map (swap (tid x) (next s)) (hids (heap s))).
  { unfold hids. rewrite flat_map_map, map_flat_map. apply flat_map_ext_in. intros y _. apply tset_const_ids. }
  assert (Hi : In (tid x) (hids (heap s))) by (apply in_flat_map; exists T; split; auto; eapply visits_tid_in; eauto).
  assert (Hn : ~ In (next s) (hids (heap s))) by (intro H; specialize (B _ H); lia).
  split; cbn [heap next].
  - change (NoDup (hids (map (tset (tid x) (const_hdr (header_of tag copy over (next s) (head x)))) (heap s) ++ [Node (head x) []]))).
    rewrite hids_app, E. apply NoDup_app. split; [apply swap_NoDup; auto|]. split; [repeat constructor; intros []|].
    intros j Hj [<-|[]]. revert Hj. apply swap_out. intro Q. unfold tid in *. rewrite Q in Hi. auto.
  - change (forall i, In i (hids (map (tset (tid x) (const_hdr (header_of tag copy over (next s) (head x)))) (heap s) ++ [Node (head x) []])) -> i < S (next s)).
    rewrite hids_app, E. intros i H. apply in_app_iff in H as [H|[<-|[]]].
    + apply in_map_iff in H as (j & <- & Hj). unfold swap. destruct (Nat.eqb j (tid x)); [lia|]. specialize (B j Hj). lia.
    + specialize (B _ Hi). unfold tid in B. lia.
Qed.

Lemma root_wf s T : wf_state s -> In T (heap s) ->
  wf_state (St (map (tbare (tid T)) (heap s) ++ [Node (header_of tag copy over (next s) (head T)) (kids T)]) (S (next s)) (gen s)).
Proof.
  intros [A B] HT. pose proof (heap_perm (tid T) T T (heap s) [] A HT (visits_self [] T) eq_refl) as P.
  assert (Hn : ~ In (next s) (hids (heap s))) by (intro H; specialize (B _ H); lia).
  assert (P2 : Permutation (next s :: hids (heap s)) (hids (map (tbare (tid T)) (heap s) ++ [Node (header_of tag copy over (next s) (head T)) (kids T)]))).
  { rewrite hids_app. unfold hids at 3. cbn [flat_map ids header_of h_id]. rewrite app_nil_r. rewrite P. apply Permutation_middle. }
  split; cbn [heap next].
  - apply (Permutation_NoDup P2). constructor; auto.
  - intros i Hi. apply (Permutation_in i (Permutation_sym P2)) in Hi as [<-|Hi]; [lia|]. specialize (B i Hi). lia.
Qed.
End One.

(** ** All of them *)

Section All.
Variables (tag : option qname) (copy : bool) (over : list (qname * string)) (lo : nat).

Inductive redone (D : list nat) : tree -> tree -> Prop :=
| rd h ks h' ks' : (In (h_id h) D -> exists n, lo <= n /\ h' = header_of tag copy over n h) -> (~ In (h_id h) D -> h' = h) ->
    Forall2 (redone D) ks ks' -> redone D (Node h ks) (Node h' ks').

Lemma redone_refl t : redone [] t t.
Proof.
  tree_induction t. constructor; [intros []|auto|]. induction ks as [|k ks IHk]; constructor; [apply IH; left; auto|].
  apply IHk. intros; apply IH; right; auto.
Qed.

Lemma redone_step D i n N t : ~ In i D -> i < lo -> lo <= n ->
  forall t', (forall anc a y, In (a, y) (visits anc t) -> tid y = i -> N = header_of tag copy over n (head y)) ->
  redone D t t' -> redone (i :: D) t (tset i (const_hdr N) t').
Proof.
  intros Hi Li Ln. tree_induction t. intros t' HN R. inversion R as [? ? h' ks' A B F]; subst. cbn [tset]. constructor.
  - intros [E|HD].
    + rewrite (B ltac:(rewrite <- E; exact Hi)). rewrite <- E, Nat.eqb_refl. exists n. split; auto. unfold const_hdr.
      apply (HN [] [] (Node h ks)); [left; reflexivity|unfold tid; cbn; auto].
    + destruct (A HD) as (m & Lm & ->). exists m. split; auto. cbn [header_of h_id]. destruct (Nat.eqb_spec m i); [lia|reflexivity].
  - intro Ni. assert (Q : ~ In (h_id h) D) by (intro; apply Ni; right; auto). rewrite (B Q).
    destruct (Nat.eqb_spec (h_id h) i) as [E|E]; [exfalso; apply Ni; left; auto|reflexivity].
  - assert (HN' : forall k, In k ks -> forall anc a y, In (a, y) (visits anc k) -> tid y = i -> N = header_of tag copy over n (head y)).
    { intros k Hk anc a y Hy E. destruct (ids_visits k [Node h ks] (tid y)) as (a1 & y1 & Hy1 & E1); [eapply visits_tid_in; eauto|].
      assert (Hd : exists a2, In (a2, y) (visits [Node h ks] k)).
      { clear -Hy. revert anc a y Hy. generalize [Node h ks] as b. tree_induction k. intros b anc a y Hy. cbn [visits] in *.
        destruct Hy as [Hy|Hy]; [injection Hy as _ <-; exists b; left; reflexivity|]. apply in_flat_map in Hy as (k & Hk & Hy).
        destruct (IH k Hk (Node h0 ks0 :: b) _ _ _ Hy) as (a2 & H2). exists a2. right. apply in_flat_map. eauto. }
      destruct Hd as (a2 & H2). apply (HN [] a2 y); auto. cbn [visits]. right. apply in_flat_map. eauto. }
    clear A B R HN. revert ks' F. induction ks as [|k ks IHk]; intros ks' F; inversion F; subst; cbn [map]; constructor.
    + apply IH; auto; [left; auto|]. apply HN'. left. auto.
    + apply IHk; auto; [intros; apply IH; auto; right; auto|]. intros k0 H0. apply HN'. right. auto.
Qed.

Lemma redone_find D i t : ~ In i D -> forall t' anc anc' a y, List.length anc' = List.length anc -> redone D t t' -> In (a, y) (visits anc t) -> tid y = i ->
  exists a' y', In (a', y') (visits anc' t') /\ head y' = head y /\ List.length a' = List.length a.
Proof.
  intro Hi. tree_induction t. intros t' anc anc' a y L R Hy E. inversion R as [? ? h' ks' A B F]; subst. cbn [visits] in Hy. destruct Hy as [Hy|Hy].
  - injection Hy as <- <-. exists anc'. eexists. split; [left; reflexivity|]. split; [apply B; exact Hi|exact L].
  - apply in_flat_map in Hy as (k & Hk & Hy). clear A B R.
    assert (G : exists k', In k' ks' /\ redone D k k').
    { clear -F Hk. induction F as [|k0 k0' ks ks' R F IHF]; [destruct Hk|]. destruct Hk as [<-|Hk]; [exists k0'; split; [left; auto|auto]|].
      destruct (IHF Hk) as (k' & Hk' & R'). exists k'. split; [right; auto|auto]. }
    destruct G as (k' & Hk' & R'). destruct (IH k Hk k' (Node h ks :: anc) (Node h' ks' :: anc') a y ltac:(simpl; congruence) R' Hy eq_refl) as (a' & y' & H' & Q).
    exists a', y'. split; auto. cbn [visits]. right. apply in_flat_map. eauto.
Qed.

Lemma all_run C L : NoDup (ids C) -> NoDup L ->
  forall s C' D, wf_state s -> In C' (heap s) -> redone D C C' -> lo <= next s ->
  (forall i, In i L -> ~ In i D /\ i < lo /\ exists p a y, In (p :: a, y) (visits [] C) /\ tid y = i) ->
  exists s' C'' D', for_each L (translate_same tag copy over) s = (Ok tt, s') /\ wf_state s' /\ In C'' (heap s') /\ redone D' C C'' /\
    (forall i, In i D' <-> In i L \/ In i D) /\ forall X, In X (heap s) -> X <> C' -> In X (heap s').
Proof.
  intros NC. induction L as [|i L IH]; intros NL s C' D W HC R Hn HL.
  - exists s, C', D. repeat (split; auto). intros [[]|H]; auto.
  - apply NoDup_cons_iff in NL as [Ni NL]. destruct (HL i (or_introl eq_refl)) as (ND & Li & p & a & y & Hy & Ey).
    destruct (redone_find D i C ND C' [] [] _ _ eq_refl R Hy Ey) as (a' & x & Hx & Hh & La).
    destruct a' as [|q a']; [discriminate|]. assert (Ex : tid x = i) by (unfold tid in *; congruence).
    cbn [for_each]. rewrite bind_run, <- Ex, (same_inner tag copy over s C' q a' x W HC Hx).
    set (N := header_of tag copy over (next s) (head x)). set (s1 := St _ _ _).
    pose proof (inner_wf tag copy over s C' q a' x W HC Hx) as W1. fold N s1 in W1.
    assert (Qo : forall X, In X (heap s) -> X <> C' -> tset (tid x) (const_hdr N) X = X).
    { intros X HX NX. apply tset_id_notin. intro Hi. apply NX. apply (wf_same s X C' (tid x)); auto. eapply visits_tid_in; eauto. }
    destruct (map_replace (tset (tid x) (const_hdr N)) (heap s) C' Qo HC) as [M1 M2].
    destruct (IH NL s1 (tset (tid x) (const_hdr N) C') (i :: D) W1) as (s' & C'' & D' & E & W' & HC'' & R' & HD & K).
    + cbn. apply in_app_iff. auto.
    + rewrite Ex. apply (redone_step D i (next s) N C ND Li Hn C'); auto. intros anc b z Hz Ez. unfold N. rewrite Hh.
      destruct (ids_visits C [] i) as (b1 & z1 & Hz1 & Ez1); [rewrite <- Ez; eapply visits_tid_in; eauto|].
      assert (z = y).
      { assert (Hd : exists a2, In (a2, z) (visits [] C)).
        { clear -Hz. revert Hz. generalize (@nil tree) as b0. revert anc b z. tree_induction C. intros anc a y b0 Hy. cbn [visits] in *.
          destruct Hy as [Hy|Hy]; [injection Hy as _ <-; exists b0; left; reflexivity|]. apply in_flat_map in Hy as (k & Hk & Hy).
          destruct (IH k Hk _ _ _ (Node h ks :: b0) Hy) as (a2 & H2). exists a2. right. apply in_flat_map. eauto. }
        destruct Hd as (a2 & H2). destruct (visits_unique C [] _ _ _ _ NC H2 Hy ltac:(congruence)). auto. }
      subst z. reflexivity.
    + cbn. lia.
    + intros j Hj. destruct (HL j (or_intror Hj)) as (A & B & G). split; [|split; auto]. intros [<-|Hd]; auto.
    + exists s', C'', D'. split; [exact E|]. split; [exact W'|]. split; [exact HC''|]. split; [exact R'|]. split.
      * intro j. rewrite HD. cbn. rewrite ?Ex. tauto.
      * intros X HX NX. apply K; [cbn; apply in_app_iff; auto|]. intro Q.
        assert (Z : In (next s) (ids X)).
        { rewrite Q, tset_const_ids. apply in_map_iff. exists (tid x). split; [unfold swap; rewrite Nat.eqb_refl; reflexivity|]. eapply visits_tid_in; eauto. }
        pose proof (wf_lt s X (next s) W HX Z). lia.
Qed.
End All.

(** ** In content *)

Lemma redone_content tag copy over lo D l t : NoDup (map fst over) ->
  forall anc t', (forall a y, In (a, y) (visits anc t) -> (In (tid y) D <-> match_path l (a, y) = true) /\ NoDup (map fst (h_attr (head y)))) ->
  redone tag copy over lo D t t' ->
  node_by_node (fun a x h' => if chosen l a x then new_header tag copy over (head x) h' else h' = head x) (map erase anc) (erase t) (erase t').
Proof.
  intro No. tree_induction t. intros anc t' HD R. inversion R as [? ? h' ks' A B F]; subst. cbn [erase]. constructor.
  - destruct (HD anc (Node h ks) (or_introl eq_refl)) as [Q NA]. unfold tid in Q. cbn [head] in Q, NA.
    pose proof (match_path_natural l (anc, Node h ks)) as Nt. unfold pathf in Nt. cbn [fst snd erase] in Nt. unfold chosen. cbn [head]. 
    rewrite <- Nt. destruct (match_path l (anc, Node h ks)).
    + destruct (A (proj2 Q eq_refl)) as (n & _ & ->). unfold new_header. cbn [set_id header_of h_kind h_tag h_decl h_text h_tail].
      repeat (split; [destruct tag; reflexivity|]). intro k. unfold attr_of. cbn [set_id header_of h_attr].
      rewrite (new_attributes copy over h k No NA). destruct h; reflexivity.
    + rewrite (B ltac:(intro H; apply Q in H; discriminate)). reflexivity.
  - change (Node (set_id 0 h) (map erase ks) :: map erase anc) with (map erase (Node h ks :: anc)). 
    assert (HD' : forall k, In k ks -> forall a y, In (a, y) (visits (Node h ks :: anc) k) -> (In (tid y) D <-> match_path l (a, y) = true) /\ NoDup (map fst (h_attr (head y)))).
    { intros k Hk a y Hy. apply HD. cbn [visits]. right. apply in_flat_map. eauto. }
    revert HD'. generalize (Node h ks :: anc) as b. intros b HD'. clear A B R HD. revert ks' F.
    induction ks as [|k ks IHk]; intros ks' F; inversion F; subst; cbn [map]; constructor.
    + apply IH; auto; [left; auto|]. apply HD'. left; auto.
    + apply IHk; auto; [intros; apply IH; auto; right; auto|]. intros k0 H0. apply HD'. right; auto.
Qed.

Lemma distinct_visit T a y : distinct_attributes T -> In (a, y) (visits [] T) -> NoDup (map fst (h_attr (head y))).
Proof. intros D H. apply D. eapply visits_in_nodes; eauto. Qed.

Lemma transferred ns xnode tag copy over l s T : wf_state s -> In T (heap s) -> distinct_attributes T -> NoDup (map fst over) ->
  usable ns xnode l -> chosen l [] (erase T) = false ->
  exists s' e, translate_moved ns xnode tag copy over (tid T) s = (Ok tt, s') /\ becomes s T s' e /\ moved l tag copy over (erase T) e.
Proof.
  intros W HT DA No U Ro. apply usable_pure in U as [Cn P]. pose proof (wf_NoDup s T W HT) as NT.
  assert (R0 : match_path l ([], T) = false) by (rewrite (match_path_natural l ([], T)); exact Ro).
  unfold translate_moved. rewrite bind_run, (xpath_root s T _ _ l) by auto.
  destruct (all_run tag copy over (next s) T (select_ids (match_path l) T) NT (select_ids_NoDup _ T NT) s T [] W HT (redone_refl _ _ _ _ T) (le_n _))
    as (s' & C & D & E & W' & HC & R & HD & K).
  - intros i Hi. split; [intros []|]. pose proof (select_ids_in _ _ _ Hi) as Hd. split; [eapply wf_lt; eauto|].
    destruct (ids_visits T [] i Hd) as (a & y & Hy & Ey). destruct a as [|p a]; [|exists p, a, y; auto].
    exfalso. rewrite <- Ey in Hi. apply (select_ids_iff (match_path l) T [] y NT Hy) in Hi.
    destruct T as [h ks]. cbn [visits] in Hy. destruct Hy as [Hy|Hy]; [injection Hy as <-; congruence|].
    apply in_flat_map in Hy as (k & Hk & Hy).
    assert (G : forall t anc b z, In (b, z) (visits anc t) -> List.length anc <= List.length b).
    { clear. intro t. tree_induction t. intros anc b z H. cbn [visits] in H. destruct H as [H|H]; [injection H as <- _; auto|].
      apply in_flat_map in H as (k & Hk & H). specialize (IH k Hk _ _ _ H). simpl in IH. lia. }
    specialize (G _ _ _ _ Hy). simpl in G. lia.
  - assert (RC : redone tag copy over (next s) D T C) by exact R.
    assert (Et : tid C = tid T).
    { inversion R as [h ks h' ks' A B F X Y]; subst. unfold tid. cbn [head]. rewrite B; auto. intro H. apply HD in H as [H|[]].
      apply (select_ids_iff (match_path l) (Node h ks) [] (Node h ks) NT (visits_self [] _)) in H. congruence. }
    exists s', (erase C). split; [exact E|]. split.
    + split; [exact W'|]. split; [exists C; auto|]. intros X HX NX. apply K; auto.
    + apply (redone_content tag copy over (next s) D l T No [] C); auto. intros a y Hy. split; [|eapply distinct_visit; eauto].
      rewrite HD. rewrite (select_ids_iff (match_path l) T a y NT Hy). split; [intros [H|[]]; auto|auto].
Qed.

Lemma transferred_root ns xnode tag copy over l s T : wf_state s -> In T (heap s) ->
  usable ns xnode l -> chosen l [] (erase T) = true ->
  exists s', translate_moved ns xnode tag copy over (tid T) s = (Ok tt, s') /\ becomes s T s' (Node (head (erase T)) []).
Proof.
  intros W HT U Ro. apply usable_pure in U as [Cn P]. pose proof (wf_NoDup s T W HT) as NT.
  assert (R0 : match_path l ([], T) = true) by (rewrite (match_path_natural l ([], T)); exact Ro).
  unfold translate_moved. rewrite bind_run, (xpath_root s T _ _ l) by auto.
  pose proof (select_ids_NoDup (match_path l) T NT) as NS. pose proof (select_ids_in (match_path l) T) as SI.
  assert (Es : exists L, select_ids (match_path l) T = tid T :: L).
  { destruct T as [h ks]. unfold select_ids, select. cbn [visits filter]. rewrite R0. cbn [map snd]. eauto. }
  destruct Es as (L & Es). rewrite Es in *. apply NoDup_cons_iff in NS as [NS1 NS2].
  cbn [for_each]. rewrite bind_run, (same_root tag copy over s T W HT).
  pose proof (root_wf tag copy over s T W HT) as W1. set (New := Node (header_of tag copy over (next s) (head T)) (kids T)) in *. set (s1 := St _ _ _) in *.
  assert (Qo : forall X, In X (heap s) -> X <> T -> tbare (tid T) X = X).
  { intros X HX NX. apply tbare_notin. intro Hi. apply NX. apply (wf_same s X T (tid T)); auto. apply in_ids_self. }
  destruct (map_replace (tbare (tid T)) (heap s) T Qo HT) as [M1 M2].
  assert (BT : tbare (tid T) T = Node (head T) []) by (destruct T as [h ks]; cbn; unfold tid; cbn; rewrite Nat.eqb_refl; reflexivity).
  assert (HN : In New (heap s1)) by (cbn; apply in_app_iff; right; left; reflexivity).
  assert (Fr : forall X, In X (heap s) -> ~ In (next s) (ids X)) by (intros X HX Z; pose proof (wf_lt s X (next s) W HX Z); lia).
  assert (NNew : NoDup (ids New)) by (eapply wf_NoDup; eauto).
  destruct (all_run tag copy over (next s) New L NNew NS2 s1 New [] W1 HN (redone_refl _ _ _ _ New)) as (s' & C & D & E & W' & HC & R & HD & K).
  - cbn. lia.
  - intros i Hi. split; [intros []|]. pose proof (SI i (or_intror Hi)) as Hd. split; [eapply wf_lt; eauto|].
    assert (Hk : exists k, In k (kids T) /\ In i (ids k)).
    { destruct T as [h ks]. cbn [ids] in Hd. destruct Hd as [Hd|Hd]; [exfalso; apply NS1; unfold tid; cbn; rewrite Hd; exact Hi|]. apply in_flat_map in Hd as (k & Hk & Hd). exists k. auto. }
    destruct Hk as (k & Hk & Hik). destruct (ids_visits k [New] i Hik) as (a & y & Hy & Ey).
    assert (G : forall t anc b z, In (b, z) (visits anc t) -> List.length anc <= List.length b).
    { clear. intro t. tree_induction t. intros anc b z H. cbn [visits] in H. destruct H as [H|H]; [injection H as <- _; auto|].
      apply in_flat_map in H as (k & Hk & H). specialize (IH k Hk _ _ _ H). simpl in IH. lia. }
    pose proof (G _ _ _ _ Hy) as Lb. destruct a as [|p a]; [simpl in Lb; lia|]. exists p, a, y. split; auto. unfold New. cbn [visits]. right. apply in_flat_map. exists k. auto.
  - exists s'. split; [exact E|]. split; [exact W'|]. split.
    + exists (Node (head T) []). split; [|split; [reflexivity|destruct T; reflexivity]]. apply K.
      * cbn. apply in_app_iff. left. rewrite <- BT. exact M2.
      * intro Q. assert (Z : tid (Node (head T) []) = tid New) by (rewrite Q; reflexivity). unfold New, tid in Z. cbn in Z.
        apply (Fr T HT). rewrite <- Z. exact (in_ids_self T).
    + intros X HX NX. apply K; [cbn; apply in_app_iff; left; auto|]. intro Q. apply (Fr X HX). rewrite Q. unfold New. cbn. auto.
Qed.

(** ** Texts and scopes *)

Lemma moved_texts l tag copy over t t' :
  (forall a x, In (a, x) (visits [] t) -> chosen l a x = true -> h_text (head x) = None /\ h_tail (head x) = None) ->
  moved l tag copy over t t' -> same_texts t t'.
Proof.
  unfold moved, same_texts. intro H.
  assert (G : forall t anc b t', (forall a x, In (a, x) (visits anc t) -> chosen l a x = true -> h_text (head x) = None /\ h_tail (head x) = None) ->
    node_by_node (fun anc x h' => if chosen l anc x then new_header tag copy over (head x) h' else h' = head x) anc t t' ->
    Forall2 (fun c c' : ctx => h_text (head (snd c')) = h_text (head (snd c)) /\ h_tail (head (snd c')) = h_tail (head (snd c))) (visits anc t) (visits b t')).
  { clear. intro t. tree_induction t. intros anc b t' H R. inversion R as [? ? ? h' ks' Q F]; subst. cbn [visits]. constructor.
    - cbn [snd head]. specialize (H anc (Node h ks) (or_introl eq_refl)). cbn [head] in *. destruct (chosen l anc (Node h ks)); [|subst; auto].
      destruct (H eq_refl) as [-> ->]. destruct Q as (_ & _ & _ & -> & -> & _). auto.
    - assert (H' : forall k, In k ks -> forall a x, In (a, x) (visits (Node h ks :: anc) k) -> chosen l a x = true -> h_text (head x) = None /\ h_tail (head x) = None).
      { intros k Hk a x Hx. apply H. cbn [visits]. right. apply in_flat_map. eauto. }
      revert H' F. generalize (Node h ks :: anc) as c1. generalize (Node h' ks' :: b) as c2. intros c2 c1 H' F. clear R Q H. revert ks' F.
      induction ks as [|k ks IHk]; intros ks' F; inversion F; subst; cbn [flat_map]; [constructor|]. apply Forall2_app.
      + apply IH; [left; auto| |auto]. apply H'. left; auto.
      + apply IHk; auto; [intros; apply IH; auto; right; auto|]. intros k0 H0. apply H'. right; auto. }
  apply G. exact H.
Qed.

Lemma moved_scopes l tag copy over t t' :
  (forall a x, In (a, x) (visits [] t) -> chosen l a x = true -> h_decl (head x) = []) ->
  moved l tag copy over t t' -> same_scopes t t'.
Proof.
  unfold moved, same_scopes. intro H.
  assert (G : forall t anc b t', flat_map (fun a => h_decl (head a)) b = flat_map (fun a => h_decl (head a)) anc ->
    (forall a x, In (a, x) (visits anc t) -> chosen l a x = true -> h_decl (head x) = []) ->
    node_by_node (fun anc x h' => if chosen l anc x then new_header tag copy over (head x) h' else h' = head x) anc t t' ->
    Forall2 (fun c c' : ctx => forall p, env_get p (env_of (fst c') (snd c')) = env_get p (env_of (fst c) (snd c))) (visits anc t) (visits b t')).
  { clear. intro t. tree_induction t. intros anc b t' Eb H R. inversion R as [? ? ? h' ks' Q F]; subst. 
    assert (Eh : h_decl h' = h_decl h).
    { specialize (H anc (Node h ks) (or_introl eq_refl)). cbn [head] in *. destruct (chosen l anc (Node h ks)); [|subst; auto].
      rewrite (H eq_refl). apply Q. }
    cbn [visits]. constructor.
    - intro p. unfold env_of. cbn [fst snd head flat_map]. rewrite Eh, Eb. reflexivity.
    - assert (H' : forall k, In k ks -> forall a x, In (a, x) (visits (Node h ks :: anc) k) -> chosen l a x = true -> h_decl (head x) = []).
      { intros k Hk a x Hx. apply H. cbn [visits]. right. apply in_flat_map. eauto. }
      assert (Ec : flat_map (fun a => h_decl (head a)) (Node h' ks' :: b) = flat_map (fun a => h_decl (head a)) (Node h ks :: anc))
        by (cbn [flat_map head]; rewrite Eh, Eb; reflexivity).
      revert H' F Ec. generalize (Node h ks :: anc) as c1. generalize (Node h' ks' :: b) as c2. intros c2 c1 H' F Ec. clear R Q H Eh. revert ks' F.
      induction ks as [|k ks IHk]; intros ks' F; inversion F; subst; cbn [flat_map]; [constructor|]. apply Forall2_app.
      + apply IH; auto; [left; auto|]. apply H'. left; auto.
      + apply IHk; auto; [intros; apply IH; auto; right; auto|]. intros k0 H0. apply H'. right; auto. }
  apply G; auto.
Qed.

Lemma nbn_visits {R : list tree -> tree -> hdr -> Prop} t : forall anc b t', node_by_node R anc t t' ->
  Forall2 (fun c c' : ctx => R (fst c) (snd c) (head (snd c'))) (visits anc t) (visits b t').
Proof.
  tree_induction t. intros anc b t' N. inversion N as [? ? ? h' ks' Q F]; subst. cbn [visits]. constructor; [exact Q|].
  revert F. generalize (Node h ks :: anc) as c1. generalize (Node h' ks' :: b) as c2. intros c2 c1 F. clear N Q. revert ks' F.
  induction ks as [|k ks IHk]; intros ks' F; inversion F; subst; cbn [flat_map]; [constructor|]. apply Forall2_app.
  - apply IH; [left; auto|auto].
  - apply IHk; auto. intros; apply IH; auto; right; auto.
Qed.

Lemma moved_names l tag copy over t t' :
  moved l tag copy over t t' ->
  Forall2 (fun c c' => h_tag (head (snd c')) = if chosen l (fst c) (snd c) then match tag with Some q => q | None => h_tag (head (snd c)) end else h_tag (head (snd c)))
    (visits [] t) (visits [] t').
Proof.
  intro M. pose proof (nbn_visits t [] [] t' M) as V. induction V as [|c c' v v' H V IH]; constructor; auto. destruct (chosen l (fst c) (snd c)); [apply H|rewrite H; reflexivity].
Qed.

Lemma moved_text_lost l tag copy over t t' a x :
  moved l tag copy over t t' -> In (a, x) (visits [] t) -> chosen l a x = true ->
  h_text (head x) <> None \/ h_tail (head x) <> None -> ~ same_texts t t'.
Proof.
  intros M Hx C N S. pose proof (nbn_visits t [] [] t' M) as V. unfold same_texts in S.
  revert Hx V S. generalize (visits [] t) as v. generalize (visits [] t') as v'. intros v' v Hx V. revert Hx.
  induction V as [|c c' v v' Q V IH]; intros Hx S; [destruct Hx|]. inversion S as [|? ? ? ? [S1 S2] S3]; subst. destruct Hx as [E|Hx]; [|auto].
  subst c. cbn [fst snd] in *. rewrite C in Q. destruct Q as (_ & _ & _ & Q1 & Q2 & _). destruct N as [N|N]; apply N; congruence.
Qed.
