(** * From heap programs to functions on document content: the machinery. *)

From Coq Require Import String Ascii List Bool Arith Lia Permutation.
From Verif Require Import Str Xml XPath Utils Base Spec SpecDoc Lib Api.
Import ListNotations.

(** ** Nodes of a tree *)

Lemma visits_node anc h ks :
  visits anc (Node h ks) = (anc, Node h ks) :: flat_map (visits (Node h ks :: anc)) ks.
Proof. reflexivity. Qed.

Lemma visits_keys_NoDup T anc : NoDup (ids T) -> NoDup (map (fun c => tid (snd c)) (visits anc T)).
Proof. rewrite visits_ids. auto. Qed.

Lemma NoDup_map_inj {A B} (f : A -> B) l x y :
  NoDup (map f l) -> In x l -> In y l -> f x = f y -> x = y.
Proof.
  induction l as [|z l IH]; simpl; intros N Hx Hy E; [tauto|].
  inversion N as [|? ? Hz N']; subst. destruct Hx as [->|Hx], Hy as [->|Hy]; auto.
  - exfalso. apply Hz. rewrite E. apply in_map; auto.
  - exfalso. apply Hz. rewrite <- E. apply in_map; auto.
Qed.

Lemma visits_unique T anc a x b y : NoDup (ids T) ->
  In (a, x) (visits anc T) -> In (b, y) (visits anc T) -> tid x = tid y -> a = b /\ x = y.
Proof.
  intros N Hx Hy E.
  assert ((a, x) = (b, y)); [|inversion_clear H; auto].
  eapply (NoDup_map_inj (fun c : ctx => tid (snd c))); eauto. apply visits_keys_NoDup; auto.
Qed.

Lemma visits_tid_in T anc a x : In (a, x) (visits anc T) -> In (tid x) (ids T).
Proof. intro H. eapply visits_sub; eauto. apply in_ids_self. Qed.

Lemma ids_visits T anc i : In i (ids T) -> exists a x, In (a, x) (visits anc T) /\ tid x = i.
Proof.
  rewrite <- (visits_ids T anc). intro H. apply in_map_iff in H as ([a x] & E & H). eauto.
Qed.

Lemma visits_sub_NoDup T : forall anc a x, NoDup (ids T) -> In (a, x) (visits anc T) -> NoDup (ids x).
Proof.
  tree_induction T. intros anc a x N H. simpl in H. destruct H as [H|H].
  - inversion H; subst; auto.
  - apply in_flat_map in H as (k & Hk & H). eapply IH; eauto.
    simpl in N. inversion N as [|? ? _ N']; subst. eapply NoDup_flat_map_in; eauto.
Qed.

(** The nodes of a subtree are nodes of the tree. *)
Lemma visits_trans T : forall anc a x b y,
  In (a, x) (visits anc T) -> In (b, y) (visits a x) -> In (b, y) (visits anc T).
Proof.
  tree_induction T. intros anc a x b y H H'. simpl in H. destruct H as [H|H].
  - inversion H; subst; auto.
  - apply in_flat_map in H as (k & Hk & H). simpl. right. apply in_flat_map.
    exists k; split; auto. eapply IH; eauto.
Qed.

(** Every ancestor is a node, and it sees the descendant. *)
Lemma visits_anc_ctx T : forall anc a x z, In (a, x) (visits anc T) -> In z a ->
  In z anc \/ exists a1 a2, a = a1 ++ z :: a2 /\ In (a2, z) (visits anc T) /\
     In (a1 ++ [z], x) (visits [] z).
Proof.
  tree_induction T. intros anc a x z H Hz. simpl in H. destruct H as [H|H].
  - inversion H; subst; auto.
  - apply in_flat_map in H as (k & Hk & H).
    destruct (IH k Hk _ _ _ z H Hz) as [[E|E]|(a1 & a2 & E & H1 & H2)].
    + subst z. right. rewrite visits_anc in H. apply in_map_iff in H as ([b y] & E & H).
      simpl in E. inversion E; subst. exists b, anc. split; auto. split; [left; auto|].
      simpl. right. apply in_flat_map. exists k; split; auto.
      rewrite visits_anc. apply in_map_iff. exists (b, x); auto.
    + left; auto.
    + right. exists a1, a2. split; auto. split; auto. simpl. right.
      apply in_flat_map. exists k; auto.
Qed.

(** The parent of a node has it among its children. *)
Lemma visits_parent T : forall anc p a x, In (p :: a, x) (visits anc T) -> (p :: a) <> anc ->
  In x (kids p) /\ In (a, p) (visits anc T).
Proof.
  tree_induction T. intros anc p a x H Hn. simpl in H. destruct H as [H|H].
  - inversion H; subst; congruence.
  - apply in_flat_map in H as (k & Hk & H). destruct k as [hk kk]. simpl in H.
    destruct H as [H|H].
    + inversion H; subst. split; auto. left; auto.
    + destruct (IH _ Hk (Node h ks :: anc) p a x) as [H1 H2].
      * simpl. right; auto.
      * intro E. inversion E; subst. apply in_flat_map in H as (k' & Hk' & H).
        rewrite visits_anc in H. apply in_map_iff in H as ([b y] & E' & _). simpl in E'.
        inversion E' as [[E1 E2]]. apply (f_equal (@length tree)) in E1.
        rewrite app_length in E1. simpl in E1. lia.
      * split; auto. right. apply in_flat_map. exists (Node hk kk); auto.
Qed.

Lemma visits_anc_app T : forall anc a x, In (a, x) (visits anc T) -> exists b, a = b ++ anc.
Proof.
  intros anc a x H. rewrite visits_anc in H. apply in_map_iff in H as ([b y] & E & _).
  simpl in E. inversion E; subst; eauto.
Qed.

Lemma visits_strict T anc a x : In (a, x) (visits anc T) ->
  (a, x) = (anc, T) \/ exists b, a = b ++ T :: anc.
Proof.
  destruct T as [h ks]. simpl. intros [H|H]; auto. right.
  apply in_flat_map in H as (k & _ & H). apply visits_anc_app in H. auto.
Qed.

(** In document order a node is immediately followed by its descendants. *)
Lemma visits_contig T : forall anc l1 a x l2, visits anc T = l1 ++ (a, x) :: l2 ->
  exists l3, (a, x) :: l2 = visits a x ++ l3.
Proof.
  tree_induction T. intros anc l1 a x l2 E. simpl in E.
  destruct l1 as [|c l1]; simpl in E.
  - inversion E; subst. exists []. rewrite app_nil_r. reflexivity.
  - injection E as _ E'. clear c.
    assert (G : forall ks', incl ks' ks -> forall l1,
      flat_map (visits (Node h ks :: anc)) ks' = l1 ++ (a, x) :: l2 ->
      exists l3, (a, x) :: l2 = visits a x ++ l3).
    { induction ks' as [|k ks' IHk]; intros Hi l E.
      - destruct l; discriminate.
      - simpl in E. apply app_eq_app in E as (w & [[E1 E2]|[E1 E2]]).
        + destruct w as [|c w].
          * simpl in E2. apply (IHk (fun z Hz => Hi z (or_intror Hz)) []). simpl. auto.
          * inversion E2; subst c. symmetry in E1.
            assert (E1' : visits (Node h ks :: anc) k = l ++ (a, x) :: w) by (rewrite <- E1; auto).
            destruct (IH k (Hi k (or_introl eq_refl)) _ _ _ _ _ E1') as (l3 & E3).
            exists (l3 ++ flat_map (visits (Node h ks :: anc)) ks').
            rewrite app_assoc, <- E3. simpl. reflexivity.
        + apply (IHk (fun z Hz => Hi z (or_intror Hz)) w). auto. }
    eapply G; eauto. apply incl_refl.
Qed.

(** Nodes strictly below [x] come after [x]. *)
Lemma visits_below_after T l1 a x l2 b y : NoDup (ids T) ->
  visits [] T = l1 ++ (a, x) :: l2 -> In (b, y) (tl (visits a x)) ->
  ~ In (tid y) (map (fun c => tid (snd c)) l1) /\ tid y <> tid x.
Proof.
  intros N E H. destruct (visits_contig _ _ _ _ _ _ E) as (l3 & E3).
  assert (H2 : In (b, y) l2).
  { destruct x as [hx kx]. simpl in E3, H. injection E3 as E4. rewrite E4.
    apply in_app_iff; left. exact H. }
  pose proof (visits_keys_NoDup T [] N) as K. rewrite E, map_app in K. simpl in K.
  apply NoDup_app in K as (_ & K2 & K3). inversion K2 as [|? ? K4 _]; subst. split.
  - intro Hi. apply (K3 _ Hi). right. apply in_map_iff. exists (b, y); auto.
  - intro Ey. apply K4. rewrite <- Ey. apply in_map_iff. exists (b, y); auto.
Qed.

Lemma tl_visits_ids a x : map (fun c : ctx => tid (snd c)) (tl (visits a x)) = flat_map ids (kids x).
Proof.
  destruct x as [h ks]. simpl. rewrite map_flat_map. apply flat_map_ext_in.
  intros k Hk. apply visits_ids.
Qed.

(** ** Well-formed memories *)

Lemma wf_NoDup s T : wf_state s -> In T (heap s) -> NoDup (ids T).
Proof. intros [N _] H. eapply NoDup_flat_map_in; eauto. Qed.

Lemma wf_lt s T i : wf_state s -> In T (heap s) -> In i (ids T) -> i < next s.
Proof. intros [_ L] H Hi. apply L. apply in_flat_map; eauto. Qed.

Lemma NoDup_flat_map_disjoint {A B} (f : A -> list B) l x y i :
  NoDup (flat_map f l) -> In x l -> In y l -> In i (f x) -> In i (f y) -> x = y.
Proof.
  induction l as [|z l IH]; simpl; intros N Hx Hy Ix Iy; [tauto|].
  apply NoDup_app in N as (N1 & N2 & N3).
  destruct Hx as [->|Hx], Hy as [->|Hy]; auto.
  - exfalso. apply (N3 i Ix). apply in_flat_map; eauto.
  - exfalso. apply (N3 i Iy). apply in_flat_map; eauto.
Qed.

Lemma wf_same s X Y i : wf_state s -> In X (heap s) -> In Y (heap s) ->
  In i (ids X) -> In i (ids Y) -> X = Y.
Proof. intros [N _]. intros. eapply NoDup_flat_map_disjoint; eauto. Qed.

Lemma deref_in s T a x : wf_state s -> In T (heap s) -> In (a, x) (visits [] T) ->
  deref (tid x) s = (Ok (a, x), s).
Proof.
  intros [N _] HT Hx. unfold deref. rewrite (hfind_in (heap s) T a x); auto.
Qed.

Lemma get_hdr_in s T a x : wf_state s -> In T (heap s) -> In (a, x) (visits [] T) ->
  get_hdr (tid x) s = (Ok (head x), s).
Proof.
  intros W HT Hx. unfold get_hdr. rewrite bind_run, (deref_in s T a x); auto.
Qed.

Lemma deref_root s T : wf_state s -> In T (heap s) -> deref (tid T) s = (Ok ([], T), s).
Proof. intros. eapply deref_in; eauto. apply visits_self. Qed.

Lemma get_hdr_root s T : wf_state s -> In T (heap s) -> get_hdr (tid T) s = (Ok (head T), s).
Proof. intros. eapply get_hdr_in; eauto. apply visits_self. Qed.

Lemma as_element_root s T : wf_state s -> In T (heap s) -> as_element (tid T) s = (Ok (tid T), s).
Proof.
  intros W H. unfold as_element. rewrite bind_run, (deref_root s T) by auto. reflexivity.
Qed.

(** Running a step: the working tree [T] becomes [T'], all other trees stay. *)
Record steps (T : tree) (s : st) (T' : tree) (s' : st) : Prop := {
  st_wf : wf_state s';
  st_in : In T' (heap s');
  st_frame : forall X, In X (heap s) -> X <> T -> In X (heap s');
  st_next : next s <= next s';
  st_root : tid T' = tid T \/ next s <= tid T'
}.

Lemma steps_refl T s : wf_state s -> In T (heap s) -> steps T s T s.
Proof. intros. constructor; auto. Qed.

Lemma steps_trans T s T1 s1 T2 s2 : wf_state s -> In T (heap s) ->
  steps T s T1 s1 -> steps T1 s1 T2 s2 -> steps T s T2 s2.
Proof.
  intros W HT A B. constructor.
  - apply (st_wf _ _ _ _ B).
  - apply (st_in _ _ _ _ B).
  - intros X HX N. apply (st_frame _ _ _ _ B); [apply (st_frame _ _ _ _ A); auto|].
    intro E; subst X. destruct (st_root _ _ _ _ A) as [R|R].
    + apply N. eapply (wf_same s); eauto; [apply in_ids_self|]. rewrite R. apply in_ids_self.
    + assert (tid T1 < next s); [|lia]. eapply wf_lt; eauto. apply in_ids_self.
  - pose proof (st_next _ _ _ _ A). pose proof (st_next _ _ _ _ B). lia.
  - destruct (st_root _ _ _ _ B) as [R|R].
    + rewrite R. apply (st_root _ _ _ _ A).
    + right. pose proof (st_next _ _ _ _ A). lia.
Qed.

(** ** In-place changes *)

Lemma map_replace {A} (f : A -> A) l x : (forall y, In y l -> y <> x -> f y = y) ->
  In x l -> (forall y, In y l -> y <> x -> In y (map f l)) /\ In (f x) (map f l).
Proof.
  intros H Hx. split.
  - intros y Hy N. rewrite <- (H y Hy N). apply in_map; auto.
  - apply in_map; auto.
Qed.

Lemma hids_map_same (f : tree -> tree) l : (forall t, In t l -> ids (f t) = ids t) ->
  hids (map f l) = hids l.
Proof. intro H. unfold hids. rewrite flat_map_map. apply flat_map_ext_in; auto. Qed.

Lemma modify_steps s T i f : wf_state s -> In T (heap s) -> In i (ids T) -> keeps_id f ->
  exists s', modify i f s = (Ok tt, s') /\ steps T s (tset i f T) s' /\ gen s' = gen s.
Proof.
  intros W HT Hi K. eexists. split; [reflexivity|]. split; [|reflexivity].
  assert (O : forall y, In y (heap s) -> y <> T -> tset i f y = y).
  { intros y Hy N. apply tset_id_notin. intro H. apply N. eapply (wf_same s); eauto. }
  destruct (map_replace (tset i f) (heap s) T O HT) as [M1 M2].
  assert (E : hids (map (tset i f) (heap s)) = hids (heap s)).
  { apply hids_map_same. intros; apply tset_ids; auto. }
  constructor; simpl; auto.
  - destruct W as [W1 W2]. split; simpl; fold (hids (map (tset i f) (heap s))); rewrite E; auto.
  - left. apply tset_tid; auto.
Qed.

(** Header maps keyed by identity. *)
Fixpoint tmap (F : nat -> hdr -> hdr) (t : tree) : tree :=
  match t with Node h ks => Node (F (h_id h) h) (map (tmap F) ks) end.

Definition keeps_ids (F : nat -> hdr -> hdr) : Prop := forall i, keeps_id (F i).

Lemma tset_tmap i f t : tset i f t = tmap (fun j h => if Nat.eqb j i then f h else h) t.
Proof.
  tree_induction t. simpl. f_equal. apply map_ext_in; auto.
Qed.

Lemma tmap_tmap F G t : keeps_ids F -> tmap G (tmap F t) = tmap (fun j h => G j (F j h)) t.
Proof.
  intro K. tree_induction t. simpl. rewrite K. f_equal. rewrite map_map. apply map_ext_in; auto.
Qed.

Lemma tmap_id t : tmap (fun _ h => h) t = t.
Proof.
  tree_induction t. simpl. f_equal. rewrite <- (map_id ks) at 2. apply map_ext_in; auto.
Qed.

Lemma tmap_ext F G t : (forall i h, In i (ids t) -> F i h = G i h) -> tmap F t = tmap G t.
Proof.
  tree_induction t. intro E. simpl. f_equal.
  - apply E; simpl; auto.
  - apply map_ext_in. intros k Hk. apply IH; auto. intros i hd Hi. apply E. simpl. right.
    apply in_flat_map; eauto.
Qed.

Lemma tmap_ext_hdr F G t : (forall a x, In (a, x) (visits [] t) -> F (tid x) (head x) = G (tid x) (head x)) ->
  tmap F t = tmap G t.
Proof.
  tree_induction t. intro E. simpl. f_equal.
  - apply (E [] (Node h ks)). left; auto.
  - apply map_ext_in. intros k Hk. apply IH; auto. intros a x H.
    apply (E (a ++ [Node h ks]) x). simpl. right. apply in_flat_map. exists k; split; auto.
    rewrite visits_anc. apply in_map_iff. exists (a, x); auto.
Qed.

Lemma tmap_ids F t : keeps_ids F -> ids (tmap F t) = ids t.
Proof.
  intro K. tree_induction t. simpl. rewrite K. f_equal.
  rewrite flat_map_map. apply flat_map_ext_in; auto.
Qed.

Lemma tmap_tid F t : keeps_ids F -> tid (tmap F t) = tid t.
Proof. intro K. destruct t; unfold tid; simpl. apply K. Qed.

Lemma tmap_head F t : head (tmap F t) = F (tid t) (head t).
Proof. destruct t; reflexivity. Qed.

Lemma tmap_visits F t : forall anc,
  visits (map (tmap F) anc) (tmap F t) =
  map (fun c => (map (tmap F) (fst c), tmap F (snd c))) (visits anc t).
Proof.
  tree_induction t. intro anc. simpl. f_equal.
  rewrite flat_map_map, map_flat_map. apply flat_map_ext_in. intros k Hk.
  apply (IH k Hk (Node h ks :: anc)).
Qed.

Lemma tmap_edit F t : forall anc, tmap F t = edit (fun _ x => F (tid x) (head x)) anc t.
Proof.
  tree_induction t. intro anc. simpl. f_equal. apply map_ext_in. intros; apply IH; auto.
Qed.

Lemma edit_ext f g t : forall anc,
  (forall a x, In (a, x) (visits anc t) -> f a x = g a x) -> edit f anc t = edit g anc t.
Proof.
  tree_induction t. intros anc E. simpl. f_equal.
  - apply E. left; auto.
  - apply map_ext_in. intros k Hk. apply IH; auto. intros a x H. apply E. simpl. right.
    apply in_flat_map; eauto.
Qed.

Lemma erase_tid t : tid (erase t) = 0.
Proof. destruct t; reflexivity. Qed.

Lemma erase_head t : head (erase t) = set_id 0 (head t).
Proof. destruct t; reflexivity. Qed.

Lemma erase_kids t : kids (erase t) = map erase (kids t).
Proof. destruct t; reflexivity. Qed.

Lemma erase_edit f g t : forall anc,
  (forall a x, In (a, x) (visits anc t) -> set_id 0 (f a x) = g (map erase a) (erase x)) ->
  erase (edit f anc t) = edit g (map erase anc) (erase t).
Proof.
  tree_induction t. intros anc E. simpl. f_equal.
  - apply (E anc (Node h ks)). left; auto.
  - rewrite !map_map. apply map_ext_in. intros k Hk.
    apply (IH k Hk (Node h ks :: anc)). intros a x H. apply E. simpl. right.
    apply in_flat_map; eauto.
Qed.

Lemma erase_visits t : forall anc,
  visits (map erase anc) (erase t) = map (fun c => (map erase (fst c), erase (snd c))) (visits anc t).
Proof.
  tree_induction t. intro anc. simpl. f_equal.
  rewrite flat_map_map, map_flat_map. apply flat_map_ext_in. intros k Hk.
  apply (IH k Hk (Node h ks :: anc)).
Qed.

(** A loop of in-place changes. *)
Lemma for_modify_steps {A} (l : list A) (g : A -> nat) (f : A -> hdr -> hdr) : forall s T,
  wf_state s -> In T (heap s) ->
  (forall x, In x l -> In (g x) (ids T)) -> (forall x, keeps_id (f x)) ->
  exists s', for_each l (fun x => modify (g x) (f x)) s = (Ok tt, s') /\
    steps T s (fold_left (fun t x => tset (g x) (f x) t) l T) s' /\ gen s' = gen s.
Proof.
  induction l as [|x l IH]; intros s T W HT Hi K; simpl.
  - exists s. split; auto. split; auto. apply steps_refl; auto.
  - rewrite bind_run. destruct (modify_steps s T (g x) (f x)) as (s1 & E1 & S1 & G1); auto;
      [apply Hi; left; auto|].
    rewrite E1. destruct (IH s1 (tset (g x) (f x) T)) as (s2 & E2 & S2 & G2); auto.
    + apply (st_wf _ _ _ _ S1).
    + apply (st_in _ _ _ _ S1).
    + intros y Hy. rewrite tset_ids; auto. apply Hi; right; auto.
    + exists s2. split; auto. split; [|congruence]. eapply steps_trans; eauto.
Qed.

(** ** Reading with XPath *)

Lemma xpath_read s T a x path ns l : wf_state s -> In T (heap s) -> In (a, x) (visits [] T) ->
  xcompile ns path = Some l -> forallb alt_abs l = false -> existsb alt_abs l = false ->
  xpath (tid x) path ns s = (Ok (select_ids (match_path l) x), s).
Proof.
  intros W HT Hx C A1 A2. unfold xpath. rewrite bind_run, (deref_in s T a x) by auto.
  rewrite C, A1, A2. reflexivity.
Qed.

Lemma xpath_read_abs s T a x path ns l : wf_state s -> In T (heap s) -> In (a, x) (visits [] T) ->
  xcompile ns path = Some l -> forallb alt_abs l = true ->
  xpath (tid x) path ns s = (Ok (select_ids (match_path l) T), s).
Proof.
  intros W HT Hx C A1. unfold xpath. rewrite bind_run, (deref_in s T a x) by auto.
  rewrite C, A1. unfold root_of. simpl. rewrite (visits_root T [] a x Hx). reflexivity.
Qed.

Lemma select_ids_in p T i : In i (select_ids p T) -> In i (ids T).
Proof.
  unfold select_ids, select. intro H. apply in_map_iff in H as ([a x] & <- & H).
  apply filter_In in H as [H _]. eapply visits_tid_in; eauto.
Qed.

Lemma select_ids_iff p T a x : NoDup (ids T) -> In (a, x) (visits [] T) ->
  (In (tid x) (select_ids p T) <-> p (a, x) = true).
Proof.
  intros N H. unfold select_ids, select. rewrite in_map_iff. split.
  - intros ([b y] & E & Hy). apply filter_In in Hy as [Hy P]. simpl in E.
    destruct (visits_unique T [] b y a x N Hy H E). subst; auto.
  - intro P. exists (a, x). split; auto. apply filter_In; auto.
Qed.

Lemma select_ids_NoDup p T : NoDup (ids T) -> NoDup (select_ids p T).
Proof.
  intro N. unfold select_ids, select. pose proof (visits_keys_NoDup T [] N) as K.
  induction (visits [] T) as [|c l IH]; simpl in *; [constructor|].
  inversion K as [|? ? K1 K2]; subst. destruct (p c); simpl; auto. constructor; auto.
  intro H. apply K1. apply in_map_iff in H as (d & E & H). apply filter_In in H as [H _].
  apply in_map_iff. eauto.
Qed.

(** A read-only filter. *)
Lemma filter_m_read {A} (f : A -> M bool) (g : A -> bool) l s :
  (forall x, In x l -> f x s = (Ok (g x), s)) -> filter_m f l s = (Ok (filter g l), s).
Proof.
  induction l as [|x l IH]; intro H; simpl; auto.
  rewrite bind_run, H by (left; auto). rewrite bind_run, IH by (intros; apply H; right; auto).
  destruct (g x); reflexivity.
Qed.

(** ** Structural changes *)

(** New trees whose identities are in nobody's use. *)
Definition loose (new : list tree) (s : st) : Prop :=
  NoDup (hids new) /\ (forall i, In i (hids new) -> i < next s /\ ~ In i (hids (heap s))).

Lemma tsubst_kids_notin i new ks : ~ In i (hids ks) ->
  flat_map (fun k => if Nat.eqb (tid k) i then new else [tsubst i new k]) ks = ks.
Proof.
  intro H. rewrite <- (map_id ks) at 2. rewrite <- flat_map_single. apply flat_map_ext_in.
  intros k Hk. destruct (Nat.eqb_spec (tid k) i) as [E|E].
  - exfalso. apply H. apply in_flat_map. exists k; split; auto. rewrite <- E. apply in_ids_self.
  - rewrite tsubst_id_notin; auto. intro Hi. apply H. apply in_flat_map; eauto.
Qed.

Lemma tsubst_perm new T : forall anc p a x, NoDup (ids T) ->
  In (p :: a, x) (visits anc T) -> (p :: a) <> anc -> length anc <= length a ->
  Permutation (ids (tsubst (tid x) new T) ++ ids x) (ids T ++ hids new).
Proof.
  tree_induction T. intros anc p a x N H Hn HL. simpl in N.
  inversion N as [|? ? N1 N2]; subst.
  simpl in H. destruct H as [H|H]; [inversion H; subst; congruence|].
  simpl. constructor. apply in_flat_map in H as (k & Hk & H).
  apply in_split in Hk as (k1 & k2 & E). 
  assert (Hin : In (tid x) (ids k)) by (eapply visits_tid_in; eauto).
  subst ks. rewrite flat_map_app in N2. simpl in N2.
  apply NoDup_app in N2 as (M1 & M2 & M3). apply NoDup_app in M2 as (M4 & M5 & M6).
  rewrite flat_map_app. simpl.
  assert (Q1 : ~ In (tid x) (hids k1)).
  { intro Q. apply (M3 _ Q). apply in_app_iff; auto. }
  assert (Q2 : ~ In (tid x) (hids k2)) by (intro Q; apply (M6 _ Hin Q)).
  rewrite (tsubst_kids_notin _ _ k1 Q1), (tsubst_kids_notin _ _ k2 Q2).
  assert (C : Permutation (hids (if Nat.eqb (tid k) (tid x) then new else [tsubst (tid x) new k]) ++ ids x)
                          (ids k ++ hids new)).
  { destruct (Nat.eqb_spec (tid k) (tid x)) as [Ek|Ek].
    - assert (k = x).
      { destruct (visits_unique k (Node h (k1 ++ k :: k2) :: anc) (Node h (k1 ++ k :: k2) :: anc) k (p :: a) x);
          auto. apply visits_self. }
      subst k. rewrite Permutation_app_comm. apply Permutation_refl.
    - simpl. rewrite app_nil_r. destruct (visits_strict k _ _ _ H) as [Q|(b & Q)].
      + inversion Q; subst. congruence.
      + eapply (IH k); eauto.
        * apply in_app_iff; right; left; auto.
        * intro E. rewrite E in Q. apply (f_equal (@length tree)) in Q.
          rewrite app_length in Q. simpl in Q. lia.
        * apply (f_equal (@length tree)) in Q. rewrite app_length in Q. simpl in *. lia. }
  change (Permutation
    (hids (k1 ++ (if Nat.eqb (tid k) (tid x) then new else [tsubst (tid x) new k]) ++ k2) ++ ids x)
    (hids (k1 ++ [k] ++ k2) ++ hids new)).
  rewrite !hids_app. replace (hids [k]) with (ids k) by (simpl; rewrite app_nil_r; auto).
  rewrite <- !app_assoc. apply Permutation_app_head.
  rewrite (Permutation_app_comm (hids k2) (ids x)), app_assoc.
  rewrite (Permutation_app_comm (hids k2) (hids new)), (app_assoc (ids k)).
  apply Permutation_app_tail. exact C.
Qed.

(** A node of the memory, with its ancestors. *)
Definition located (s : st) (a : list tree) (y : tree) : Prop :=
  exists X, In X (heap s) /\ In (a, y) (visits [] X).

Lemma located_deref s a y : wf_state s -> located s a y -> deref (tid y) s = (Ok (a, y), s).
Proof. intros W (X & HX & H). eapply deref_in; eauto. Qed.

Lemma located_root s y : located s [] y -> In y (heap s).
Proof.
  intros (X & HX & H). apply visits_strict in H as [H|(b & H)].
  - inversion H; subst; auto.
  - destruct b; discriminate.
Qed.

Lemma supplant_run s p a x new : wf_state s -> located s (p :: a) x ->
  supplant (tid x) new s =
  (Ok tt, St (map (tsubst (tid x) new) (heap s) ++ [x]) (next s) (gen s)).
Proof.
  intros W H. unfold supplant. rewrite bind_run, (located_deref s (p :: a) x) by auto. reflexivity.
Qed.

Lemma supplant_noop s x new : wf_state s -> located s [] x -> supplant (tid x) new s = (Ok tt, s).
Proof.
  intros W H. unfold supplant. rewrite bind_run, (located_deref s [] x) by auto. reflexivity.
Qed.

Lemma supplant_wf s p a x new : wf_state s -> located s (p :: a) x -> loose new s ->
  wf_state (St (map (tsubst (tid x) new) (heap s) ++ [x]) (next s) (gen s)).
Proof.
  intros [N L] (X & HX & Hx) [LN LL].
  assert (P : Permutation (hids (map (tsubst (tid x) new) (heap s) ++ [x])) (hids (heap s) ++ hids new)).
  { apply in_split in HX as (h1 & h2 & E). rewrite E in *.
    change (NoDup (hids (h1 ++ X :: h2))) in N.
    replace (h1 ++ X :: h2) with (h1 ++ [X] ++ h2) in * by reflexivity.
    rewrite !hids_app in N. replace (hids [X]) with (ids X) in N by (simpl; rewrite app_nil_r; auto).
    apply NoDup_app in N as (N1 & N2 & N3). apply NoDup_app in N2 as (N4 & N5 & N6).
    assert (Hin : In (tid x) (ids X)) by (eapply visits_tid_in; eauto).
    assert (Q : forall hh, ~ In (tid x) (hids hh) -> map (tsubst (tid x) new) hh = hh).
    { intros hh Hh. rewrite <- (map_id hh) at 2. apply map_ext_in. intros t Ht.
      apply tsubst_id_notin. intro Hi. apply Hh. apply in_flat_map; eauto. }
    rewrite !map_app, (Q h1), (Q h2).
    - rewrite !hids_app. simpl map. replace (hids [x]) with (ids x) by (simpl; rewrite app_nil_r; auto).
      replace (hids [tsubst (tid x) new X]) with (ids (tsubst (tid x) new X))
        by (simpl; rewrite app_nil_r; auto).
      replace (hids [X]) with (ids X) by (simpl; rewrite app_nil_r; auto).
      rewrite <- !app_assoc. apply Permutation_app_head.
      rewrite (Permutation_app_comm (hids h2) (ids x)), app_assoc.
      rewrite (Permutation_app_comm (hids h2) (hids new)), (app_assoc (ids X)).
      apply Permutation_app_tail. eapply tsubst_perm; eauto; [discriminate|simpl; lia].
    - intro Hi. apply (N6 _ Hin Hi).
    - intro Hi. apply (N3 _ Hi). apply in_app_iff; auto. }
  split; simpl.
  - eapply Permutation_NoDup; [symmetry; exact P|]. apply NoDup_app. split; [exact N|].
    split; auto. intros i Hi Hj. apply LL in Hj as [_ Hj]. auto.
  - intros i Hi. change (In i (hids (map (tsubst (tid x) new) (heap s) ++ [x]))) in Hi.
    eapply Permutation_in in Hi; [|exact P]. apply in_app_iff in Hi as [Hi|Hi].
    + apply L; auto.
    + apply LL; auto.
Qed.

Lemma visits_tsubst i new t : forall anc b y, In (b, y) (visits anc t) -> tid y <> i ->
  (forall z, In z b -> tid z <> i) ->
  In (map (tsubst i new) b, tsubst i new y) (visits (map (tsubst i new) anc) (tsubst i new t)).
Proof.
  tree_induction t. intros anc b y H Hy Hb.
  destruct (visits_strict _ _ _ _ H) as [E|(b' & E)].
  - inversion E; subst. apply visits_self.
  - simpl in H. destruct H as [H|H].
    + exfalso. injection H as H1 H2. rewrite <- H1 in E. apply (f_equal (@length tree)) in E.
      rewrite app_length in E. simpl in E. lia.
    + apply in_flat_map in H as (k & Hk & H).
      assert (Ek : tid k <> i).
      { destruct (visits_strict _ _ _ _ H) as [Q|(c & Q)].
        - inversion Q; subst; auto.
        - apply Hb. rewrite Q. apply in_app_iff; right; left; auto. }
      specialize (IH k Hk _ _ _ H Hy Hb). simpl in IH |- *. right.
      apply in_flat_map. exists (tsubst i new k). split; auto.
      apply in_flat_map. exists k. split; auto.
      destruct (Nat.eqb_spec (tid k) i); [congruence|]. left; auto.
Qed.

Lemma located_in s a y : located s a y -> In (tid y) (hids (heap s)).
Proof.
  intros (X & HX & H). apply in_flat_map. exists X. split; auto. eapply visits_tid_in; eauto.
Qed.

Lemma located_unique s a x b y : wf_state s -> located s a x -> located s b y -> tid x = tid y ->
  a = b /\ x = y.
Proof.
  intros W Hx Hy E. pose proof (located_deref s a x W Hx) as D1.
  pose proof (located_deref s b y W Hy) as D2. rewrite E in D1. rewrite D1 in D2.
  inversion D2; auto.
Qed.

Lemma located_anc s b y z : located s b y -> In z b ->
  exists b1 b2, b = b1 ++ z :: b2 /\ located s b2 z /\ In (b1 ++ [z], y) (visits [] z).
Proof.
  intros (X & HX & H) Hz. destruct (visits_anc_ctx _ _ _ _ _ H Hz) as [[]|(a1 & a2 & E & H1 & H2)].
  exists a1, a2. split; auto. split; auto. exists X; auto.
Qed.

(** What [supplant] does to every node. *)
Lemma supplant_located s p a x new b y : wf_state s -> located s (p :: a) x -> located s b y ->
  let s' := St (map (tsubst (tid x) new) (heap s) ++ [x]) (next s) (gen s) in
  (In (tid y) (ids x) -> exists b2, b = b2 ++ p :: a /\ located s' b2 y) /\
  (~ In (tid y) (ids x) -> located s' (map (tsubst (tid x) new) b) (tsubst (tid x) new y)).
Proof.
  intros W Hx Hy s'. split.
  - intro Hi. destruct (ids_visits x (p :: a) _ Hi) as (b' & y' & H & E).
    assert (L' : located s b' y').
    { destruct Hx as (X & HX & Hx). exists X; split; auto. eapply visits_trans; eauto. }
    destruct (located_unique s b' y' b y W L' Hy E); subst b' y'.
    rewrite visits_anc in H. apply in_map_iff in H as ([b2 z] & E' & H). simpl in E'.
    inversion E'; subst. exists b2. split; auto. exists x. split; auto.
    simpl. apply in_app_iff; right; left; auto.
  - intro Hi. destruct Hy as (Y & HY & Hy). exists (tsubst (tid x) new Y). split.
    + simpl. apply in_app_iff; left. apply in_map; auto.
    + apply (visits_tsubst (tid x) new Y [] b y); auto.
      * intro E. apply Hi. rewrite E. apply in_ids_self.
      * intros z Hz E. assert (L : located s b y) by (exists Y; auto).
        destruct (located_anc s b y z L Hz) as (b1 & b2 & _ & Lz & V).
        destruct (located_unique s b2 z (p :: a) x W Lz Hx E) as [_ Ez]. subst z.
        apply Hi. eapply visits_tid_in; eauto.
Qed.

(** Replacement keyed by identity. *)
Fixpoint rwm (m : nat -> option (list tree)) (t : tree) : tree :=
  match t with
  | Node h ks =>
      Node h (flat_map (fun k => match m (tid k) with
                                 | Some l => l
                                 | None => [rwm m k]
                                 end) ks)
  end.

Definition mput (i : nat) (l : list tree) (m : nat -> option (list tree)) : nat -> option (list tree) :=
  fun j => if Nat.eqb j i then Some l else m j.

Lemma rwm_tid m t : tid (rwm m t) = tid t.
Proof. destruct t; reflexivity. Qed.

Lemma rwm_head m t : head (rwm m t) = head t.
Proof. destruct t; reflexivity. Qed.

Lemma rwm_ext m m' t : (forall i, In i (flat_map ids (kids t)) -> m i = m' i) -> rwm m t = rwm m' t.
Proof.
  tree_induction t. intro E. simpl in *. f_equal. apply flat_map_ext_in. intros k Hk.
  rewrite <- E by (apply in_flat_map; exists k; split; auto; apply in_ids_self).
  destruct (m (tid k)); auto. f_equal. apply IH; auto. intros i Hi. apply E.
  apply in_flat_map. exists k; split; auto. destruct k as [hk kk]. simpl in *. auto.
Qed.

Lemma rwm_none t : rwm (fun _ => None) t = t.
Proof.
  tree_induction t. simpl. f_equal. rewrite <- (map_id ks) at 2. rewrite <- flat_map_single.
  apply flat_map_ext_in. intros k Hk. rewrite IH; auto.
Qed.

Lemma rwm_id m t : (forall i, In i (flat_map ids (kids t)) -> m i = None) -> rwm m t = t.
Proof. intro H. rewrite (rwm_ext m (fun _ => None)); auto. apply rwm_none. Qed.

Lemma tsubst_list_notin i new l : ~ In i (hids l) ->
  flat_map (fun k => if Nat.eqb (tid k) i then new else [tsubst i new k]) l = l.
Proof. apply tsubst_kids_notin. Qed.

Lemma tsubst_rwm i new m t : m i = None ->
  (forall j l, m j = Some l -> ~ In i (hids l)) ->
  tsubst i new (rwm m t) = rwm (mput i new m) t.
Proof.
  intros Hi Hm. tree_induction t. simpl. f_equal. rewrite flat_map_flat_map.
  apply flat_map_ext_in. intros k Hk. unfold mput at 1. destruct (m (tid k)) as [l|] eqn:E.
  - rewrite tsubst_list_notin by eauto.
    destruct (Nat.eqb_spec (tid k) i); [congruence|]. reflexivity.
  - simpl. rewrite rwm_tid. rewrite app_nil_r.
    destruct (Nat.eqb_spec (tid k) i); auto. f_equal. apply IH; auto.
Qed.

Lemma erase_rwm m F t : forall anc,
  (forall a x, In (a, x) (tl (visits anc t)) ->
     option_map (map erase) (m (tid x)) = F (map erase a) (erase x)) ->
  erase (rwm m t) = subst_nodes F (map erase anc) (erase t).
Proof.
  tree_induction t. intros anc E. simpl. f_equal.
  rewrite map_flat_map, flat_map_map. apply flat_map_ext_in. intros k Hk.
  assert (E1 := E (Node h ks :: anc) k). simpl in E1. rewrite <- E1.
  - destruct (m (tid k)); simpl; auto. f_equal.
    apply (IH k Hk (Node h ks :: anc)). intros a x H. apply E. simpl.
    apply in_flat_map. exists k. split; auto. destruct k; simpl in *; auto.
  - apply in_flat_map. exists k. split; auto. apply visits_self.
Qed.

(** The original tree [T], after the replacements [m], spread over memory:
    every original node still exists, with the replacements made below it. *)
Record tracks (F : list tree) (n0 g0 : nat) (T : tree) (m : nat -> option (list tree)) (s : st)
  : Prop := {
  tk_wf : wf_state s;
  tk_at : forall a x, In (a, x) (visits [] T) ->
    exists a', located s a' (rwm m x) /\
      (a = [] \/ m (tid x) <> None -> a' = []) /\
      (forall p a0, a = p :: a0 -> m (tid x) = None -> exists a2, a' = rwm m p :: a2);
  tk_new : forall j l, m j = Some l -> forall z, In z (hids l) -> ~ In z (ids T);
  tk_frame : forall X, In X F -> In X (heap s) /\ (forall i, In i (ids X) -> ~ In i (ids T));
  tk_next : n0 <= next s;
  tk_gen : gen s = g0
}.

Definition others (T : tree) (s : st) : list tree := filter (fun X => negb (Nat.eqb (tid X) (tid T))) (heap s).

Lemma in_others s T X : wf_state s -> In T (heap s) ->
  (In X (others T s) <-> In X (heap s) /\ X <> T).
Proof.
  intros W HT. unfold others. rewrite filter_In. split; intros [H1 H2]; split; auto.
  - intro E; subst. rewrite Nat.eqb_refl in H2. discriminate.
  - destruct (Nat.eqb_spec (tid X) (tid T)) as [E|E]; auto. exfalso. apply H2.
    eapply (wf_same s); eauto; [apply in_ids_self|]. rewrite E. apply in_ids_self.
Qed.

Lemma visits_self_only T x : NoDup (ids T) -> In ([], x) (visits [] T) -> x = T.
Proof.
  intros _ H. apply visits_strict in H as [H|(b & H)]; [inversion H; auto|destruct b; discriminate].
Qed.

Lemma tracks_init s T : wf_state s -> In T (heap s) ->
  tracks (others T s) (next s) (gen s) T (fun _ => None) s.
Proof.
  intros W HT. constructor; auto.
  - intros a x H. exists a. rewrite rwm_none. split; [exists T; auto|]. split.
    + intros [E|E]; congruence.
    + intros p a0 E _. exists a0. rewrite rwm_none. auto.
  - discriminate.
  - intros X HX. apply in_others in HX as [HX N]; auto. split; auto.
    intros i Hi Hj. apply N. eapply (wf_same s); eauto.
Qed.

Lemma tracks_root F n0 g0 T m s : tracks F n0 g0 T m s -> In (rwm m T) (heap s).
Proof.
  intro K. destruct (tk_at _ _ _ _ _ _ K [] T) as (a' & L & E & _); [apply visits_self|].
  rewrite E in L by auto. apply located_root; auto.
Qed.

Lemma tracks_steps s0 T m s : wf_state s0 -> In T (heap s0) ->
  tracks (others T s0) (next s0) (gen s0) T m s -> steps T s0 (rwm m T) s.
Proof.
  intros W HT K. constructor.
  - apply (tk_wf _ _ _ _ _ _ K).
  - eapply tracks_root; eauto.
  - intros X HX N. apply (tk_frame _ _ _ _ _ _ K). apply in_others; auto.
  - apply (tk_next _ _ _ _ _ _ K).
  - left. apply rwm_tid.
Qed.

Lemma tracks_alloc F n0 g0 T m s s' : tracks F n0 g0 T m s ->
  heap s' = heap s -> next s <= next s' -> gen s' = gen s -> tracks F n0 g0 T m s'.
Proof.
  intros K H N G. destruct K as [[W1 W2] A B C D E]. constructor; auto; try lia; try congruence.
  - split; rewrite H; auto. intros i Hi. specialize (W2 i Hi). lia.
  - intros a x Hx. destruct (A a x Hx) as (a' & (X & HX & L) & R). exists a'. split; auto.
    exists X. rewrite H. auto.
  - intros X HX. rewrite H. auto.
Qed.

Lemma tracks_push F n0 g0 T m s t : NoDup (ids T) -> (forall i, In i (ids T) -> i < n0) ->
  tracks F n0 g0 T m s -> loose [t] s -> (forall i, In i (ids t) -> ~ In i (ids T)) ->
  tracks (t :: F) n0 g0 T m (St (heap s ++ [t]) (next s) (gen s)).
Proof.
  intros NT LT K [L1 L2] LD. destruct K as [[W1 W2] A B C D E]. constructor; simpl; auto.
  - split; simpl; fold (hids (heap s ++ [t])); rewrite hids_app.
    + apply NoDup_app. split; auto. split; auto. intros i Hi Hj. apply (L2 i Hj). auto.
    + intros i Hi. apply in_app_iff in Hi as [Hi|Hi]; auto. apply L2; auto.
  - intros a x Hx. destruct (A a x Hx) as (a' & (X & HX & L) & R). exists a'. split; auto.
    exists X. simpl. split; auto. apply in_app_iff; auto.
  - intros X [->|HX].
    + split; auto. apply in_app_iff; right; left; auto.
    + destruct (C X HX). split; auto. apply in_app_iff; auto.
Qed.

Lemma tracks_deref F n0 g0 T m s a x : tracks F n0 g0 T m s -> In (a, x) (visits [] T) ->
  exists a', deref (tid x) s = (Ok (a', rwm m x), s) /\
    (a = [] \/ m (tid x) <> None -> a' = []) /\
    (forall p a0, a = p :: a0 -> m (tid x) = None -> exists a2, a' = rwm m p :: a2).
Proof.
  intros K H. destruct (tk_at _ _ _ _ _ _ K a x H) as (a' & L & R). exists a'. split; auto.
  rewrite <- (rwm_tid m x). apply located_deref; auto. apply (tk_wf _ _ _ _ _ _ K).
Qed.

Lemma tracks_noop F n0 g0 T m s a x new : tracks F n0 g0 T m s -> In (a, x) (visits [] T) ->
  a = [] \/ m (tid x) <> None -> supplant (tid x) new s = (Ok tt, s).
Proof.
  intros K H E. destruct (tk_at _ _ _ _ _ _ K a x H) as (a' & L & R & _). rewrite (R E) in L.
  rewrite <- (rwm_tid m x). apply supplant_noop; auto. apply (tk_wf _ _ _ _ _ _ K).
Qed.

Lemma tracks_supplant F n0 g0 T m s p a x new : NoDup (ids T) ->
  tracks F n0 g0 T m s -> In (p :: a, x) (visits [] T) -> m (tid x) = None ->
  loose new s -> (forall i, In i (hids new) -> ~ In i (ids T)) ->
  exists s', supplant (tid x) new s = (Ok tt, s') /\ next s' = next s /\
             tracks F n0 g0 T (mput (tid x) new m) s'.
Proof.
  intros NT K Hx Hm HL HD. destruct (tk_at _ _ _ _ _ _ K _ x Hx) as (a' & L & _ & Rp).
  destruct (Rp p a eq_refl Hm) as (a2 & Ea). subst a'. clear Rp.
  pose proof (tk_wf _ _ _ _ _ _ K) as W.
  eexists. split; [rewrite <- (rwm_tid m x); eapply supplant_run; eauto|]. split; [reflexivity|].
  rewrite rwm_tid.
  set (s' := St (map (tsubst (tid x) new) (heap s) ++ [rwm m x]) (next s) (gen s)).
  assert (Hxids : In (tid x) (ids T)) by (eapply visits_tid_in; eauto).
  assert (Hmx : forall j l, m j = Some l -> ~ In (tid x) (hids l)).
  { intros j l Hj Hi. eapply (tk_new _ _ _ _ _ _ K); eauto. }
  assert (Hbelow : forall z b, In (b, z) (visits [] x) -> rwm (mput (tid x) new m) z = rwm m z).
  { intros z b Hz. apply rwm_ext. intros i Hi. unfold mput.
    destruct (Nat.eqb_spec i (tid x)); auto. subst i. exfalso.
    assert (NX : NoDup (ids x)) by (eapply visits_sub_NoDup; eauto).
    assert (Hi' : In (tid x) (flat_map ids (kids x))).
    { destruct (visits_strict _ _ _ _ Hz) as [Q|(c & Q)].
      - inversion Q; subst. auto.
      - destruct x as [hx kx]. simpl in Hz. destruct Hz as [Hz|Hz].
        + inversion Hz; subst. auto.
        + apply in_flat_map in Hz as (k & Hk & Hz). simpl. apply in_flat_map. exists k. split; auto.
          eapply visits_sub; eauto. destruct z; simpl in *; auto. }
    destruct x as [hx kx]. simpl in NX. inversion NX as [|? ? Q _]. apply Q. exact Hi'. }
  constructor.
  - apply (supplant_wf s (rwm m p) a2 (rwm m x) new) in L; auto. rewrite rwm_tid in L. exact L.
  - intros b y Hy. destruct (tk_at _ _ _ _ _ _ K b y Hy) as (b' & Ly & R1 & R2).
    pose proof (supplant_located s _ _ (rwm m x) new b' (rwm m y) W L Ly) as [S1 S2].
    rewrite !rwm_tid in S1, S2. fold s' in S1, S2.
    destruct (Nat.eqb_spec (tid y) (tid x)) as [Exy|Exy].
    + destruct (visits_unique T [] b y (p :: a) x NT Hy Hx Exy); subst b y.
      destruct S1 as (b2 & Eb & Lb).
      { rewrite <- (rwm_tid m x). apply in_ids_self. }
      destruct (located_unique s b' (rwm m x) (rwm m p :: a2) (rwm m x) W Ly L eq_refl) as [Eb' _].
      rewrite Eb' in Eb. assert (b2 = []).
      { destruct b2; auto. apply (f_equal (@length tree)) in Eb. simpl in Eb.
        rewrite app_length in Eb. simpl in Eb. lia. }
      subst b2. exists []. rewrite (Hbelow x []) by apply visits_self.
      split; auto. split; auto. intros q q0 _ Q. unfold mput in Q. rewrite Nat.eqb_refl in Q.
      discriminate.
    + destruct (in_dec Nat.eq_dec (tid y) (ids (rwm m x))) as [Hi|Hi].
      * destruct (S1 Hi) as (b2 & Eb & Lb).
        (* y is below x in the original as well *)
        assert (Hyx : In (tid y) (ids x)).
        { destruct (in_dec Nat.eq_dec (tid y) (ids x)) as [Q|Q]; auto. exfalso.
          (* ids of rwm m x come from x or from new values, not in T *)
          assert (G : forall t, incl (ids t) (ids T) -> In (tid y) (ids (rwm m t)) -> In (tid y) (ids t)).
          { intro t. tree_induction t. intros Hinc Hin. simpl in Hin |- *. destruct Hin as [Hin|Hin]; auto.
            right. apply in_flat_map in Hin as (z & Hz & Hin). apply in_flat_map in Hz as (k & Hk & Hz).
            apply in_flat_map. exists k. split; auto.
            destruct (m (tid k)) as [l|] eqn:El.
            - exfalso. eapply (tk_new _ _ _ _ _ _ K _ _ El (tid y)).
              + apply in_flat_map; eauto.
              + eapply visits_tid_in; eauto.
            - destruct Hz as [<-|[]]. apply IH; auto. intros i Hik. apply Hinc. simpl. right.
              apply in_flat_map; eauto. }
          apply Q. apply G; auto. eapply visits_sub; eauto. }
        destruct (ids_visits x (p :: a) _ Hyx) as (c & y' & Hc & Ec).
        assert (Hc' : In (c, y') (visits [] T)) by exact (visits_trans T [] _ _ _ _ Hx Hc).
        destruct (visits_unique T [] c y' b y NT Hc' Hy Ec); subst c y'.
        rewrite visits_anc in Hc. apply in_map_iff in Hc as ([c0 y0] & Ec0 & Hc).
        simpl in Ec0. inversion Ec0; subst y0. subst b. clear Ec0 Ec.
        exists b2. rewrite (Hbelow y c0) by auto. split; auto.
        unfold mput at 1. destruct (Nat.eqb_spec (tid y) (tid x)); [congruence|].
        split.
        -- intros [Q|Q].
           ++ destruct c0; discriminate.
           ++ specialize (R1 (or_intror Q)). subst b'. destruct b2; discriminate.
        -- intros q q0 Eq Q. unfold mput in Q. destruct (Nat.eqb_spec (tid y) (tid x)); [congruence|].
           destruct (R2 q q0 Eq Q) as (b3 & Eb3).
           destruct (visits_strict _ _ _ _ Hc) as [Qx|(c1 & Qx)].
           { inversion Qx; subst. congruence. }
           destruct c0 as [|q' c0]; [destruct c1; discriminate|].
           simpl in Eq. inversion Eq; subst q'. 
           assert (Hq : exists cq, In (cq, q) (visits [] x)).
           { exists c0. apply (visits_parent x [] q c0 y); auto. discriminate. }
           destruct Hq as (cq & Hq). rewrite (Hbelow q cq) by auto.
           destruct b2 as [|z b2].
           { exfalso. simpl in Eb. rewrite Eb in Eb3. injection Eb3 as Ez _.
             assert (Et : tid p = tid q) by (rewrite <- (rwm_tid m p), Ez, rwm_tid; auto).
             (* q below x, p above x *)
             assert (Hp : In (a, p) (visits [] T)).
             { apply (visits_parent T [] p a x); auto. discriminate. }
             assert (Hq' : In (cq ++ p :: a, q) (visits [] T)).
             { apply (visits_trans T [] (p :: a) x); auto. rewrite visits_anc.
               apply in_map_iff. exists (cq, q); auto. }
             destruct (visits_unique T [] _ _ _ _ NT Hp Hq' Et) as [Q1 _].
             apply (f_equal (@length tree)) in Q1. rewrite app_length in Q1. simpl in Q1. lia. }
           rewrite Eb in Eb3. simpl in Eb3. inversion Eb3; subst. eauto.
      * specialize (S2 Hi). rewrite (tsubst_rwm (tid x) new m y) in S2 by auto.
        eexists. split; [exact S2|]. unfold mput at 1 2. 
        destruct (Nat.eqb_spec (tid y) (tid x)); [congruence|]. split.
        -- intro Q. rewrite (R1 Q). reflexivity.
        -- intros q q0 Eq Q. destruct (R2 q q0 Eq Q) as (b3 & Eb3). rewrite Eb3. simpl.
           rewrite (tsubst_rwm (tid x) new m q) by auto. eauto.
  - intros j l Hj z Hz. unfold mput in Hj. destruct (Nat.eqb j (tid x)).
    + inversion Hj; subst. auto.
    + eapply (tk_new _ _ _ _ _ _ K); eauto.
  - intros X HX. destruct (tk_frame _ _ _ _ _ _ K X HX) as [X1 X2]. split; auto.
    simpl. apply in_app_iff. left. apply in_map_iff. exists X. split; auto.
    apply tsubst_id_notin. intro Hi. apply (X2 _ Hi). auto.
  - simpl. apply (tk_next _ _ _ _ _ _ K).
  - simpl. apply (tk_gen _ _ _ _ _ _ K).
Qed.

(** ** Building new trees *)

(** Running a program that only allocates, and builds [new] from fresh nodes. *)
Record builds (s : st) (new : list tree) (s1 : st) : Prop := {
  bd_heap : heap s1 = heap s;
  bd_next : next s <= next s1;
  bd_gen : gen s1 = gen s;
  bd_nodup : NoDup (hids new);
  bd_range : forall i, In i (hids new) -> next s <= i < next s1
}.

Lemma builds_nil s : builds s [] s.
Proof. constructor; auto; [constructor|]. intros i []. Qed.

Lemma builds_loose s new s1 : wf_state s -> builds s new s1 -> loose new s1.
Proof.
  intros [W1 W2] B. split; [apply (bd_nodup _ _ _ B)|]. intros i Hi.
  pose proof (bd_range _ _ _ B i Hi). split; [lia|]. rewrite (bd_heap _ _ _ B). intro Hj.
  apply W2 in Hj. lia.
Qed.

Lemma builds_app s l1 s1 l2 s2 : builds s l1 s1 -> builds s1 l2 s2 -> builds s (l1 ++ l2) s2.
Proof.
  intros A B. pose proof (bd_next _ _ _ A). pose proof (bd_next _ _ _ B).
  constructor; try lia.
  - rewrite (bd_heap _ _ _ B). apply (bd_heap _ _ _ A).
  - rewrite (bd_gen _ _ _ B). apply (bd_gen _ _ _ A).
  - rewrite hids_app. apply NoDup_app. split; [apply (bd_nodup _ _ _ A)|].
    split; [apply (bd_nodup _ _ _ B)|]. intros i Hi Hj.
    pose proof (bd_range _ _ _ A i Hi). pose proof (bd_range _ _ _ B i Hj). lia.
  - intros i Hi. rewrite hids_app in Hi. apply in_app_iff in Hi as [Hi|Hi].
    + pose proof (bd_range _ _ _ A i Hi). lia.
    + pose proof (bd_range _ _ _ B i Hi). lia.
Qed.

Lemma copy_builds t s : exists t' s1, copy_tree t s = (Ok t', s1) /\ builds s [t'] s1 /\
  erase t' = erase t /\ t' = fst (renum (next s) t).
Proof.
  unfold copy_tree. destruct (renum (next s) t) as [t' n] eqn:E.
  exists t', (St (heap s) n (gen s)). split; auto.
  pose proof (renum_ids t (next s)) as I. pose proof (renum_next t (next s)) as N.
  pose proof (erase_renum t (next s)) as R. rewrite E in I, N, R. simpl in I, N, R. split; auto.
  constructor; simpl; auto; try lia.
  - rewrite app_nil_r, I. apply seq_NoDup.
  - intros i Hi. rewrite app_nil_r, I in Hi. apply in_seq in Hi. lia.
Qed.

Lemma new_elem_builds tag text ks s0 s : builds s0 ks s ->
  exists t s1, new_elem tag text ks s = (Ok t, s1) /\ builds s0 [t] s1 /\
    t = Node (Hdr (next s) KElem tag [] [] text false None) ks.
Proof.
  intro B. eexists. eexists. split; [reflexivity|]. split; [|reflexivity].
  constructor; simpl.
  - apply (bd_heap _ _ _ B).
  - pose proof (bd_next _ _ _ B). lia.
  - apply (bd_gen _ _ _ B).
  - constructor.
    + rewrite app_nil_r. intro H. apply (bd_range _ _ _ B) in H. lia.
    + rewrite app_nil_r. apply (bd_nodup _ _ _ B).
  - rewrite app_nil_r. intros i [Hi|Hi].
    + pose proof (bd_next _ _ _ B). subst. lia.
    + pose proof (bd_range _ _ _ B i Hi). lia.
Qed.

Lemma tracks_builds F n0 g0 T m s new s1 : tracks F n0 g0 T m s -> builds s new s1 ->
  tracks F n0 g0 T m s1.
Proof. intros K B. eapply tracks_alloc; eauto; apply B. Qed.

Lemma builds_fresh s0 s new s1 T : wf_state s0 -> In T (heap s0) -> next s0 <= next s ->
  builds s new s1 -> forall i, In i (hids new) -> ~ In i (ids T).
Proof.
  intros W HT L B i Hi Hj. pose proof (wf_lt s0 T i W HT Hj). pose proof (bd_range _ _ _ B i Hi). lia.
Qed.

(** ** Loops that rewrite nodes in document order *)

Definition keys (l : list ctx) : list nat := map (fun c => tid (snd c)) l.

(** [f] on node [x] builds [G]'s result and puts it in place of the node. *)
Definition rewrites (f : nat -> M unit) (G : tree -> res tree) (T : tree) (p : ctx -> bool) : Prop :=
  forall F n0 g0 m s a x, In (a, x) (visits [] T) -> p (a, x) = true ->
    tracks F n0 g0 T m s -> rwm m x = x ->
    match G (erase x) with
    | Ok e => exists new s1, f (tid x) s = supplant (tid x) [new] s1 /\
                             builds s [new] s1 /\ erase new = e
    | Err e => exists s1, f (tid x) s = (Err e, s1)
    end.

Lemma first_err_app {A} (G : ctx -> res A) l1 l2 :
  first_err G (l1 ++ l2) = match first_err G l1 with Some e => Some e | None => first_err G l2 end.
Proof.
  induction l1 as [|c l1 IH]; simpl; auto. destruct (G c); auto.
Qed.

Definition econtent (c : ctx) : ctx := (map erase (fst c), erase (snd c)).

Lemma rewrite_loop s0 T p f G : wf_state s0 -> In T (heap s0) -> rewrites f G T p ->
  p ([], T) = false ->
  match first_err (fun c => G (snd c)) (map econtent (select p T)) with
  | Some e => exists s', for_each (select_ids p T) f s0 = (Err e, s')
  | None => exists m s', for_each (select_ids p T) f s0 = (Ok tt, s') /\
      tracks (others T s0) (next s0) (gen s0) T m s' /\
      forall a x, In (a, x) (visits [] T) ->
        option_map (map erase) (m (tid x)) =
        if p (a, x) then match G (erase x) with Ok e => Some [e] | Err _ => None end else None
  end.
Proof.
  intros W HT R Hroot. pose proof (wf_NoDup s0 T W HT) as N.
  pose proof (visits_keys_NoDup T [] N) as NK.
  assert (L : forall l2 l1 m s, visits [] T = l1 ++ l2 ->
    tracks (others T s0) (next s0) (gen s0) T m s ->
    (forall a x, In (a, x) l2 -> m (tid x) = None) ->
    (forall a x, In (a, x) l1 -> option_map (map erase) (m (tid x)) =
        if p (a, x) then match G (erase x) with Ok e => Some [e] | Err _ => None end else None) ->
    match first_err (fun c => G (snd c)) (map econtent (filter p l2)) with
    | Some e => exists s', for_each (keys (filter p l2)) f s = (Err e, s')
    | None => exists m s', for_each (keys (filter p l2)) f s = (Ok tt, s') /\
        tracks (others T s0) (next s0) (gen s0) T m s' /\
        forall a x, In (a, x) (visits [] T) ->
          option_map (map erase) (m (tid x)) =
          if p (a, x) then match G (erase x) with Ok e => Some [e] | Err _ => None end else None
    end).
  { induction l2 as [|[a x] l2 IH]; intros l1 m s E K M2 M1.
    - simpl. exists m, s. split; auto. split; auto. intros a x H. apply M1.
      rewrite E, app_nil_r in H. auto.
    - assert (Hin : In (a, x) (visits [] T)) by (rewrite E; apply in_app_iff; right; left; auto).
      assert (NK2 : ~ In (tid x) (keys l1) /\ ~ In (tid x) (keys l2)).
      { rewrite E, map_app in NK. simpl in NK. apply NoDup_app in NK as (_ & K2 & K3).
        inversion K2; subst. split; auto. intro Q. apply (K3 _ Q). left; auto. }
      destruct NK2 as [NK1 NK2].
      simpl. destruct (p (a, x)) eqn:P; simpl.
      + assert (Rx : rwm m x = x).
        { apply rwm_id. intros i Hi. rewrite <- (tl_visits_ids a x) in Hi.
          apply in_map_iff in Hi as ([b y] & Ei & Hy). simpl in Ei. subst i.
          destruct (visits_contig _ _ _ _ _ _ E) as (l3 & E3).
          apply (M2 b). right. destruct x as [hx kx]. simpl in E3, Hy. injection E3 as E4.
          rewrite E4. apply in_app_iff; auto. }
        pose proof (R _ _ _ m s a x Hin P K Rx) as Rf.
        destruct (G (erase x)) as [e|e] eqn:Ge.
        * destruct Rf as (new & s1 & Ef & B & En).
          assert (a <> []).
          { intro Ea. subst a. apply visits_self_only in Hin; auto. subst x. congruence. }
          destruct a as [|q a]; [congruence|].
          assert (K1 : tracks (others T s0) (next s0) (gen s0) T m s1) by (eapply tracks_builds; eauto).
          destruct (tracks_supplant (others T s0) (next s0) (gen s0) T m s1 q a x [new]) as (s2 & Es & _ & K2); auto.
          { apply (M2 (q :: a)). left; auto. }
          { apply (builds_loose s); auto. apply (tk_wf _ _ _ _ _ _ K). }
          { eapply (builds_fresh s0 s); eauto. apply (tk_next _ _ _ _ _ _ K). }
          rewrite bind_run, Ef, Es.
          apply (IH (l1 ++ [(q :: a, x)]) (mput (tid x) [new] m)).
          -- rewrite <- app_assoc. exact E.
          -- exact K2.
          -- intros b y Hy. unfold mput. destruct (Nat.eqb_spec (tid y) (tid x)) as [Ey|Ey].
             ++ exfalso. apply NK2. rewrite <- Ey. apply in_map_iff. exists (b, y); auto.
             ++ apply (M2 b). right; auto.
          -- intros b y Hy. apply in_app_iff in Hy as [Hy|[Hy|[]]].
             ++ unfold mput. destruct (Nat.eqb_spec (tid y) (tid x)) as [Ey|Ey].
                ** exfalso. apply NK1. rewrite <- Ey. apply in_map_iff. exists (b, y); auto.
                ** auto.
             ++ injection Hy as <- <-. unfold mput. rewrite Nat.eqb_refl, P, Ge. simpl. rewrite En. auto.
        * destruct Rf as (s1 & Ef). exists s1. rewrite bind_run, Ef. reflexivity.
      + apply (IH (l1 ++ [(a, x)]) m); auto.
        * rewrite <- app_assoc. exact E.
        * intros b y Hy. apply (M2 b). right; auto.
        * intros b y Hy. apply in_app_iff in Hy as [Hy|[Hy|[]]]; auto.
          injection Hy as <- <-. rewrite P, (M2 a) by (left; auto). reflexivity. }
  apply (L (visits [] T) [] (fun _ => None) s0); auto.
  - apply tracks_init; auto.
  - intros a x [].
Qed.

(** The same, as a function on content. *)
Definition natural (p : ctx -> bool) (q : list tree -> tree -> bool) : Prop :=
  forall c, p c = q (map erase (fst c)) (erase (snd c)).

Lemma select_erase p q T : natural p q ->
  map econtent (select p T) = filter (fun c => q (fst c) (snd c)) (visits [] (erase T)).
Proof.
  intro H. unfold select. change (@nil tree) with (map erase []) at 2. rewrite erase_visits.
  rewrite filter_map_comm. f_equal. apply filter_ext. intro c. apply H.
Qed.

Lemma in_tl_visits T a x : In (a, x) (tl (visits [] T)) -> In (a, x) (visits [] T).
Proof. destruct T; simpl; auto. Qed.

Lemma rewrite_computes s0 T p q f G : wf_state s0 -> In T (heap s0) -> rewrites f G T p ->
  natural p q -> p ([], T) = false ->
  match rewrite_all q G (erase T) with
  | Err e => exists s', for_each (select_ids p T) f s0 = (Err e, s')
  | Ok e => exists T' s', for_each (select_ids p T) f s0 = (Ok tt, s') /\
      steps T s0 T' s' /\ gen s' = gen s0 /\ tid T' = tid T /\ erase T' = e
  end.
Proof.
  intros W HT R NP Hr. pose proof (rewrite_loop s0 T p f G W HT R Hr) as L.
  unfold rewrite_all. rewrite (select_erase p q T NP) in L. destruct (first_err _ _) as [e|]; auto.
  destruct L as (m & s' & E & K & Hm). exists (rwm m T), s'. split; auto.
  split; [eapply tracks_steps; eauto|]. split; [apply (tk_gen _ _ _ _ _ _ K)|].
  split; [apply rwm_tid|]. apply (erase_rwm m _ T []). intros a x Hx.
  rewrite (Hm a x) by (apply in_tl_visits; auto). rewrite (NP (a, x)). simpl.
  destruct (q (map erase a) (erase x)); auto.
Qed.

(** ** Removal *)

Definition mrem (l : list nat) (m : nat -> option (list tree)) : nat -> option (list tree) :=
  fun j => match m j with
           | Some x => Some x
           | None => if existsb (Nat.eqb j) l then Some [] else None
           end.

Lemma mrem_cons i l m j : mrem (i :: l) m j = mrem l (match m i with Some _ => m | None => mput i [] m end) j.
Proof.
  unfold mrem, mput. simpl. destruct (m i) eqn:E; destruct (Nat.eqb_spec j i) as [->|H]; simpl.
  - rewrite E. auto.
  - auto.
  - rewrite E. auto.
  - auto.
Qed.

Lemma tracks_ext F n0 g0 T m m' s : (forall j, m j = m' j) -> tracks F n0 g0 T m s ->
  tracks F n0 g0 T m' s.
Proof.
  intros E [A B C D G H]. constructor; auto.
  - intros a x Hx. destruct (B a x Hx) as (a' & L & R1 & R2). exists a'.
    rewrite (rwm_ext m' m) by auto. split; auto. rewrite <- E. split; auto.
    intros p a0 Ea Em. destruct (R2 p a0 Ea Em) as (a2 & Q). exists a2.
    rewrite (rwm_ext m' m) by auto. auto.
  - intros j l Hj. rewrite <- E in Hj. eauto.
Qed.

(** Removing one node (or leaving it alone when it has already been taken out). *)
Lemma tracks_remove1 F n0 g0 T m s a x : NoDup (ids T) ->
  tracks F n0 g0 T m s -> In (a, x) (visits [] T) ->
  exists s', remove_xml_element (tid x) s = (Ok tt, s') /\ next s' = next s /\
             tracks F n0 g0 T (mrem [tid x] m) s'.
Proof.
  intros N K Hx. unfold remove_xml_element.
  assert (EQ : m (tid x) <> None \/ m (tid x) = None) by (destruct (m (tid x)); auto; left; discriminate).
  destruct EQ as [E|E].
  - exists s. split; [eapply tracks_noop; eauto|]. split; auto.
    eapply tracks_ext; [|exact K]. intro j. unfold mrem. simpl.
    destruct (m j) eqn:Ej; auto. destruct (Nat.eqb_spec j (tid x)); subst; simpl; congruence.
  - destruct a as [|p a].
    + exists s. split; [eapply tracks_noop; eauto|]. split; auto.
      apply visits_self_only in Hx; auto. subst x.
      destruct K as [A B C D G H]. constructor; auto.
      * intros a x Hx. destruct (B a x Hx) as (a' & L & R1 & R2). exists a'.
        assert (Q : forall y b, In (b, y) (visits [] T) -> rwm (mrem [tid T] m) y = rwm m y).
        { intros y b Hy. apply rwm_ext. intros i Hi. unfold mrem. destruct (m i) eqn:Ei; auto.
          simpl. destruct (Nat.eqb_spec i (tid T)); auto. subst i. exfalso.
          assert (Hk : In (tid T) (flat_map ids (kids T))).
          { destruct T as [hT kT]. simpl in Hy. destruct Hy as [Hy|Hy].
            - inversion Hy; subst; auto.
            - apply in_flat_map in Hy as (k & Hk & Hy). simpl. apply in_flat_map. exists k; split; auto.
              eapply visits_sub; eauto. destruct y; simpl in *; auto. }
          destruct T as [hT kT]. simpl in N. inversion N; subst. auto. }
        rewrite (Q x a) by auto. split; auto. split.
        -- intros [Ea|Em]; auto. unfold mrem in Em. destruct (m (tid x)) eqn:Ex; [apply R1; right; discriminate|].
              simpl in Em. destruct (Nat.eqb_spec (tid x) (tid T)) as [Et|]; simpl in Em; [|congruence].
              apply R1. left. eapply (visits_unique T [] a x [] T); eauto. apply visits_self.
        -- intros p a0 Ea Em. unfold mrem in Em. destruct (m (tid x)) eqn:Ex; [discriminate|].
           destruct (R2 p a0 Ea eq_refl) as (a2 & Q2). exists a2. rewrite Q2. f_equal. symmetry.
           apply (Q p a0). subst a. apply (visits_parent T [] p a0 x); auto. discriminate.
      * intros j l Hj z Hz. unfold mrem in Hj. destruct (m j) eqn:Ej.
        -- inversion Hj; subst. eauto.
        -- destruct (existsb _ _); inversion Hj; subst. destruct Hz.
    + destruct (tracks_supplant F n0 g0 T m s p a x []) as (s' & Es & En & K'); auto.
      * split; [constructor|]. intros i [].
      * exists s'. split; auto. split; auto. eapply tracks_ext; [|exact K'].
        intro j. unfold mrem, mput. simpl. destruct (Nat.eqb_spec j (tid x)); subst; simpl.
        -- rewrite E. auto.
        -- destruct (m j); auto.
Qed.

Lemma mrem_mrem l1 l2 m j : mrem l2 (mrem l1 m) j = mrem (l1 ++ l2) m j.
Proof.
  unfold mrem. rewrite existsb_app. destruct (m j); auto.
  destruct (existsb (Nat.eqb j) l1); auto.
Qed.

Lemma remove_loop F n0 g0 T l : NoDup (ids T) -> forall m s,
  (forall i, In i l -> In i (ids T)) -> tracks F n0 g0 T m s ->
  exists s', remove_xml_elements l s = (Ok tt, s') /\ next s' = next s /\ tracks F n0 g0 T (mrem l m) s'.
Proof.
  intro N. unfold remove_xml_elements. induction l as [|i l IH]; intros m s Hl K; simpl.
  - exists s. split; auto. split; auto. eapply tracks_ext; [|exact K]. intro j. unfold mrem. simpl.
    destruct (m j); auto.
  - destruct (ids_visits T [] i) as (a & x & Hx & Ex); [apply Hl; left; auto|]. subst i.
    destruct (tracks_remove1 F n0 g0 T m s a x N K Hx) as (s1 & E1 & N1 & K1).
    rewrite bind_run, E1. destruct (IH _ s1 (fun i Hi => Hl i (or_intror Hi)) K1) as (s2 & E2 & N2 & K2).
    exists s2. split; auto. split; [congruence|]. eapply tracks_ext; [|exact K2].
    intro j. apply (mrem_mrem [tid x] l).
Qed.

Lemma remove_computes s0 T l q : wf_state s0 -> In T (heap s0) ->
  (forall i, In i l -> In i (ids T)) ->
  (forall a x, In (a, x) (tl (visits [] T)) -> (In (tid x) l <-> q (map erase a) (erase x) = true)) ->
  exists T' s', remove_xml_elements l s0 = (Ok tt, s') /\ steps T s0 T' s' /\ gen s' = gen s0 /\
    tid T' = tid T /\ erase T' = prune q (erase T).
Proof.
  intros W HT Hl Hq. pose proof (wf_NoDup s0 T W HT) as N.
  destruct (remove_loop _ _ _ T l N (fun _ => None) s0 Hl (tracks_init s0 T W HT)) as (s' & E & _ & K).
  exists (rwm (mrem l (fun _ => None)) T), s'. split; auto.
  split; [eapply tracks_steps; eauto|]. split; [apply (tk_gen _ _ _ _ _ _ K)|].
  split; [apply rwm_tid|]. apply (erase_rwm _ _ T []). intros a x Hx. unfold mrem.
  specialize (Hq a x Hx). destruct (existsb (Nat.eqb (tid x)) l) eqn:Eb.
  - apply existsb_exists in Eb as (i & Hi & Ei). apply Nat.eqb_eq in Ei. subst i.
    apply Hq in Hi. rewrite Hi. reflexivity.
  - destruct (q (map erase a) (erase x)) eqn:Eq; auto. exfalso.
    assert (Hi : In (tid x) l) by (apply Hq; auto).
    assert (existsb (Nat.eqb (tid x)) l = true); [|congruence].
    apply existsb_exists. exists (tid x). split; auto. apply Nat.eqb_refl.
Qed.

(** ** Programs that compute functions on content *)

Definition computes (m : nat -> M unit) (f : tree -> res tree) : Prop :=
  forall s T, wf_state s -> In T (heap s) ->
    match f (erase T) with
    | Ok e => exists T' s', m (tid T) s = (Ok tt, s') /\ steps T s T' s' /\ gen s' = gen s /\
                            tid T' = tid T /\ erase T' = e
    | Err x => exists s', m (tid T) s = (Err x, s')
    end.

(** The same for programs returning the (possibly new) root. *)
Definition computes_root (m : nat -> M nat) (f : tree -> res tree) : Prop :=
  forall s T, wf_state s -> In T (heap s) ->
    match f (erase T) with
    | Ok e => exists T' s', m (tid T) s = (Ok (tid T'), s') /\ steps T s T' s' /\ gen s' = gen s /\
                            erase T' = e
    | Err x => exists s', m (tid T) s = (Err x, s')
    end.

Lemma computes_seq m1 m2 f1 f2 : computes m1 f1 -> computes m2 f2 ->
  computes (fun r => m1 r ;;; m2 r) (fun t => rbind (f1 t) f2).
Proof.
  intros C1 C2 s T W HT. specialize (C1 s T W HT). unfold rbind.
  destruct (f1 (erase T)) as [e|x].
  - destruct C1 as (T1 & s1 & E1 & S1 & G1 & R1 & X1).
    specialize (C2 s1 T1 (st_wf _ _ _ _ S1) (st_in _ _ _ _ S1)). rewrite X1 in C2.
    rewrite R1 in C2. destruct (f2 e) as [e2|x2].
    + destruct C2 as (T2 & s2 & E2 & S2 & G2 & R2 & X2). exists T2, s2.
      rewrite bind_run, E1, E2. split; auto. split; [eapply steps_trans; eauto|].
      split; [congruence|]. split; congruence.
    + destruct C2 as (s2 & E2). exists s2. rewrite bind_run, E1. auto.
  - destruct C1 as (s1 & E1). exists s1. rewrite bind_run, E1. auto.
Qed.

Lemma computes_seq_root m1 m2 f1 f2 : computes m1 f1 -> computes_root m2 f2 ->
  computes_root (fun r => m1 r ;;; m2 r) (fun t => rbind (f1 t) f2).
Proof.
  intros C1 C2 s T W HT. specialize (C1 s T W HT). unfold rbind.
  destruct (f1 (erase T)) as [e|x].
  - destruct C1 as (T1 & s1 & E1 & S1 & G1 & R1 & X1).
    specialize (C2 s1 T1 (st_wf _ _ _ _ S1) (st_in _ _ _ _ S1)). rewrite X1 in C2.
    rewrite R1 in C2. destruct (f2 e) as [e2|x2].
    + destruct C2 as (T2 & s2 & E2 & S2 & G2 & X2). exists T2, s2.
      rewrite bind_run, E1, E2. split; auto. split; [eapply steps_trans; eauto|]. split; congruence.
    + destruct C2 as (s2 & E2). exists s2. rewrite bind_run, E1. auto.
  - destruct C1 as (s1 & E1). exists s1. rewrite bind_run, E1. auto.
Qed.

Lemma computes_root_bind m1 (m2 : nat -> M nat) f1 f2 : computes_root m1 f1 -> computes_root m2 f2 ->
  computes_root (fun r => x <- m1 r ;; m2 x) (fun t => rbind (f1 t) f2).
Proof.
  intros C1 C2 s T W HT. specialize (C1 s T W HT). unfold rbind.
  destruct (f1 (erase T)) as [e|x].
  - destruct C1 as (T1 & s1 & E1 & S1 & G1 & X1).
    specialize (C2 s1 T1 (st_wf _ _ _ _ S1) (st_in _ _ _ _ S1)). rewrite X1 in C2.
    destruct (f2 e) as [e2|x2].
    + destruct C2 as (T2 & s2 & E2 & S2 & G2 & X2). exists T2, s2.
      rewrite bind_run, E1, E2. split; auto. split; [eapply steps_trans; eauto|]. split; congruence.
    + destruct C2 as (s2 & E2). exists s2. rewrite bind_run, E1. auto.
  - destruct C1 as (s1 & E1). exists s1. rewrite bind_run, E1. auto.
Qed.

Lemma computes_ret m f : computes m f -> computes_root (fun r => m r ;;; ret r) f.
Proof.
  intros C s T W HT. specialize (C s T W HT). destruct (f (erase T)) as [e|x].
  - destruct C as (T1 & s1 & E1 & S1 & G1 & R1 & X1). exists T1, s1. rewrite bind_run, E1, R1. auto.
  - destruct C as (s1 & E1). exists s1. rewrite bind_run, E1. auto.
Qed.

Lemma computes_skip : computes (fun _ => ret tt) Ok.
Proof. intros s T W HT. exists T, s. split; auto. split; auto. apply steps_refl; auto. Qed.

Lemma computes_ext m f g : (forall t, f t = g t) -> computes m f -> computes m g.
Proof. intros E C s T W HT. rewrite <- E. apply C; auto. Qed.

(** A loop of passes. *)
Lemma passes_cons {A} (f : A -> tree -> res tree) x l t :
  passes f (x :: l) t = rbind (f x t) (passes f l).
Proof.
  unfold passes. simpl. destruct (f x t) as [e|e]; simpl; auto.
  induction l; simpl; auto.
Qed.

Lemma computes_for {A} (m : A -> nat -> M unit) f l : (forall x, In x l -> computes (m x) (f x)) ->
  computes (fun r => for_each l (fun x => m x r)) (passes f l).
Proof.
  induction l as [|x l IH]; intro H.
  - apply computes_skip.
  - eapply computes_ext; [intro t; symmetry; apply passes_cons|].
    apply (computes_seq (m x) (fun r => for_each l (fun x => m x r))).
    + apply H; left; auto.
    + apply IH. intros; apply H; right; auto.
Qed.
