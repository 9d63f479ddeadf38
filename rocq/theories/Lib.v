(** * Basic facts about the data types of the model. *)

From Coq Require Import String Ascii List Bool Arith Lia.
From Verif Require Import Str Xml XPath Utils Base.
Import ListNotations.

(** ** Equality tests *)

Lemma seqb_refl (s : string) : String.eqb s s = true.
Proof. apply String.eqb_refl. Qed.

Lemma ostr_eqb_eq a b : ostr_eqb a b = true <-> a = b.
Proof.
  destruct a as [x|], b as [y|]; simpl; split; intro H; try discriminate; auto.
  - apply String.eqb_eq in H. congruence.
  - inversion H. apply String.eqb_refl.
Qed.

Lemma qn_eqb_eq a b : qn_eqb a b = true <-> a = b.
Proof.
  destruct a as [n l], b as [n' l']; unfold qn_eqb; simpl.
  rewrite andb_true_iff, ostr_eqb_eq, String.eqb_eq. split.
  - intros [-> ->]; reflexivity.
  - intro H; inversion H; auto.
Qed.

Lemma qn_eqb_refl a : qn_eqb a a = true.
Proof. apply qn_eqb_eq; reflexivity. Qed.

Lemma qn_eqb_neq a b : qn_eqb a b = false <-> a <> b.
Proof.
  rewrite <- qn_eqb_eq. destruct (qn_eqb a b); split; congruence.
Qed.

Lemma qn_eqb_sym a b : qn_eqb a b = qn_eqb b a.
Proof.
  destruct (qn_eqb a b) eqn:E.
  - apply qn_eqb_eq in E; subst; symmetry; apply qn_eqb_refl.
  - destruct (qn_eqb b a) eqn:E'; auto. apply qn_eqb_eq in E'; subst.
    rewrite qn_eqb_refl in E; discriminate.
Qed.

Lemma mem_str_In x l : mem_str x l = true <-> In x l.
Proof.
  unfold mem_str. rewrite existsb_exists. split.
  - intros [y [Hy E]]. apply String.eqb_eq in E; subst; auto.
  - intro H; exists x; split; auto. apply String.eqb_refl.
Qed.

(** ** Lists *)

Lemma existsb_ext {A} (f g : A -> bool) l :
  (forall x, In x l -> f x = g x) -> existsb f l = existsb g l.
Proof.
  induction l as [|x l IH]; intro H; simpl; auto.
  rewrite H by (left; auto). rewrite IH; auto. intros; apply H; right; auto.
Qed.

Lemma forallb_ext {A} (f g : A -> bool) l :
  (forall x, In x l -> f x = g x) -> forallb f l = forallb g l.
Proof.
  induction l as [|x l IH]; intro H; simpl; auto.
  rewrite H by (left; auto). rewrite IH; auto. intros; apply H; right; auto.
Qed.

Lemma existsb_map {A B} (f : B -> bool) (g : A -> B) l :
  existsb f (map g l) = existsb (fun x => f (g x)) l.
Proof. induction l as [|x l IH]; simpl; auto. rewrite IH; auto. Qed.

Lemma forallb_map {A B} (f : B -> bool) (g : A -> B) l :
  forallb f (map g l) = forallb (fun x => f (g x)) l.
Proof. induction l as [|x l IH]; simpl; auto. rewrite IH; auto. Qed.

Lemma flat_map_map {A B C} (f : B -> list C) (g : A -> B) l :
  flat_map f (map g l) = flat_map (fun x => f (g x)) l.
Proof. induction l as [|x l IH]; simpl; auto. rewrite IH; auto. Qed.

Lemma map_flat_map {A B C} (f : B -> C) (g : A -> list B) l :
  map f (flat_map g l) = flat_map (fun x => map f (g x)) l.
Proof. induction l as [|x l IH]; simpl; auto. rewrite map_app, IH; auto. Qed.

Lemma flat_map_flat_map {A B C} (f : B -> list C) (g : A -> list B) l :
  flat_map f (flat_map g l) = flat_map (fun x => flat_map f (g x)) l.
Proof. induction l as [|x l IH]; simpl; auto. rewrite flat_map_app, IH; auto. Qed.

Lemma flat_map_ext_in {A B} (f g : A -> list B) l :
  (forall x, In x l -> f x = g x) -> flat_map f l = flat_map g l.
Proof.
  induction l as [|x l IH]; intro H; simpl; auto.
  rewrite H by (left; auto). rewrite IH; auto. intros; apply H; right; auto.
Qed.

Lemma flat_map_single {A B} (f : A -> B) l : flat_map (fun x => [f x]) l = map f l.
Proof. induction l as [|x l IH]; simpl; [|rewrite IH]; reflexivity. Qed.

Lemma filter_map_comm {A B} (f : B -> bool) (g : A -> B) l :
  filter f (map g l) = map g (filter (fun x => f (g x)) l).
Proof.
  induction l as [|x l IH]; simpl; auto. destruct (f (g x)); simpl; rewrite IH; auto.
Qed.

Lemma NoDup_app {A} (a b : list A) :
  NoDup (a ++ b) <-> NoDup a /\ NoDup b /\ (forall x, In x a -> ~ In x b).
Proof.
  induction a as [|x a IH]; simpl.
  - split; [intro H|intros (_ & H & _)]; auto. split; [constructor|]; auto.
  - split.
    + intro H. inversion H as [|? ? Hn Hr]; subst. apply IH in Hr as (Ha & Hb & Hd).
      split; [|split; auto].
      * constructor; auto. intro Hx; apply Hn, in_or_app; auto.
      * intros y [->|Hy]; auto. intro Hy; apply Hn, in_or_app; auto.
    + intros (Ha & Hb & Hd). inversion Ha as [|? ? Hn Hr]; subst.
      constructor.
      * intro H; apply in_app_or in H as [H|H]; auto. apply (Hd x); auto.
      * apply IH; repeat split; auto.
Qed.

Lemma NoDup_flat_map_in {A B} (f : A -> list B) l x :
  NoDup (flat_map f l) -> In x l -> NoDup (f x).
Proof.
  induction l as [|y l IH]; simpl; intros H [].
  - subst. apply NoDup_app in H; tauto.
  - apply NoDup_app in H as (_ & H & _). auto.
Qed.

Lemma NoDup_flat_map_filter {A B} (f : A -> list B) p l :
  NoDup (flat_map f l) -> NoDup (flat_map f (filter p l)).
Proof.
  induction l as [|y l IH]; simpl; intro H; auto.
  apply NoDup_app in H as (Ha & Hb & Hd).
  destruct (p y); simpl; auto.
  apply NoDup_app; repeat split; auto.
  intros z Hz Hc. apply (Hd z); auto.
  apply in_flat_map in Hc as (w & Hw & Hzw). apply filter_In in Hw as [Hw _].
  apply in_flat_map; eauto.
Qed.

Lemma find_unique {A} (key : A -> nat) l x :
  NoDup (map key l) -> In x l -> find (fun y => Nat.eqb (key y) (key x)) l = Some x.
Proof.
  induction l as [|y l IH]; simpl; intros Hn Hi; [tauto|].
  inversion Hn as [|? ? Hny Hnl]; subst.
  destruct Hi as [->|Hi].
  - rewrite Nat.eqb_refl; auto.
  - destruct (Nat.eqb_spec (key y) (key x)) as [E|E]; auto.
    exfalso; apply Hny. rewrite E. apply in_map; auto.
Qed.

(** ** Trees *)

Section TreeInd.
  Variable P : tree -> Prop.
  Hypothesis H : forall h ks, (forall k, In k ks -> P k) -> P (Node h ks).
  Fixpoint tree_rect' (t : tree) : P t :=
    match t with
    | Node h ks =>
        H h ks ((fix go (l : list tree) : forall k, In k l -> P k :=
                   match l with
                   | [] => fun k (F : In k []) => match F with end
                   | x :: l' => fun k (Hk : In k (x :: l')) =>
                       match Hk with
                       | or_introl E => eq_ind x P (tree_rect' x) k E
                       | or_intror Hk' => go l' k Hk'
                       end
                   end) ks)
    end.
End TreeInd.

Lemma tree_induct (P : tree -> Prop) :
  (forall h ks, (forall k, In k ks -> P k) -> P (Node h ks)) -> forall t, P t.
Proof. exact (tree_rect' P). Qed.

Ltac tree_induction t :=
  pattern t; apply tree_induct; clear t; intros ?h ?ks ?IH.

Lemma in_ids_self t : In (tid t) (ids t).
Proof. destruct t; simpl; auto. Qed.

Lemma visits_ids t : forall anc, map (fun c => tid (snd c)) (visits anc t) = ids t.
Proof.
  tree_induction t. intro anc. simpl. f_equal.
  rewrite map_flat_map. apply flat_map_ext_in. intros k Hk. apply IH; auto.
Qed.

Lemma visits_anc t : forall anc,
  visits anc t = map (fun c => (fst c ++ anc, snd c)) (visits [] t).
Proof.
  tree_induction t. intro anc. simpl. f_equal.
  rewrite map_flat_map. apply flat_map_ext_in. intros k Hk.
  rewrite (IH k Hk (Node h ks :: anc)), (IH k Hk [Node h ks]).
  rewrite map_map. apply map_ext. intros [a x]; simpl. rewrite <- app_assoc; auto.
Qed.

Lemma visits_self anc t : In (anc, t) (visits anc t).
Proof. destruct t; simpl; auto. Qed.

Lemma visits_sub t : forall anc a x, In (a, x) (visits anc t) -> incl (ids x) (ids t).
Proof.
  tree_induction t. intros anc a x H. simpl in H. destruct H as [H|H].
  - inversion H; subst. apply incl_refl.
  - apply in_flat_map in H as (k & Hk & Hx). simpl.
    intros i Hi. right. apply in_flat_map. exists k; split; auto.
    eapply IH; eauto.
Qed.

(** Ancestors of a visited node are trees of which it is a subtree. *)
Lemma visits_anc_sub t : forall anc a x p, In (a, x) (visits anc t) -> In p a ->
  In p anc \/ (incl (ids p) (ids t) /\ incl (ids x) (ids p)).
Proof.
  tree_induction t. intros anc a x p H Hp. simpl in H. destruct H as [H|H].
  - inversion H; subst; auto.
  - apply in_flat_map in H as (k & Hk & Hx).
    assert (Hs : incl (ids k) (ids (Node h ks))).
    { intros i Hi. simpl. right. apply in_flat_map; eauto. }
    destruct (IH k Hk _ _ _ p Hx Hp) as [[Hp'|Hp']|[H1 H2]].
    + subst p. right; split; [apply incl_refl|].
      eapply incl_tran; [eapply visits_sub; eauto|auto].
    + left; auto.
    + right; split; auto. eapply incl_tran; eauto.
Qed.

Lemma last_cons {A} (x : A) l d : last (x :: l) d = last l x.
Proof.
  revert x d. induction l as [|y l IH]; intros x d; auto.
  change (last (y :: l) d = last (y :: l) x). rewrite !IH. reflexivity.
Qed.

Lemma visits_root t : forall anc a x, In (a, x) (visits anc t) ->
  last a x = last anc t.
Proof.
  tree_induction t. intros anc a x H. simpl in H. destruct H as [H|H].
  - inversion H; subst; auto.
  - apply in_flat_map in H as (k & Hk & Hx).
    rewrite (IH k Hk _ _ _ Hx). apply last_cons.
Qed.

Definition hids (hp : list tree) : list nat := flat_map ids hp.

Lemma hids_app a b : hids (a ++ b) = hids a ++ hids b.
Proof. apply flat_map_app. Qed.

Lemma hfind_some i hp c : hfind i hp = Some c ->
  exists t, In t hp /\ In c (visits [] t) /\ tid (snd c) = i.
Proof.
  unfold hfind. intro H. apply find_some in H as [H E].
  apply in_flat_map in H as (t & Ht & Hc). apply Nat.eqb_eq in E. eauto.
Qed.

Lemma hfind_none i hp : hfind i hp = None -> ~ In i (hids hp).
Proof.
  unfold hfind, hids. intros H Hi. apply in_flat_map in Hi as (t & Ht & Hi).
  rewrite <- (visits_ids t []) in Hi. apply in_map_iff in Hi as (c & E & Hc).
  eapply find_none in H; [|apply in_flat_map; eauto].
  simpl in H. subst i. rewrite Nat.eqb_refl in H. discriminate.
Qed.

Lemma hfind_in hp t a x :
  NoDup (hids hp) -> In t hp -> In (a, x) (visits [] t) ->
  hfind (tid x) hp = Some (a, x).
Proof.
  intros Hn Ht Hx. unfold hfind.
  apply (find_unique (fun c : ctx => tid (snd c)) (flat_map (visits []) hp) (a, x)).
  - rewrite map_flat_map. erewrite flat_map_ext; [exact Hn|].
    intro; apply visits_ids.
  - apply in_flat_map; eauto.
Qed.

(** ** In-place edits *)

Definition keeps_id (f : hdr -> hdr) : Prop := forall h, h_id (f h) = h_id h.

Lemma keeps_set_attrs l : keeps_id (set_attrs l). Proof. intro; reflexivity. Qed.
Lemma keeps_set_tag q : keeps_id (set_tag q). Proof. intro; reflexivity. Qed.
Lemma keeps_set_text q : keeps_id (set_text q). Proof. intro; reflexivity. Qed.
Lemma keeps_hset k v : keeps_id (hset_attr k v). Proof. intro; reflexivity. Qed.
Lemma keeps_hdel k : keeps_id (hdel_attr k). Proof. intro; reflexivity. Qed.
Global Hint Resolve keeps_set_attrs keeps_set_tag keeps_set_text keeps_hset keeps_hdel : keeps.

Lemma tset_ids i f t : keeps_id f -> ids (tset i f t) = ids t.
Proof.
  intro K. tree_induction t. simpl. f_equal.
  - destruct (Nat.eqb (h_id h) i); auto.
  - rewrite flat_map_map. apply flat_map_ext_in; auto.
Qed.

Lemma tset_id_notin i f t : ~ In i (ids t) -> tset i f t = t.
Proof.
  tree_induction t. simpl. intro H.
  destruct (Nat.eqb_spec (h_id h) i) as [E|E]; [exfalso; auto|].
  f_equal. rewrite <- (map_id ks) at 2. apply map_ext_in. intros k Hk.
  apply IH; auto. intro Hi; apply H; right. apply in_flat_map; eauto.
Qed.

Lemma tset_tid i f t : keeps_id f -> tid (tset i f t) = tid t.
Proof. intro K. destruct t; unfold tid; simpl. destruct (Nat.eqb (h_id h) i); auto. Qed.

Lemma tset_visits i f t : forall anc,
  visits (map (tset i f) anc) (tset i f t) =
  map (fun c => (map (tset i f) (fst c), tset i f (snd c))) (visits anc t).
Proof.
  tree_induction t. intro anc. simpl. f_equal.
  rewrite flat_map_map, map_flat_map. apply flat_map_ext_in. intros k Hk.
  apply (IH k Hk (Node h ks :: anc)).
Qed.

(** ** Structural replacement *)

Lemma tsubst_id_notin i new t : ~ In i (ids t) -> tsubst i new t = t.
Proof.
  tree_induction t. simpl. intro H. f_equal.
  rewrite <- (map_id ks) at 2. rewrite <- flat_map_single.
  apply flat_map_ext_in. intros k Hk.
  destruct (Nat.eqb_spec (tid k) i) as [E|E].
  - exfalso; apply H; right. apply in_flat_map. exists k; split; auto.
    rewrite <- E. apply in_ids_self.
  - rewrite IH; auto. intro Hi; apply H; right. apply in_flat_map; eauto.
Qed.

Lemma tsubst_tid i new t : tid (tsubst i new t) = tid t.
Proof. destruct t; reflexivity. Qed.

Lemma tsubst_ids_in i new t j :
  In j (ids (tsubst i new t)) -> In j (ids t) \/ In j (hids new).
Proof.
  tree_induction t. simpl. intros [H|H]; auto.
  apply in_flat_map in H as (x & Hx & Hj).
  apply in_flat_map in Hx as (k & Hk & Hx).
  destruct (Nat.eqb (tid k) i).
  - right. apply in_flat_map; eauto.
  - destruct Hx as [<-|[]].
    destruct (IH k Hk Hj) as [H|H]; auto.
    left; right; apply in_flat_map; eauto.
Qed.

(** ** Fresh copies *)

Definition renum_list := fix go (m : nat) (l : list tree) : list tree * nat :=
  match l with
  | [] => ([], m)
  | k :: l' =>
      let '(k', m1) := renum m k in
      let '(l'', m2) := go m1 l' in
      (k' :: l'', m2)
  end.

Lemma renum_node n h ks :
  renum n (Node h ks) =
  let '(ks', m) := renum_list (S n) ks in (Node (set_id n h) ks', m).
Proof. reflexivity. Qed.

Fixpoint size (t : tree) : nat :=
  match t with Node _ ks => S (list_sum (map size ks)) end.

Lemma renum_next t : forall n, snd (renum n t) = n + size t.
Proof.
  tree_induction t. intro n. rewrite renum_node.
  assert (G : forall l, (forall k, In k l -> In k ks) ->
              forall m, snd (renum_list m l) = m + list_sum (map size l)).
  { induction l as [|k l IHl]; intros Hl m; simpl; [lia|].
    destruct (renum m k) as [k' m1] eqn:E1.
    pose proof (IH k (Hl k (or_introl eq_refl)) m) as Hk. rewrite E1 in Hk; simpl in Hk.
    specialize (IHl (fun x Hx => Hl x (or_intror Hx)) m1).
    destruct (renum_list m1 l) as [l' m2]. simpl in *. lia. }
  specialize (G ks (fun _ H => H) (S n)).
  destruct (renum_list (S n) ks) as [ks' m]. simpl in *. lia.
Qed.

Lemma renum_ids t : forall n, ids (fst (renum n t)) = seq n (size t).
Proof.
  tree_induction t. intro n. rewrite renum_node.
  assert (G : forall l, (forall k, In k l -> In k ks) ->
              forall m, hids (fst (renum_list m l)) = seq m (list_sum (map size l))).
  { induction l as [|k l IHl]; intros Hl m; simpl; auto.
    destruct (renum m k) as [k' m1] eqn:E1.
    pose proof (IH k (Hl k (or_introl eq_refl)) m) as Hk.
    pose proof (renum_next k m) as Hn. rewrite E1 in Hk, Hn; simpl in Hk, Hn.
    specialize (IHl (fun x Hx => Hl x (or_intror Hx)) m1).
    destruct (renum_list m1 l) as [l' m2]. simpl in *.
    rewrite seq_app, <- Hk. subst m1. f_equal. exact IHl. }
  specialize (G ks (fun _ H => H) (S n)).
  destruct (renum_list (S n) ks) as [ks' m]. simpl in *. f_equal. exact G.
Qed.

Lemma renum_tid t n : tid (fst (renum n t)) = n.
Proof.
  destruct t as [h ks]. rewrite renum_node. destruct (renum_list (S n) ks); reflexivity.
Qed.

Lemma erase_renum t : forall n, erase (fst (renum n t)) = erase t.
Proof.
  tree_induction t. intro n. rewrite renum_node.
  assert (G : forall l, (forall k, In k l -> In k ks) ->
              forall m, map erase (fst (renum_list m l)) = map erase l).
  { induction l as [|k l IHl]; intros Hl m; simpl; auto.
    destruct (renum m k) as [k' m1] eqn:E1.
    pose proof (IH k (Hl k (or_introl eq_refl)) m) as Hk. rewrite E1 in Hk; simpl in Hk.
    specialize (IHl (fun x Hx => Hl x (or_intror Hx)) m1).
    destruct (renum_list m1 l) as [l' m2]. simpl in *. congruence. }
  specialize (G ks (fun _ H => H) (S n)).
  destruct (renum_list (S n) ks) as [ks' m]. simpl in *. rewrite G. reflexivity.
Qed.

Lemma renum_erase t : forall n, renum n (erase t) = renum n t.
Proof.
  tree_induction t. intro n. cbn [erase]. rewrite !renum_node.
  assert (G : forall l, (forall k, In k l -> In k ks) ->
              forall m, renum_list m (map erase l) = renum_list m l).
  { induction l as [|k l IHl]; intros Hl m; simpl; auto.
    rewrite (IH k (Hl k (or_introl eq_refl)) m).
    destruct (renum m k) as [k' m1].
    rewrite (IHl (fun x Hx => Hl x (or_intror Hx)) m1). reflexivity. }
  rewrite (G ks (fun _ H => H)). destruct (renum_list (S n) ks). reflexivity.
Qed.

Lemma erase_idem t : erase (erase t) = erase t.
Proof.
  tree_induction t. simpl. f_equal. rewrite map_map. apply map_ext_in; auto.
Qed.

(** ** The monad *)

Lemma bind_ret_l {A B} (a : A) (k : A -> M B) s : bind (ret a) k s = k a s.
Proof. reflexivity. Qed.

Lemma bind_assoc {A B C} (m : M A) (k : A -> M B) (k' : B -> M C) s :
  bind (bind m k) k' s = bind m (fun a => bind (k a) k') s.
Proof. unfold bind. destruct (m s) as [[a|e] s']; auto. Qed.

Lemma bind_run {A B} (m : M A) (k : A -> M B) s :
  bind m k s = match m s with
               | (Ok a, s') => k a s'
               | (Err e, s') => (Err e, s')
               end.
Proof. reflexivity. Qed.

Lemma bind_ok {A B} (m : M A) (k : A -> M B) s b s' :
  bind m k s = (Ok b, s') -> exists a s1, m s = (Ok a, s1) /\ k a s1 = (Ok b, s').
Proof.
  unfold bind. destruct (m s) as [[a|e] s1]; intro H; [eauto|discriminate].
Qed.
