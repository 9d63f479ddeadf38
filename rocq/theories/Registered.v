(** Proofs about the registration of updater classes. *)
From Coq Require Import List String Bool Permutation.
From Verif Require Import Str Xml XPath Utils Base Cybox Stix Lib Api Register SpecRegister.
Import ListNotations.
Local Open Scope list_scope.

Lemma mem_str_iff x l : mem_str x l = true <-> In x l.
Proof.
  unfold mem_str. rewrite existsb_exists. split.
  - intros (y & Hy & E). apply String.eqb_eq in E. now subst.
  - intros H. exists x. split; auto. apply String.eqb_refl.
Qed.

Lemma mem_str_not x l : mem_str x l = false <-> ~ In x l.
Proof. rewrite <- mem_str_iff. destruct (mem_str x l); intuition congruence. Qed.

Lemma accepted_dec a : accepted a \/ ~ accepted a.
Proof.
  unfold accepted. destruct (mem_str (u_version (snd a)) (known_versions (fst a))) eqn:E.
  - left. now apply mem_str_iff.
  - right. now apply mem_str_not.
Qed.

Lemma lists_helper_iff u k : lists_helper u k <-> In k (nsmapped u).
Proof.
  unfold lists_helper, nsmapped. rewrite !in_app_iff, !in_map_iff.
  split.
  - intros [(d & H)|[(d & H)|[(d & H)|(d & H)]]].
    + left; now exists (k, d).
    + right; left; now exists (k, d).
    + right; right; left; now exists (k, d).
    + right; right; right; now exists (k, d).
  - intros [((k', d) & E & H)|[((k', d) & E & H)|[((k', d) & E & H)|((k', d) & E & H)]]];
      simpl in E; subst k'; eauto.
Qed.

Lemma wires_dec k a : wires k a \/ ~ wires k a.
Proof.
  unfold wires. destruct (accepted_dec a) as [A|A]; [|tauto].
  rewrite lists_helper_iff.
  destruct (in_dec String.string_dec k (nsmapped (snd a))); tauto.
Qed.

Lemma for_version_dec f v a : for_version f v a \/ ~ for_version f v a.
Proof.
  unfold for_version. destruct (accepted_dec a) as [A|A]; [|tauto].
  destruct (String.string_dec (u_version (snd a)) v); [|tauto].
  destruct a as [[|] u], f; simpl; intuition congruence.
Qed.

(** ** The last attempt of a kind *)

Lemma last_such_snoc {A} (P : A -> Prop) h a b :
  last_such P (h ++ [b]) a <-> (P b /\ a = b) \/ (~ P b /\ last_such P h a).
Proof.
  split.
  - intros (B & C & E & Pa & H).
    destruct C as [|c C] using rev_ind.
    + apply app_inj_tail in E as [-> ->]. now left.
    + clear IHC. rewrite app_comm_cons, app_assoc in E.
      apply app_inj_tail in E as [-> ->]. right. split.
      * apply H. apply in_app_iff. right. now left.
      * exists B, C. repeat split; auto. intros x Hx. apply H, in_app_iff. now left.
  - intros [(Pb & ->)|(Pb & B & C & -> & Pa & H)].
    + exists h, []. repeat split; auto.
    + exists B, (C ++ [b]). rewrite <- app_assoc. repeat split; auto.
      intros x Hx. apply in_app_iff in Hx as [Hx|[<-|[]]]; auto.
Qed.

Lemma last_such_unique {A} (P : A -> Prop) (D : forall a, P a \/ ~ P a) h a b :
  last_such P h a -> last_such P h b -> a = b.
Proof.
  revert a b. induction h as [|x h IH] using rev_ind; intros a b Ha Hb.
  - destruct Ha as ([|] & ? & E & _); discriminate E.
  - apply last_such_snoc in Ha as [(Px & ->)|(Px & Ha)];
      apply last_such_snoc in Hb as [(Px' & ->)|(Px' & Hb)]; try tauto; auto.
Qed.

Lemma last_such_exists {A} (P : A -> Prop) (D : forall a, P a \/ ~ P a) h :
  (exists a, last_such P h a) \/ (forall a, In a h -> ~ P a).
Proof.
  induction h as [|x h IH] using rev_ind.
  - right. intros a [].
  - destruct (D x) as [Px|Px].
    + left. exists x. apply last_such_snoc. now left.
    + destruct IH as [(a & Ha)|H].
      * left. exists a. apply last_such_snoc. now right.
      * right. intros a Ha. apply in_app_iff in Ha as [Ha|[<-|[]]]; auto.
Qed.

Lemma last_such_in {A} (P : A -> Prop) h a : last_such P h a -> In a h /\ P a.
Proof.
  intros (B & C & -> & Pa & _). split; auto. apply in_app_iff. right. now left.
Qed.

(** ** One registration *)

Lemma register_refuses f u w :
  ~ In (u_version u) (known_versions f) ->
  register_updater f u w = (Err ValueError, w).
Proof. intros H. unfold register_updater. apply mem_str_not in H. now rewrite H. Qed.

Lemma register_accepts f u w :
  In (u_version u) (known_versions f) -> fst (register_updater f u w) = Ok u.
Proof. intros H. unfold register_updater. apply mem_str_iff in H. now rewrite H. Qed.

Lemma wire_get (m : nsmap_t) ks k : forall d : dict nsmap_t,
  dict_get k (fold_left (fun d k' => dict_set k' m d) ks d) =
  if in_dec String.string_dec k ks then Some m else dict_get k d.
Proof.
  induction ks as [|x ks IH]; intros d; simpl; [reflexivity|].
  rewrite IH. destruct (in_dec String.string_dec k ks) as [H|H].
  - destruct (String.string_dec x k); reflexivity.
  - destruct (String.string_dec x k) as [->|N].
    + apply dict_get_set_same.
    + apply dict_get_set_other. congruence.
Qed.

Lemma register_nsmaps a w k :
  (wires k a -> dict_get k (w_nsmaps (snd (register_updater (fst a) (snd a) w)))
                = Some (u_nsmap (snd a))) /\
  (~ wires k a -> dict_get k (w_nsmaps (snd (register_updater (fst a) (snd a) w)))
                  = dict_get k (w_nsmaps w)).
Proof.
  destruct a as [f u]. unfold wires, accepted; simpl.
  destruct (in_dec String.string_dec (u_version u) (known_versions f)) as [A|A].
  - unfold register_updater. rewrite (proj2 (mem_str_iff _ _) A).
    rewrite lists_helper_iff.
    assert (E : dict_get k (w_nsmaps (wire_nsmaps u w)) =
                if in_dec String.string_dec k (nsmapped u) then Some (u_nsmap u)
                else dict_get k (w_nsmaps w)) by apply wire_get.
    destruct (in_dec String.string_dec k (nsmapped u)); destruct f;
      cbn [snd w_nsmaps] in *; tauto.
  - rewrite register_refuses by exact A. simpl. tauto.
Qed.

Lemma register_registry a w f v :
  (for_version f v a ->
     dict_get v (registry f (snd (register_updater (fst a) (snd a) w))) = Some (snd a)) /\
  (~ for_version f v a ->
     dict_get v (registry f (snd (register_updater (fst a) (snd a) w))) =
     dict_get v (registry f w)).
Proof.
  destruct a as [g u]. unfold for_version, accepted; simpl.
  destruct (in_dec String.string_dec (u_version u) (known_versions g)) as [A|A].
  - unfold register_updater. rewrite (proj2 (mem_str_iff _ _) A).
    split.
    + intros (-> & <- & _). destruct f; apply dict_get_set_same.
    + intros N. destruct g, f; cbn; try reflexivity; apply dict_get_set_other;
        intros E; apply N; auto.
  - rewrite register_refuses by exact A. simpl. tauto.
Qed.

Lemma register_all_app h1 h2 w :
  register_all (h1 ++ h2) w = register_all h2 (register_all h1 w).
Proof.
  revert w. induction h1 as [|(f, u) h1 IH]; intros w; simpl; auto.
Qed.

Lemma register_all_snoc h a w :
  register_all (h ++ [a]) w =
  snd (register_updater (fst a) (snd a) (register_all h w)).
Proof. rewrite register_all_app. destruct a; reflexivity. Qed.

(** ** Histories *)

Lemma history_registry f v w : forall h,
  (forall a, last_such (for_version f v) h a ->
     dict_get v (registry f (register_all h w)) = Some (snd a)) /\
  ((forall a, In a h -> ~ for_version f v a) ->
     dict_get v (registry f (register_all h w)) = dict_get v (registry f w)).
Proof.
  induction h as [|x h IH] using rev_ind.
  - split; [|reflexivity]. intros a ([|] & ? & E & _); discriminate E.
  - rewrite register_all_snoc. destruct (register_registry x (register_all h w) f v) as [R1 R2].
    split.
    + intros a [(P & ->)|(P & L)]%last_such_snoc; [now apply R1|].
      rewrite R2 by exact P. now apply IH.
    + intros H. rewrite R2 by (apply H, in_app_iff; right; now left).
      apply IH. intros a Ha. apply H, in_app_iff. now left.
Qed.

Lemma history_nsmaps k w : forall h,
  (forall a, last_such (wires k) h a ->
     dict_get k (w_nsmaps (register_all h w)) = Some (u_nsmap (snd a))) /\
  ((forall a, In a h -> ~ wires k a) ->
     dict_get k (w_nsmaps (register_all h w)) = dict_get k (w_nsmaps w)).
Proof.
  induction h as [|x h IH] using rev_ind.
  - split; [|reflexivity]. intros a ([|] & ? & E & _); discriminate E.
  - rewrite register_all_snoc. destruct (register_nsmaps x (register_all h w) k) as [R1 R2].
    split.
    + intros a [(P & ->)|(P & L)]%last_such_snoc; [now apply R1|].
      rewrite R2 by exact P. now apply IH.
    + intros H. rewrite R2 by (apply H, in_app_iff; right; now left).
      apply IH. intros a Ha. apply H, in_app_iff. now left.
Qed.

Lemma registered_iff h f v u :
  dict_get v (registry f (register_all h fresh)) = Some u <->
  exists a, last_such (for_version f v) h a /\ snd a = u.
Proof.
  destruct (history_registry f v fresh h) as [H1 H2]. split.
  - intros E.
    destruct (last_such_exists (for_version f v) (for_version_dec f v) h) as [(a & L)|N].
    + exists a. split; auto. rewrite (H1 a L) in E. congruence.
    + rewrite (H2 N) in E. destruct f; discriminate E.
  - intros (a & L & <-). now apply H1.
Qed.

Lemma wired_iff h k m :
  dict_get k (w_nsmaps (register_all h fresh)) = Some m <->
  exists a, last_such (wires k) h a /\ u_nsmap (snd a) = m.
Proof.
  destruct (history_nsmaps k fresh h) as [H1 H2]. split.
  - intros E. destruct (last_such_exists (wires k) (wires_dec k) h) as [(a & L)|N].
    + exists a. split; auto. rewrite (H1 a L) in E. congruence.
    + rewrite (H2 N) in E. discriminate E.
  - intros (a & L & <-). now apply H1.
Qed.

(** ** Order *)

Lemma alone_last {A} (P : A -> Prop) (D : forall a, P a \/ ~ P a) h a :
  (forall x y, In x h -> In y h -> P x -> P y -> x = y) ->
  In a h -> P a -> last_such P h a.
Proof.
  intros U Ha Pa. destruct (last_such_exists P D h) as [(b & L)|N].
  - destruct (last_such_in _ _ _ L) as [Hb Pb]. now rewrite (U a b Ha Hb Pa Pb).
  - now elim (N a Ha).
Qed.

Lemma order_free h h' :
  independent h -> Permutation h h' ->
  (forall f v, dict_get v (registry f (register_all h fresh)) =
               dict_get v (registry f (register_all h' fresh))) /\
  (forall k, dict_get k (w_nsmaps (register_all h fresh)) =
             dict_get k (w_nsmaps (register_all h' fresh))).
Proof.
  intros I Pm.
  assert (I1 : forall f v x y, In x h -> In y h -> for_version f v x -> for_version f v y -> x = y).
  { intros f v x y Hx Hy (E1 & E2 & _) (E3 & E4 & _).
    destruct (ForallOrdPairs_In I x y Hx Hy) as [E|[(A & _)|(A & _)]]; auto;
      elim A; congruence. }
  assert (I2 : forall k x y, In x h -> In y h -> wires k x -> wires k y -> x = y).
  { intros k x y Hx Hy (_ & E1) (_ & E2).
    destruct (ForallOrdPairs_In I x y Hx Hy) as [E|[(_ & A)|(_ & A)]]; auto;
      [elim (A k E1 E2)|elim (A k E2 E1)]. }
  assert (Pin : forall a, In a h' -> In a h)
    by (intros a; apply Permutation_in; now apply Permutation_sym).
  split.
  - intros f v. destruct (history_registry f v fresh h) as [A1 A2].
    destruct (history_registry f v fresh h') as [B1 B2].
    destruct (last_such_exists (for_version f v) (for_version_dec f v) h) as [(a & L)|N].
    + rewrite (A1 a L). destruct (last_such_in _ _ _ L) as [Ha Pa].
      symmetry. apply B1. apply alone_last; auto using for_version_dec.
      * intros x y Hx Hy. apply (I1 f v); auto.
      * revert Ha. apply Permutation_in, Pm.
    + rewrite (A2 N). symmetry. apply B2. intros a Ha. auto.
  - intros k. destruct (history_nsmaps k fresh h) as [A1 A2].
    destruct (history_nsmaps k fresh h') as [B1 B2].
    destruct (last_such_exists (wires k) (wires_dec k) h) as [(a & L)|N].
    + rewrite (A1 a L). destruct (last_such_in _ _ _ L) as [Ha Pa].
      symmetry. apply B1. apply alone_last; auto using wires_dec.
      * intros x y Hx Hy. apply (I2 k); auto.
      * revert Ha. apply Permutation_in, Pm.
    + rewrite (A2 N). symmetry. apply B2. intros a Ha. auto.
Qed.

(** ** The classes of /repo *)

Lemma apart_check a b :
  (match fst a, fst b with
   | FStix, FStix | FCybox, FCybox => negb (String.eqb (u_version (snd a)) (u_version (snd b)))
   | _, _ => true
   end && forallb (fun k => negb (mem_str k (nsmapped (snd b)))) (nsmapped (snd a)))%bool = true ->
  apart a b.
Proof.
  intros H. apply andb_prop in H as [H1 H2]. split.
  - intros E F. rewrite E, F, String.eqb_refl in H1. destruct (fst b); discriminate H1.
  - intros k. rewrite !lists_helper_iff. intros Ha Hb.
    rewrite forallb_forall in H2. specialize (H2 k Ha).
    apply mem_str_iff in Hb. rewrite Hb in H2. discriminate H2.
Qed.

Lemma import_independent o : independent (import_history o).
Proof.
  unfold independent, import_history.
  repeat match goal with
         | |- ForallOrdPairs _ [] => constructor
         | |- ForallOrdPairs _ _ => constructor
         | |- Forall _ [] => constructor
         | |- Forall _ _ => constructor
         | |- apart _ _ => apply apart_check; vm_compute; reflexivity
         end.
Qed.

Lemma import_accepted o a : In a (import_history o) -> accepted a.
Proof.
  intros H. apply mem_str_iff. simpl in H.
  repeat destruct H as [<-|H]; try reflexivity. destruct H.
Qed.

Lemma import_registered o a :
  In a (import_history o) ->
  dict_get (u_version (snd a)) (registry (fst a) (register_all (import_history o) fresh))
  = Some (snd a).
Proof.
  intros H. apply registered_iff. exists a. split; auto.
  apply alone_last; auto using for_version_dec.
  - intros x y Hx Hy (E1 & E2 & _) (E3 & E4 & _).
    destruct (ForallOrdPairs_In (import_independent o) x y Hx Hy) as [E|[(A & _)|(A & _)]]; auto;
      elim A; congruence.
  - repeat split; auto. eapply import_accepted; eauto.
Qed.

Lemma import_wired o a k :
  In a (import_history o) -> lists_helper (snd a) k ->
  dict_get k (w_nsmaps (register_all (import_history o) fresh)) = Some (u_nsmap (snd a)).
Proof.
  intros H L. apply wired_iff. exists a. split; auto.
  apply alone_last; auto using wires_dec.
  - intros x y Hx Hy (_ & E1) (_ & E2).
    destruct (ForallOrdPairs_In (import_independent o) x y Hx Hy) as [E|[(_ & A)|(_ & A)]]; auto;
      [elim (A k E1 E2)|elim (A k E2 E1)].
  - split; auto. eapply import_accepted; eauto.
Qed.

Lemma import_stands o f u c :
  In (f, u) (import_history o) ->
  u_version u = c_version c -> u_nsmap u = c_nsmap c -> c_klass_nsmap c = c_nsmap c ->
  map snd (u_disallowed u) = c_disallowed c ->
  map snd (u_opt_elems u) = c_opt_elems c ->
  map snd (u_opt_attrs u) = c_opt_attrs c ->
  map snd (u_trans u) = c_trans c ->
  stands_for (register_all (import_history o) fresh) u c.
Proof.
  intros H E1 E2 E3 E4 E5 E6 E7. repeat split; auto.
  intros k L. rewrite E3, <- E2. now apply (import_wired o (f, u)).
Qed.

Lemma import_tables o :
  updaters_of (w_stix (register_all (import_history o) fresh)) = STIX_UPDATERS o /\
  updaters_of (w_cybox (register_all (import_history o) fresh)) = CYBOX_UPDATERS o.
Proof. split; reflexivity. Qed.

Lemma import_all_stand o :
  let w := register_all (import_history o) fresh in
  stands_for w (STIX_1_0_class o) STIX_1_0 /\
  stands_for w (STIX_1_0_1_class o) STIX_1_0_1 /\
  stands_for w (STIX_1_1_class o) STIX_1_1 /\
  stands_for w STIX_1_1_1_class STIX_1_1_1 /\
  stands_for w STIX_1_2_class STIX_1_2 /\
  stands_for w Cybox_2_0_class Cybox_2_0 /\
  stands_for w (Cybox_2_0_1_class o) Cybox_2_0_1.
Proof.
  intros w. unfold w. clear w.
  refine (conj _ (conj _ (conj _ (conj _ (conj _ (conj _ _))))));
    [ apply (import_stands o FStix) | apply (import_stands o FStix)
    | apply (import_stands o FStix) | apply (import_stands o FStix)
    | apply (import_stands o FStix) | apply (import_stands o FCybox)
    | apply (import_stands o FCybox) ];
    try reflexivity; unfold import_history; simpl; tauto.
Qed.

(** A later registration takes no version away. *)
Lemma still_registered o h f v :
  In v (removelast (known_versions f)) ->
  exists u, dict_get v (registry f (register_all (import_history o ++ h) fresh)) = Some u /\
            u_version u = v.
Proof.
  intros H.
  assert (exists a, In a (import_history o) /\ for_version f v a) as (a & Ha & Pa).
  { assert (E : exists a, In a (import_history o) /\ fst a = f /\ u_version (snd a) = v).
    { unfold import_history. destruct f; simpl in H.
      - repeat destruct H as [<-|H]; [| | | | |destruct H].
        + exists (FStix, STIX_1_0_class o). simpl; tauto.
        + exists (FStix, STIX_1_0_1_class o). simpl; tauto.
        + exists (FStix, STIX_1_1_class o). simpl; tauto.
        + exists (FStix, STIX_1_1_1_class). simpl; tauto.
        + exists (FStix, STIX_1_2_class). simpl; tauto.
      - repeat destruct H as [<-|H]; [| |destruct H].
        + exists (FCybox, Cybox_2_0_class). simpl; tauto.
        + exists (FCybox, Cybox_2_0_1_class o). simpl; tauto. }
    destruct E as (a & Ha & E1 & E2). exists a. repeat split; auto.
    eapply import_accepted; eauto. }
  destruct (last_such_exists (for_version f v) (for_version_dec f v) (import_history o ++ h))
    as [(b & L)|N].
  - exists (snd b). split; [apply registered_iff; eauto|].
    apply last_such_in in L as (_ & _ & E & _). exact E.
  - elim (N a); auto. apply in_app_iff. now left.
Qed.

(** Classes that share no helper with [u] leave the helpers of [u] alone. *)
Lemma left_alone h u w :
  (forall a k, In a h -> accepted a -> lists_helper (snd a) k -> ~ lists_helper u k) ->
  forall k, lists_helper u k ->
  dict_get k (w_nsmaps (register_all h w)) = dict_get k (w_nsmaps w).
Proof.
  intros H k L. apply history_nsmaps. intros a Ha (A & La). exact (H a k Ha A La L).
Qed.
