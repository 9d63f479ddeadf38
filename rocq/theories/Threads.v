(** * Calls made at the same time do not disturb each other. *)

From Coq Require Import String Ascii List Bool Arith Lia.
From Verif Require Import Str Xml XPath Utils Base Cybox Stix Ramrod Spec SpecUpdate SpecSession SpecThreads Lib.
From Verif Require Frame Sessions Stepwise Owned Blind StepRun.
From Verif Require Import Steps.
Import ListNotations.

(** ** One access *)

Section Access.
  (** The identities set aside for the thread, from [lo] to [hi]; the
      documents of the start. *)
  Variables lo hi : nat.
  Variable old : list tree.
  Hypothesis fresh_block : forall i, In i (hids old) -> i < lo.

  Definition mine (i : nat) : Prop := lo <= i < hi.
  Definition mineb (i : nat) : bool := (lo <=? i) && (i <? hi).
  Definition mytree (t : tree) : Prop := forall i, In i (ids t) -> mine i.
  Definition alien (t : tree) : Prop := forall i, In i (ids t) -> ~ mine i.
  Definition own (l : list tree) : list tree := filter (fun t => mineb (tid t)) l.
  Definition rest_of (l : list tree) : list tree := filter (fun t => negb (mineb (tid t))) l.

  Lemma mineb_spec i : mineb i = true <-> mine i.
  Proof. unfold mineb, mine. rewrite andb_true_iff, Nat.leb_le, Nat.ltb_lt. tauto. Qed.

  Lemma mineb_no i : mineb i = false <-> ~ mine i.
  Proof.
    rewrite <- mineb_spec. destruct (mineb i); split; intro H; try discriminate; try (exfalso; apply H; reflexivity); auto.
  Qed.

  Lemma old_not_mine i : In i (hids old) -> ~ mine i.
  Proof. intros H [? ?]. apply fresh_block in H. lia. Qed.

  Definition mixed (l : list tree) : Prop := Forall (fun t => mytree t \/ alien t) l.

  Lemma mytree_root t : mytree t -> mineb (tid t) = true.
  Proof. intro H. apply mineb_spec, H, in_ids_self. Qed.
  Lemma alien_root t : alien t -> mineb (tid t) = false.
  Proof. intro H. apply mineb_no, H, in_ids_self. Qed.

  Lemma hfind_app i a b : hfind i (a ++ b) = match hfind i a with Some c => Some c | None => hfind i b end.
  Proof.
    unfold hfind. rewrite flat_map_app. generalize (flat_map (visits []) b).
    induction (flat_map (visits []) a) as [|c l IH]; intro l'; simpl; auto.
    destruct (Nat.eqb (tid (snd c)) i); auto.
  Qed.

  Lemma hfind_absent i t : ~ In i (ids t) -> forall l, hfind i (t :: l) = hfind i l.
  Proof.
    intros H l. change (t :: l) with ([t] ++ l). rewrite hfind_app.
    destruct (hfind i [t]) as [c|] eqn:E; auto. exfalso. apply H.
    apply hfind_some in E as (t' & [<-|[]] & Hc & Hx). destruct c as [a x]. simpl in Hx. subst i.
    eapply visits_sub; [exact Hc|]. apply in_ids_self.
  Qed.

  Lemma hfind_own i l : mine i -> mixed l -> hfind i l = hfind i (own l).
  Proof.
    intros Hi H. induction H as [|t l Ht H IH]; auto. simpl. destruct Ht as [Ht|Ht].
    - rewrite (mytree_root t Ht). change (t :: l) with ([t] ++ l). change (t :: own l) with ([t] ++ own l).
      rewrite !hfind_app, IH. reflexivity.
    - rewrite (alien_root t Ht), hfind_absent; auto. intro X. exact (Ht i X Hi).
  Qed.

  Lemma hfind_seen i l : Owned.seen mine old i -> mixed l -> hfind i (old ++ l) = hfind i (old ++ own l).
  Proof.
    intros [Hi|Hi] H; rewrite !hfind_app.
    - rewrite (hfind_own i l); auto.
    - destruct (hfind i old) eqn:E; auto. apply hfind_none in E. contradiction.
  Qed.

  Lemma own_app a b : own (a ++ b) = own a ++ own b.
  Proof. apply filter_app. Qed.
  Lemma rest_app a b : rest_of (a ++ b) = rest_of a ++ rest_of b.
  Proof. apply filter_app. Qed.

  Lemma own_mine l : Forall mytree l -> own l = l.
  Proof.
    induction 1 as [|t l H _ IH]; simpl; auto. rewrite (mytree_root t H), IH. reflexivity.
  Qed.
  Lemma rest_mine l : Forall mytree l -> rest_of l = [].
  Proof.
    induction 1 as [|t l H _ IH]; simpl; auto. rewrite (mytree_root t H). exact IH.
  Qed.

  (** A change that leaves alien trees alone and keeps the others the
      thread's own. *)
  Section Change.
    Variable f : tree -> tree.
    Hypothesis f_old : forall t, (forall i, In i (ids t) -> ~ mine i) -> f t = t.
    Hypothesis f_mine : forall t, mytree t -> mytree (f t).

    Lemma change_old : map f old = old.
    Proof.
      rewrite <- (map_id old) at 2. apply map_ext_in. intros t Ht. apply f_old. intros i Hi.
      apply old_not_mine. apply in_flat_map. eauto.
    Qed.

    Lemma change_own l : mixed l -> own (map f l) = map f (own l).
    Proof.
      induction 1 as [|t l Ht _ IH]; simpl; auto. destruct Ht as [Ht|Ht].
      - rewrite (mytree_root _ (f_mine _ Ht)), (mytree_root _ Ht). simpl. rewrite IH. reflexivity.
      - rewrite (f_old t Ht), (alien_root _ Ht). exact IH.
    Qed.

    Lemma change_rest l : mixed l -> rest_of (map f l) = rest_of l.
    Proof.
      induction 1 as [|t l Ht _ IH]; simpl; auto. destruct Ht as [Ht|Ht].
      - rewrite (mytree_root _ (f_mine _ Ht)), (mytree_root _ Ht). exact IH.
      - rewrite (f_old t Ht), (alien_root _ Ht). simpl. rewrite IH. reflexivity.
    Qed.

    Lemma change_from l : mixed l -> Forall (fun t => In t l \/ mytree t) (map f l).
    Proof.
      intro H. apply Forall_forall. intros t Ht. apply in_map_iff in Ht as (t0 & <- & H0).
      unfold mixed in H. rewrite Forall_forall in H. destruct (H t0 H0) as [X|X]; [right; auto|].
      rewrite (f_old t0 X). auto.
    Qed.
  End Change.

  Lemma from_self l : Forall (fun t => In t l \/ mytree t) l.
  Proof. apply Forall_forall; auto. Qed.

  Lemma from_app l a b : Forall (fun t => In t l \/ mytree t) a -> Forall mytree b ->
    Forall (fun t => In t l \/ mytree t) (a ++ b).
  Proof. intros H1 H2. apply Forall_app; split; auto. eapply Forall_impl; [|exact H2]. auto. Qed.

  (** What an access to the counter gives back is the only thing that may
      differ. *)
  Definition alike {X} (a : op X) (r r' : res X) : Prop :=
    match a in op X return res X -> res X -> Prop with
    | Tick => fun r r' => exists n n', r = Ok n /\ r' = Ok n'
    | _ => fun r r' => r = r'
    end r r'.

  Lemma access {X} (a : op X) l n g r hp' n' g' h :
    lo <= n -> mixed l -> Owned.allowed mine old a ->
    exec a (St (old ++ l) n g) = (r, St hp' n' g') -> n' <= hi ->
    n <= n' /\ Owned.answers mine a r /\
    exists l', hp' = old ++ l' /\ rest_of l' = rest_of l /\ Forall (fun t => In t l \/ mytree t) l' /\
      exists r' h', exec a (St (old ++ own l) n h) = (r', St (old ++ own l') n' h') /\ alike a r r'.
  Proof.
    intros Hn Hm Ha E Hl. destruct a; cbn [exec Owned.allowed Owned.answers alike] in *.
    - (* Read *)
      unfold Xml.deref in *. cbn [heap] in *. rewrite (hfind_seen i l Ha Hm) in E.
      destruct (hfind i (old ++ own l)) as [c|] eqn:F; inversion E; subst; clear E.
      + split; auto. split.
        { intros c' Ec Hi. inversion Ec; subst c'; clear Ec. destruct c as [an x].
          apply hfind_some in F as (t & Ht & Hc & Hx). simpl in Hx.
          assert (In i (ids t)) by (eapply visits_sub; [exact Hc|]; rewrite <- Hx; apply in_ids_self).
          apply in_app_or in Ht as [Ht|Ht].
          - exfalso. apply (old_not_mine i); auto. apply in_flat_map; eauto.
          - apply filter_In in Ht as [Ht Hb]. unfold mixed in Hm. rewrite Forall_forall in Hm.
            destruct (Hm t Ht) as [Q|Q]; [|exfalso; exact (Q i H Hi)].
            eapply Owned.ytree_sub; eauto. }
        exists l. split; auto. split; auto. split; [apply from_self|].
        exists (Ok c), h. split; auto.
      + split; auto. split; [intros; discriminate|].
        exists l. split; auto. split; auto. split; [apply from_self|].
        exists (Err Dangling), h. split; auto.
    - (* Write *)
      destruct Ha as [Hi K]. unfold Xml.modify in *. cbn [heap next gen] in *. inversion E; subst; clear E.
      split; auto. split; auto.
      assert (F1 : forall t, (forall j, In j (ids t) -> ~ mine j) -> tset i f t = t).
      { intros t Ht. apply tset_id_notin. intro Q. exact (Ht i Q Hi). }
      assert (F2 : forall t, mytree t -> mytree (tset i f t)).
      { intros t Ht j Hj. rewrite tset_ids in Hj by auto. auto. }
      exists (map (tset i f) l). rewrite map_app, (change_old _ F1). split; auto.
      split; [apply change_rest; auto|]. split; [apply change_from; auto|].
      exists (Ok tt), h. rewrite map_app, (change_old _ F1), (change_own _ F1 F2) by auto. split; auto.
    - (* Fresh *)
      unfold Xml.fresh in *. cbn [heap next gen] in *. inversion E; subst; clear E.
      split; auto. split; [intros x Ex; inversion Ex; subst; unfold mine; lia|].
      exists l. split; auto. split; auto. split; [apply from_self|].
      exists (Ok n), h. split; auto.
    - (* Copy *)
      unfold Xml.copy_tree in *. cbn [heap next gen] in *.
      pose proof (renum_ids t n) as Hi. pose proof (renum_next t n) as Hx.
      destruct (renum n t) as [t' m]; simpl in Hi, Hx. inversion E; subst; clear E.
      split; [lia|]. split.
      { intros x Ex; inversion Ex; subst x. intros i H. rewrite Hi in H. apply in_seq in H. unfold mine. lia. }
      exists l. split; auto. split; auto. split; [apply from_self|].
      exists (Ok t'), h. split; auto.
    - (* Push *)
      unfold Xml.push in *. cbn [heap next gen] in *. inversion E; subst; clear E.
      assert (Ht : Forall mytree [t]) by (constructor; [exact Ha|constructor]).
      split; auto. split; auto. exists (l ++ [t]). rewrite <- app_assoc. split; auto.
      rewrite rest_app, (rest_mine [t] Ht), app_nil_r. split; auto.
      split; [apply from_app; auto using from_self|].
      exists (Ok (tid t)), h. rewrite own_app, (own_mine [t] Ht), app_assoc. split; auto.
    - (* Put *)
      destruct Ha as (Hi & Hnew & Hx). inversion E; subst; clear E. cbn [heap next gen].
      assert (Ht : Forall mytree [x]) by (constructor; [exact Hx|constructor]).
      assert (F1 : forall t, (forall j, In j (ids t) -> ~ mine j) -> tsubst i new t = t).
      { intros t Hy. apply tsubst_id_notin. intro Q. exact (Hy i Q Hi). }
      assert (F2 : forall t, mytree t -> mytree (tsubst i new t)).
      { intros t Hy j Hj. apply tsubst_ids_in in Hj as [Hj|Hj]; auto.
        apply in_flat_map in Hj as (y & Hy' & Hj). rewrite Forall_forall in Hnew. exact (Hnew y Hy' j Hj). }
      split; auto. split; auto. exists (map (tsubst i new) l ++ [x]).
      rewrite map_app, (change_old _ F1), <- app_assoc. split; auto.
      rewrite rest_app, (rest_mine [x] Ht), app_nil_r. split; [apply change_rest; auto|].
      split; [apply from_app; auto; apply change_from; auto|].
      exists (Ok tt), h. rewrite map_app, (change_old _ F1), own_app, (change_own _ F1 F2), (own_mine [x] Ht), <- app_assoc by auto.
      split; auto.
    - (* Tick *)
      inversion E; subst; clear E. cbn [heap next gen]. split; auto. split; auto.
      exists l. split; auto. split; auto. split; [apply from_self|].
      exists (Ok h), (S h). split; eauto.
    - (* Rebuild *)
      destruct Ha as [Hr Hc]. cbn [heap next gen] in *. destruct c as [an x]. cbn [fst snd] in *.
      pose proof (Frame.upd_ns_props u x an n) as [H1 H2].
      destruct (upd_ns u an x n) as [t' m] eqn:Eu. cbn [fst snd] in H1, H2. inversion E; subst; clear E.
      assert (Ht' : mytree t').
      { intros i Hi. destruct (H2 i Hi) as [H|H]; [apply Hc; auto|unfold mine; lia]. }
      assert (Hh : Forall mytree (husks u x)).
      { apply Forall_forall. intros t Ht i Hi. apply Hc. apply (Frame.husks_ids u). apply in_flat_map; eauto. }
      set (f := fun t => if Nat.eqb (tid t) root then t' else t).
      assert (F1 : forall t, (forall j, In j (ids t) -> ~ mine j) -> f t = t).
      { intros t Hy. unfold f. destruct (Nat.eqb_spec (tid t) root) as [Q|Q]; auto.
        exfalso. apply (Hy root); auto. rewrite <- Q. apply in_ids_self. }
      assert (F2 : forall t, mytree t -> mytree (f t)).
      { intros t Hy. unfold f. destruct (Nat.eqb (tid t) root); auto. }
      split; auto. split; [intros y Ey; inversion Ey; subst; apply Ht', in_ids_self|].
      exists (map f l ++ husks u x). rewrite map_app, (change_old _ F1), <- app_assoc. split; auto.
      rewrite rest_app, (rest_mine _ Hh), app_nil_r. split; [apply change_rest; auto|].
      split; [apply from_app; auto; apply change_from; auto|].
      exists (Ok (tid t')), h.
      rewrite map_app, (change_old _ F1), own_app, (change_own _ F1 F2), (own_mine _ Hh), <- app_assoc by auto.
      split; auto.
  Qed.
End Access.

(** ** All threads *)

Lemma pairs_split {A} (R : A -> A -> Prop) a x b : ForallOrdPairs R (a ++ x :: b) ->
  (forall y, In y a -> R y x) /\ (forall y, In y b -> R x y).
Proof.
  induction a as [|z a IH]; simpl; intro H; inversion H; subst; clear H.
  - split; [intros y []|]. rewrite Forall_forall in H2. auto.
  - destruct (IH H3) as [I1 I2]. split; auto. intros y [<-|Hy]; auto.
    rewrite Forall_forall in H2. apply H2. apply in_or_app. right. left. reflexivity.
Qed.

Lemma Forall2_split {A B} (R : A -> B -> Prop) l b y c : Forall2 R l (b ++ y :: c) ->
  exists b' y' c', l = b' ++ y' :: c' /\ Forall2 R b' b /\ R y' y /\ Forall2 R c' c.
Proof.
  intro H. apply Forall2_app_inv_r in H as (l1 & l2 & H1 & H2 & ->).
  inversion H2; subst. eauto 8.
Qed.

Lemma Forall2_join {A B} (R : A -> B -> Prop) b' y' c' b y c :
  Forall2 R b' b -> R y' y -> Forall2 R c' c -> Forall2 R (b' ++ y' :: c') (b ++ y :: c).
Proof. intros. apply Forall2_app; auto. Qed.

Lemma Forall2_nth {A B} (R : A -> B -> Prop) l l' k y : Forall2 R l l' -> nth_error l' k = Some y ->
  exists x, nth_error l k = Some x /\ R x y.
Proof.
  intro H. revert k. induction H as [|a b l l' Hab H IH]; intros [|k] E; simpl in *; try discriminate.
  - inversion E; subst. eauto.
  - auto.
Qed.

Lemma Forall2_length {A B} (R : A -> B -> Prop) l l' : Forall2 R l l' -> List.length l = List.length l'.
Proof. induction 1; simpl; auto. Qed.

Lemma Forall2_impl_in {A B} (R R' : A -> B -> Prop) l l' :
  (forall x y, In x l -> R x y -> R' x y) -> Forall2 R l l' -> Forall2 R' l l'.
Proof.
  intros H F. induction F; constructor; auto.
  - apply H; auto. left; auto.
  - apply IHF. intros; apply H; auto. right; auto.
Qed.

Section Machine.
  Variable o : oracle.
  Variable hp : list tree.
  Variable g : nat.
  Variable jobs : list job.
  Hypothesis prepared : well_prepared hp jobs.

  Notation mine_of j := (mine (j_from j) (j_to j)).
  Notation own_of j := (own (j_from j) (j_to j)).
  Notation whole j := (mytree (j_from j) (j_to j)).
  Notation begin j := (Stepwise.perform o (j_call j)).

  (** The thread has come as far as it would have come alone. *)
  Definition as_alone (l : list tree) (j : job) (th : thread) : Prop :=
    limit th = j_to j /\ j_from j <= supply th /\
    Owned.owns (mine_of j) hp (code th) (Owned.sresults (mine_of j) hp) /\
    (Blind.blind (begin j) ->
       Blind.blind (code th) /\
       exists h, run (code th) (St (hp ++ own_of j l) (supply th) h) = run (begin j) (St hp (j_from j) g)).

  Definition good (m : machine) (l : list tree) : Prop :=
    shared m = hp ++ l /\
    Forall (fun t => exists j, In j jobs /\ whole j t) l /\
    Forall2 (as_alone l) jobs (threads m).

  Definition apart (a b : job) : Prop := j_to a <= j_from b \/ j_to b <= j_from a.

  Lemma apart_mine a b i : apart a b -> mine_of a i -> ~ mine_of b i.
  Proof. unfold apart, mine. lia. Qed.

  Lemma apart_sym a b : apart a b -> apart b a.
  Proof. unfold apart. tauto. Qed.

  Lemma below j : In j jobs -> forall i, In i (hids hp) -> i < j_from j.
  Proof. destruct prepared as (_ & H & _). rewrite Forall_forall in H. apply H. Qed.

  Lemma seen_before j : In j jobs -> Owned.odoc (mine_of j) hp (subject (j_call j)).
  Proof.
    intro H. destruct prepared as (P & _). rewrite Forall_forall in P. specialize (P j H).
    destruct (subject (j_call j)); simpl in *; auto; right; exact P.
  Qed.

  Lemma others b j c : jobs = b ++ j :: c -> forall x, In x b \/ In x c -> apart x j.
  Proof.
    intros E x Hx. destruct prepared as (_ & _ & P). rewrite E in P. apply pairs_split in P as [P1 P2].
    destruct Hx as [Hx|Hx]; [apply P1; auto|apply apart_sym, P2; auto].
  Qed.

  Lemma mixed_for b j c l : jobs = b ++ j :: c ->
    Forall (fun t => exists j, In j jobs /\ whole j t) l -> mixed (j_from j) (j_to j) l.
  Proof.
    intros E H. eapply Forall_impl; [|exact H]. intros t (x & Hx & Ht). rewrite E in Hx.
    apply in_app_or in Hx. assert (Q : x = j \/ (In x b \/ In x c)) by (simpl in Hx; intuition auto).
    destruct Q as [->|Q]; [left; exact Ht|]. right. intros i Hi.
    apply (apart_mine x j); auto. eapply others; eauto.
  Qed.

  Lemma own_other j x l l' : apart x j ->
    rest_of (j_from j) (j_to j) l' = rest_of (j_from j) (j_to j) l -> own_of x l' = own_of x l.
  Proof.
    intros A E.
    assert (Q : forall l, own_of x l = own_of x (rest_of (j_from j) (j_to j) l)).
    { clear - A. induction l as [|t l IH]; simpl; auto.
      destruct (mineb (j_from j) (j_to j) (tid t)) eqn:Ej; simpl.
      - replace (mineb (j_from x) (j_to x) (tid t)) with false; auto. symmetry. apply mineb_no.
        intro H. apply mineb_spec in Ej. exact (apart_mine x j _ A H Ej).
      - rewrite IH. reflexivity. }
    rewrite (Q l'), (Q l), E. reflexivity.
  Qed.

  Lemma good_start : good (start o hp g jobs) [].
  Proof.
    split; [simpl; rewrite app_nil_r; reflexivity|]. split; [constructor|].
    cbn [start threads].
    assert (H : forall l, incl l jobs ->
      Forall2 (as_alone []) l (map (fun j => Thread (begin j) (j_from j) (j_to j)) l)).
    { induction l as [|j l IH]; simpl; intro Hl; constructor.
      - split; [reflexivity|]. split; [cbn; auto|]. split.
        + apply Owned.owns_perform. apply seen_before. apply Hl. left; auto.
        + intro B. split; [exact B|]. exists g. cbn. rewrite app_nil_r. reflexivity.
      - apply IH. intros y Hy. apply Hl. right; auto. }
    apply H. apply incl_refl.
  Qed.

  Lemma good_step m m' l : good m l -> step m m' -> exists l', good m' l' /\
    (forall k r n lim, nth_error (threads m) k = Some (Thread (Done r) n lim) ->
       nth_error (threads m') k = Some (Thread (Done r) n lim) /\
       forall j, nth_error jobs k = Some j -> own_of j l' = own_of j l).
  Proof.
    intros (Hh & Hl & Hf) S. destruct S as [hp1 g1 before X a k n lim after r hp' n' g' E Hlim].
    cbn [shared threads] in *. subst hp1.
    apply Forall2_split in Hf as (jb & j & ja & Ej & Hb & (L & N & W & B) & Haf).
    cbn [limit supply code] in *. subst lim.
    assert (Hj : In j jobs) by (rewrite Ej; apply in_or_app; right; left; auto).
    destruct W as [Wa Wk].
    assert (Mx := mixed_for jb j ja l Ej Hl).
    destruct (access (j_from j) (j_to j) hp (below j Hj) a l n g1 r hp' n' g' 0 N Mx Wa E Hlim)
      as (Nn & An & l' & -> & Hrest & Hfrom & _).
    exists l'. split.
    - split; [reflexivity|]. split.
      { apply Forall_forall. intros t Ht. rewrite Forall_forall in Hfrom. destruct (Hfrom t Ht) as [Q|Q].
        - rewrite Forall_forall in Hl. auto.
        - exists j; auto. }
      cbn [threads]. rewrite Ej. apply Forall2_join.
      + eapply Forall2_impl_in; [|exact Hb]. intros x y Hx (A1 & A2 & A3 & A4).
        split; auto. split; auto. split; auto. rewrite (own_other j x l l'); auto.
        eapply others; eauto.
      + split; [reflexivity|]. cbn [supply code]. split; [lia|]. split; [apply Wk; exact An|].
        intro B0. destruct (B B0) as [[B1 B2] (h & Hrun)]. split; [apply B2|].
        destruct (access (j_from j) (j_to j) hp (below j Hj) a l n g1 r _ n' g' h N Mx Wa E Hlim)
          as (_ & _ & l2 & El2 & _ & _ & r' & h' & Ex & Al).
        apply app_inv_head in El2. subst l2. exists h'. rewrite <- Hrun. cbn [run]. rewrite Ex. cbn [fst snd].
        destruct a; cbn [alike] in Al; try (rewrite Al; reflexivity).
        destruct Al as (x & y & -> & ->). rewrite (B1 x y). reflexivity.
      + eapply Forall2_impl_in; [|exact Haf]. intros x y Hx (A1 & A2 & A3 & A4).
        split; auto. split; auto. split; auto. rewrite (own_other j x l l'); auto.
        eapply others; eauto.
    - intros q r0 n0 lim0 Eq. cbn [threads] in *.
      assert (Lb : List.length jb = List.length before) by (eapply Forall2_length; eauto).
      destruct (Nat.lt_trichotomy q (List.length before)) as [C|[C|C]].
      + rewrite nth_error_app1 in Eq |- * by auto. split; auto. intros j0 Hj0.
        rewrite Ej, nth_error_app1 in Hj0 by lia. apply nth_error_In in Hj0.
        apply (own_other j); auto. eapply others; eauto.
      + subst q. rewrite nth_error_app2, Nat.sub_diag in Eq by auto. discriminate.
      + rewrite nth_error_app2 in Eq |- * by lia.
        destruct (q - List.length before) as [|p] eqn:Ep; [lia|]. cbn [nth_error] in *. split; auto.
        intros j0 Hj0. rewrite Ej, nth_error_app2, Lb, Ep in Hj0 by lia. cbn [nth_error] in Hj0.
        apply nth_error_In in Hj0. apply (own_other j); auto. eapply others; eauto.
  Qed.

  Lemma good_steps m0 m : steps m0 m -> forall l0, good m0 l0 -> exists l, good m l /\
    (forall k r n lim, nth_error (threads m0) k = Some (Thread (Done r) n lim) ->
       nth_error (threads m) k = Some (Thread (Done r) n lim) /\
       forall j, nth_error jobs k = Some j -> own_of j l = own_of j l0).
  Proof.
    induction 1 as [m|m1 m2 m3 S IH S3]; intros l0 G.
    - exists l0. split; auto.
    - destruct (IH l0 G) as (l2 & G2 & K2). destruct (good_step m2 m3 l2 G2 S3) as (l3 & G3 & K3).
      exists l3. split; auto. intros k r n lim E. destruct (K2 k r n lim E) as [E2 O2].
      destruct (K3 k r n lim E2) as [E3 O3]. split; auto. intros j Hj. rewrite (O3 j Hj). auto.
  Qed.

  Lemma good_reached m : steps (start o hp g jobs) m -> exists l, good m l.
  Proof.
    intro S. destruct (good_steps _ _ S [] good_start) as (l & G & _). eauto.
  Qed.

  (** Documents of the start are there, unchanged, at every moment. *)
  Lemma documents_intact m : steps (start o hp g jobs) m -> exists new, shared m = hp ++ new.
  Proof. intro S. destruct (good_reached m S) as (l & H & _). eauto. Qed.

  (** A call that has finished, finished as it would have alone. *)
  Lemma finished_alone m k r j : steps (start o hp g jobs) m -> finished m k r -> nth_error jobs k = Some j ->
    reproducible o (j_call j) ->
    exists s1, perform o (j_call j) (St hp (j_from j) g) = (r, s1) /\ incl (heap s1) (shared m).
  Proof.
    intros S (n & lim & F) Hj R. destruct (good_reached m S) as (l & Hs & Hl & Hf).
    destruct (Forall2_nth _ _ _ _ _ Hf F) as (j' & Hj' & _ & _ & _ & B).
    rewrite Hj in Hj'. inversion Hj'; subst j'; clear Hj'. cbn [code supply] in B.
    destruct (B (Blind.blind_perform o _ R)) as [_ (h & E)]. cbn [run] in E.
    rewrite StepRun.run_perform in E. rewrite <- E. eexists. split; [reflexivity|].
    cbn [heap]. rewrite Hs. apply incl_app; [apply incl_appl, incl_refl|].
    apply incl_appr. intros t Ht. apply filter_In in Ht. apply Ht.
  Qed.

  (** What a finished call has returned is not changed by the calls that go
      on. *)
  Lemma finished_stays m m' k r j : steps (start o hp g jobs) m -> steps m m' ->
    finished m k (Ok r) -> nth_error jobs k = Some j ->
    finished m' k (Ok r) /\
    forall i, i = r_document r \/ In i (removed_nodes r) \/ In i (flat_map snd (remapped_ids r)) ->
    forall anc t, node_at (memory_of m) i anc t -> node_at (memory_of m') i anc t.
  Proof.
    intros S S' (n & lim & F) Hj. destruct (good_reached m S) as (l & G).
    destruct (good_steps _ _ S' l G) as (l' & G' & K). destruct (K _ _ _ _ F) as [F' O]. specialize (O j Hj).
    split; [exists n, lim; exact F'|].
    destruct G as (Hs & Hl & Hf). destruct G' as (Hs' & Hl' & _).
    destruct (Forall2_nth _ _ _ _ _ Hf F) as (j' & Hj' & _ & _ & W & _).
    rewrite Hj in Hj'. inversion Hj'; subst j'; clear Hj'. cbn [code] in W.
    destruct (W r eq_refl) as (W1 & W2 & W3).
    intros i Hi anc t (T & HT & HV & Ei). cbn [memory_of heap] in *.
    assert (Hsn : Owned.seen (mine_of j) hp i).
    { destruct Hi as [->|[Hi|Hi]]; [exact W1| |].
      - left. unfold removed_nodes in Hi. destruct (r_removed r); simpl in W2;
          try (rewrite Forall_forall in W2; auto). destruct Hi.
      - left. unfold remapped_ids in Hi. destruct (r_remapped r) as [x|x|d]; simpl in Hi; try contradiction.
        apply in_flat_map in Hi as (kv & Hk & Hi). simpl in W3. unfold Owned.ydict in W3.
        rewrite Forall_forall in W3. specialize (W3 kv Hk). rewrite Forall_forall in W3. auto. }
    exists T. cbn [memory_of heap]. split; [|split; auto]. rewrite Hs in HT. rewrite Hs'.
    apply in_app_or in HT as [HT|HT]; [apply in_or_app; left; exact HT|].
    assert (Hin : In i (ids T)) by (eapply visits_sub; [exact HV|]; rewrite <- Ei; apply in_ids_self).
    apply nth_error_split in Hj as (jb & ja & Ej & _).
    assert (Mx := mixed_for jb j ja l Ej Hl). unfold mixed in Mx. rewrite Forall_forall in Mx.
    assert (Hjin : In j jobs) by (rewrite Ej; apply in_or_app; right; left; auto).
    destruct Hsn as [Hm|Ho].
    - apply in_or_app. right. destruct (Mx T HT) as [Q|Q]; [|exfalso; exact (Q i Hin Hm)].
      assert (In T (own_of j l)) by (apply filter_In; split; auto; apply mytree_root; auto).
      rewrite <- O in H. apply filter_In in H. apply H.
    - exfalso. rewrite Forall_forall in Hl. destruct (Hl T HT) as (x & Hx & Q).
      apply (below x Hx) in Ho. destruct (Q i Hin). lia.
  Qed.
End Machine.

(** ** The same as at any other time *)

Lemma documents_in s s' r1 r2 s0 : incl (heap s) (heap s') -> same_results s0 r1 s r2 -> same_results s0 r1 s' r2.
Proof.
  intros I (e & l & D1 & D2 & F1 & F2 & Q).
  assert (D : forall i x, document s i x -> document s' i x).
  { intros i x (T & HT & A & B). exists T. split; [apply I; exact HT|]. split; assumption. }
  exists e, l. split; [exact D1|]. split; [apply D; exact D2|]. split; [exact F1|]. split; [|exact Q].
  clear - F2 D. induction F2; constructor; auto.
Qed.

Lemma like_alone o hp g jobs m k r j d opts force s0 t :
  well_prepared hp jobs -> NoDup (flat_map ids hp) -> steps (start o hp g jobs) m ->
  finished m k r -> nth_error jobs k = Some j ->
  update_call (j_call j) = Some (d, opts, force) -> reproducible o (j_call j) ->
  denotes (St hp 0 0) d t -> wf_state s0 -> denotes s0 d t ->
  same_outcome (perform o (j_call j) s0) (r, memory_of m).
Proof.
  intros P D S F Hj U R Dn W0 Dn0.
  destruct (finished_alone o hp g jobs P m k r j S F Hj R) as (s1 & E & I).
  assert (Hin : In j jobs) by (eapply nth_error_In; eauto).
  assert (W : wf_state (St hp (j_from j) g)).
  { split; [exact D|]. cbn [heap next]. destruct P as (_ & P & _). rewrite Forall_forall in P. apply (P j Hin). }
  assert (Dn' : denotes (St hp (j_from j) g) d t) by (destruct d; exact Dn).
  assert (Q : same_outcome (perform o (j_call j) s0) (perform o (j_call j) (St hp (j_from j) g))).
  { eapply Sessions.call_forgets; eauto. unfold Sessions.regardless.
    destruct (j_call j); cbn [update_call reproducible] in *; try discriminate; inversion U; subst; auto. }
  rewrite E in Q. destruct (perform o (j_call j) s0) as [[r1|e1] s2]; destruct r as [r2|e2]; cbn [same_outcome] in *; auto.
  apply (documents_in s1); auto.
Qed.

(** ** Every schedule comes to an end *)

Definition next_part {A} (q p : prog A) : Prop :=
  match p with
  | Done _ => False
  | Do a k => exists r, q = k r
  end.

Lemma next_part_wf {A} (p : prog A) : Acc next_part p.
Proof.
  induction p as [r|X a k IH]; constructor; intros q Hq; simpl in Hq.
  - contradiction.
  - destruct Hq as (r & ->). auto.
Qed.

(** One of the threads has made its next access. *)
Inductive one_further : list thread -> list thread -> Prop :=
| further_here th th' l : next_part (code th') (code th) -> one_further (th' :: l) (th :: l)
| further_there th l l' : one_further l' l -> one_further (th :: l') (th :: l).

Lemma further_nil l : ~ one_further l [].
Proof. intro H; inversion H. Qed.

Lemma further_cons l : Acc one_further l -> forall p, Acc next_part p -> forall th, code th = p -> Acc one_further (th :: l).
Proof.
  induction 1 as [l _ IHl]. intros p Hp. induction Hp as [p _ IHp]. intros th E. subst p.
  constructor. intros y Hy. inversion Hy; subst.
  - eapply IHp; eauto.
  - eapply IHl; eauto. apply next_part_wf.
Qed.

Lemma further_wf l : Acc one_further l.
Proof.
  induction l as [|th l IH].
  - constructor. intros y Hy. destruct (further_nil y Hy).
  - eapply further_cons; eauto. apply next_part_wf.
Qed.

Lemma step_further m m' : step m m' -> one_further (threads m') (threads m).
Proof.
  intro S. destruct S. cbn [threads]. induction before as [|b before IH]; simpl.
  - apply further_here. simpl. eauto.
  - apply further_there. exact IH.
Qed.

Lemma no_endless m : ~ exists f : nat -> machine, f 0 = m /\ forall n, step (f n) (f (S n)).
Proof.
  intros (f & E & H).
  assert (Q : forall l, Acc one_further l -> forall n, threads (f n) = l -> False).
  { induction 1 as [l _ IH]. intros n En. apply (IH (threads (f (S n)))) with (n := S n); auto.
    rewrite <- En. apply step_further, H. }
  apply (Q (threads (f 0)) (further_wf _) 0). reflexivity.
Qed.

(** ** A call is never held up *)

Lemma exec_next {X} (a : op X) s s' : next s = next s' -> next (snd (exec a s)) = next (snd (exec a s')).
Proof.
  intro E. destruct a; cbn [exec]; unfold Xml.deref, Xml.modify, Xml.fresh, Xml.copy_tree, Xml.push; cbn; auto.
  - destruct (hfind i (heap s)), (hfind i (heap s')); auto.
  - rewrite E. destruct (renum (next s') t); auto.
  - rewrite E. destruct (upd_ns u (fst c) (snd c) (next s')); auto.
Qed.

Lemma exec_grows {X} (a : op X) s : next s <= next (snd (exec a s)).
Proof.
  destruct a; cbn [exec]; unfold Xml.deref, Xml.modify, Xml.fresh, Xml.copy_tree, Xml.push; cbn; auto.
  - destruct (hfind i (heap s)); auto.
  - pose proof (renum_next t (next s)). destruct (renum (next s) t); simpl in *. lia.
  - pose proof (Frame.upd_ns_props u (snd c) (fst c) (next s)) as [H _].
    destruct (upd_ns u (fst c) (snd c) (next s)); simpl in *. lia.
Qed.

Lemma run_grows {A} (p : prog A) : forall s, next s <= next (snd (run p s)).
Proof.
  induction p as [r|X a k IH]; intro s; cbn [run]; auto.
  pose proof (exec_grows a s). specialize (IH (fst (exec a s)) (snd (exec a s))). lia.
Qed.

Lemma not_held_up o hp g jobs m k j : well_prepared hp jobs -> steps (start o hp g jobs) m ->
  nth_error jobs k = Some j -> reproducible o (j_call j) ->
  next (snd (perform o (j_call j) (St hp (j_from j) g))) <= j_to j ->
  (exists r, finished m k r) \/
  (exists m', step m m' /\ forall k', k' <> k -> nth_error (threads m') k' = nth_error (threads m) k').
Proof.
  intros P S Hj R En. destruct (good_reached o hp g jobs P m S) as (l & Hs & Hl & Hf).
  assert (Ht : exists th, nth_error (threads m) k = Some th).
  { destruct (nth_error (threads m) k) eqn:E; eauto. apply nth_error_None in E.
    assert (H : k < List.length jobs) by (apply nth_error_Some; congruence).
    rewrite (Forall2_length _ _ _ Hf) in H. lia. }
  destruct Ht as (th & Hth). destruct (Forall2_nth _ _ _ _ _ Hf Hth) as (j' & Hj' & L & N & W & B).
  rewrite Hj in Hj'. inversion Hj'; subst j'; clear Hj'.
  destruct th as [p n lim]. cbn [code supply limit] in *. subst lim.
  destruct p as [r|X a q]; [left; exists r, n, (j_to j); exact Hth|]. right.
  destruct (B (Blind.blind_perform o _ R)) as [_ (h & E)].
  apply nth_error_split in Hth as (b & c & Et & Lb).
  destruct m as [mh mg mt]. cbn [shared made threads] in *. subst mt.
  destruct (exec a (St mh n mg)) as [r [hp' n' g']] eqn:Ex.
  assert (Hn' : n' <= j_to j).
  { rewrite StepRun.run_perform in E. rewrite <- E in En. cbn [run] in En.
    pose proof (run_grows (q (fst (exec a (St (hp ++ own (j_from j) (j_to j) l) n h))))
                  (snd (exec a (St (hp ++ own (j_from j) (j_to j) l) n h)))) as G.
    rewrite (exec_next a (St (hp ++ own (j_from j) (j_to j) l) n h) (St mh n mg) eq_refl), Ex in G. simpl in G. lia. }
  exists (Machine hp' g' (b ++ Thread (q r) n' (j_to j) :: c)). split; [econstructor; eauto|].
  intros k' Hk. cbn [threads]. destruct (Nat.lt_trichotomy k' (List.length b)) as [C|[C|C]].
  - rewrite !nth_error_app1 by auto. reflexivity.
  - lia.
  - rewrite !nth_error_app2 by lia. destruct (k' - List.length b) eqn:Ek; [lia|]. reflexivity.
Qed.

(** Identities can be set aside for any calls. *)
Fixpoint plan (o : oracle) (hp : list tree) (g n : nat) (cs : list call) : list job :=
  match cs with
  | [] => []
  | c :: cs' =>
      let n' := next (snd (perform o c (St hp n g))) in
      Job c n n' :: plan o hp g n' cs'
  end.

Lemma perform_next o c hp g n : n <= next (snd (perform o c (St hp n g))).
Proof. rewrite <- StepRun.run_perform. apply (run_grows _ (St hp n g)). Qed.

Lemma plan_from o hp g cs : forall n j, In j (plan o hp g n cs) -> n <= j_from j /\ In (j_call j) cs /\
  next (snd (perform o (j_call j) (St hp (j_from j) g))) <= j_to j.
Proof.
  induction cs as [|c cs IH]; intros n j H; cbn [plan] in H; [destruct H|].
  destruct H as [<-|H]; [cbn [j_from j_call j_to]; split; [auto|split; [left; auto|auto]]|].
  apply IH in H as (H1 & H2 & H3). pose proof (perform_next o c hp g n).
  split; [lia|]. split; [right; auto|exact H3].
Qed.

Lemma can_prepare o hp g cs : Forall (fun c => present hp (subject c)) cs ->
  exists jobs, map j_call jobs = cs /\ well_prepared hp jobs /\
    Forall (fun j => next (snd (perform o (j_call j) (St hp (j_from j) g))) <= j_to j) jobs.
Proof.
  intro H. set (n := fold_right Nat.max 0 (map S (flat_map ids hp))).
  assert (Hn : forall i, In i (flat_map ids hp) -> i < n).
  { intros i Hi. unfold n. clear - Hi. induction (flat_map ids hp) as [|x l IH]; cbn [map fold_right In] in *; [contradiction|].
    destruct Hi as [->|Hi]; [lia|]. specialize (IH Hi). lia. }
  clearbody n. exists (plan o hp g n cs). split.
  - clear. revert n. induction cs; intro n; cbn [plan map j_call]; [reflexivity|]. rewrite IHcs. reflexivity.
  - split; [split; [|split]|].
    + apply Forall_forall. intros j Hj. apply plan_from in Hj as (_ & Hj & _). rewrite Forall_forall in H. auto.
    + apply Forall_forall. intros j Hj i Hi. apply plan_from in Hj as (Hj & _). apply Hn in Hi. lia.
    + clear. revert n. induction cs as [|c cs IH]; intro n; cbn [plan]; constructor.
      * apply Forall_forall. intros j Hj. apply plan_from in Hj as (Hj & _). left. exact Hj.
      * apply IH.
    + apply Forall_forall. intros j Hj. apply plan_from in Hj as (_ & _ & Hj). exact Hj.
Qed.

(** ** When all have finished *)

Lemma pairs_in {A} (R : A -> A -> Prop) l x y : ForallOrdPairs R l -> In x l -> In y l -> x = y \/ R x y \/ R y x.
Proof.
  induction 1 as [|a l F _ IH]; [intros []|]. rewrite Forall_forall in F.
  intros [<-|Hx] [<-|Hy]; auto.
Qed.

Lemma all_apart jobs (l : list tree) :
  ForallOrdPairs (fun a b => j_to a <= j_from b \/ j_to b <= j_from a) jobs ->
  Forall (fun t => exists j, In j jobs /\ mytree (j_from j) (j_to j) t) l ->
  (forall j, In j jobs -> NoDup (flat_map ids (own (j_from j) (j_to j) l))) ->
  NoDup (flat_map ids l).
Proof.
  intro P. induction l as [|t l IH]; intros F N; [constructor|]. inversion F as [|x y (j & Hj & Ht) F']; subst.
  cbn [flat_map]. pose proof (N j Hj) as Nj. cbn [own filter] in Nj. rewrite (mytree_root _ _ t Ht) in Nj. cbn [flat_map] in Nj.
  apply NoDup_app in Nj as (N1 & N2 & N3). apply NoDup_app. split; [exact N1|]. split.
  - apply IH; auto. intros x Hx. specialize (N x Hx). cbn [own filter] in N. destruct (mineb _ _ (tid t)); auto.
    cbn [flat_map] in N. apply NoDup_app in N. apply N.
  - intros i Hi Hl. apply in_flat_map in Hl as (t' & Ht' & Hi'). rewrite Forall_forall in F'.
    destruct (F' t' Ht') as (j' & Hj' & Q).
    assert (j' = j) as ->.
    { destruct (pairs_in _ _ j j' P Hj Hj') as [E|E]; auto. exfalso.
      specialize (Ht i Hi). specialize (Q i Hi'). unfold mine in *. lia. }
    apply (N3 i Hi). apply in_flat_map. exists t'. split; auto. apply filter_In. split; auto. apply mytree_root. exact Q.
Qed.

(** A machine that can make no further step has finished all calls that are
    reproducible and have identities enough. *)
Lemma stuck_finished o hp g jobs m : well_prepared hp jobs -> steps (start o hp g jobs) m ->
  (forall m', ~ step m m') -> forall k j, nth_error jobs k = Some j -> reproducible o (j_call j) ->
  next (snd (perform o (j_call j) (St hp (j_from j) g))) <= j_to j -> exists r, finished m k r.
Proof.
  intros P S N k j Hj R E. destruct (not_held_up o hp g jobs m k j P S Hj R E) as [H|(m' & H & _)]; auto.
  exfalso. exact (N m' H).
Qed.

Lemma below_max l i : In i l -> i < fold_right Nat.max 0 (map S l).
Proof. induction l as [|x l IH]; cbn [map fold_right In]; [tauto|]. intros [->|H]; [lia|]. specialize (IH H). lia. Qed.

Lemma all_finished_wf o hp g jobs m : well_prepared hp jobs -> NoDup (flat_map ids hp) -> steps (start o hp g jobs) m ->
  Forall (fun j => reproducible o (j_call j)) jobs ->
  (forall k, k < List.length jobs -> exists r, finished m k r) ->
  wf_state (memory_of m).
Proof.
  intros P Nh S R Fin. split; [|intros i Hi; apply below_max; exact Hi].
  cbn [memory_of heap]. destruct (good_reached o hp g jobs P m S) as (l & Hs & Hl & Hf). rewrite Hs.
  assert (Alone : forall j, In j jobs -> NoDup (flat_map ids (hp ++ own (j_from j) (j_to j) l))).
  { intros j Hj. apply In_nth_error in Hj as [k Hk].
    assert (Hlt : k < List.length jobs) by (apply nth_error_Some; rewrite Hk; discriminate).
    destruct (Fin k Hlt) as (r & n & lim & F).
    destruct (Forall2_nth _ _ _ _ _ Hf F) as (j' & Hj' & _ & _ & _ & B).
    rewrite Hk in Hj'. inversion Hj'; subst j'; clear Hj'. cbn [code supply] in B.
    rewrite Forall_forall in R.
    destruct (B (Blind.blind_perform o _ (R j (nth_error_In _ _ Hk)))) as [_ (h & E)]. cbn [run] in E.
    rewrite StepRun.run_perform in E.
    assert (W : wf_state (St hp (j_from j) g)).
    { split; cbn [heap next]; auto. destruct P as (_ & P & _). rewrite Forall_forall in P. apply P. eapply nth_error_In; eauto. }
    destruct (Sessions.keeps_perform o (j_call j) _ W) as [[W1 _] _]. rewrite <- E in W1. exact W1. }
  rewrite flat_map_app. apply NoDup_app. split; [exact Nh|]. split.
  - destruct P as (_ & _ & P). apply (all_apart jobs); auto.
    intros j Hj. specialize (Alone j Hj). rewrite flat_map_app in Alone. apply NoDup_app in Alone. apply Alone.
  - intros i Hi Hl'. apply in_flat_map in Hl' as (t & Ht & Hi'). rewrite Forall_forall in Hl.
    destruct (Hl t Ht) as (j & Hj & Q). destruct P as (_ & P & _). rewrite Forall_forall in P.
    specialize (P j Hj i Hi). destruct (Q i Hi'). lia.
Qed.
