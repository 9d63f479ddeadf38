(** * What is left to complain about in a cleaned document *)

From Coq Require Import String Ascii List Bool Arith Lia.
From Verif Require Import Str Xml Utils Base Tables Cybox Stix Spec SpecDoc SpecPass SpecStep SpecCheck SpecClean
  SpecUpdate SpecReport SpecCleaned Lib Frame Api Refine RefineBase RefineCheck RefineClean Relabel RefineUpdate Updates Reports UpdateFacts
  Samples.
Import ListNotations.
Local Open Scope string_scope.

(** ** Cleaning, node by node *)

Section Clean.
  Variables (F : nat -> hdr -> hdr) (l : list nat).
  Hypothesis (Fid : keeps_ids F).

  Definition G (t : tree) : tree := without l (tmap F t).

  Let bad (x : tree) : bool := existsb (Nat.eqb (tid x)) l.

  Lemma without_kids t : kids (without l t) = map (without l) (filter (fun k => negb (bad k)) (kids t)).
  Proof.
    rewrite without_rwm. destruct t as [h ks]. cbn [rwm kids]. induction ks as [|k ks IH]; [reflexivity|].
    cbn [flat_map filter]. unfold mrem at 1, bad at 1. destruct (existsb (Nat.eqb (tid k)) l); cbn [negb app map].
    - exact IH.
    - rewrite (without_rwm l k), IH. reflexivity.
  Qed.

  Lemma without_head t : head (without l t) = head t.
  Proof. rewrite without_rwm. destruct t; reflexivity. Qed.

  Lemma G_head t : head (G t) = F (tid t) (head t).
  Proof. unfold G. rewrite without_head, tmap_head. reflexivity. Qed.

  Lemma G_tid t : tid (G t) = tid t.
  Proof. unfold tid at 1. rewrite G_head. apply Fid. Qed.

  Lemma tmap_kids' t : kids (tmap F t) = map (tmap F) (kids t).
  Proof. destruct t; reflexivity. Qed.

  Lemma tmap_tid' t : tid (tmap F t) = tid t.
  Proof. unfold tid at 1. rewrite tmap_head. apply Fid. Qed.

  Lemma G_kids t : kids (G t) = map G (filter (fun k => negb (bad k)) (kids t)).
  Proof.
    unfold G. rewrite without_kids, tmap_kids', filter_map_comm, map_map. f_equal. apply filter_ext.
    intro k. unfold bad. rewrite tmap_tid'. reflexivity.
  Qed.

  Lemma G_visits t : forall anc b y, In (b, y) (visits (map G anc) (G t)) ->
    exists q x, In ((q ++ anc)%list, x) (visits anc t) /\ b = map G (q ++ anc)%list /\ y = G x /\
      forall z p, (x :: q)%list = (p ++ [z])%list -> z = t /\ forall w, In w p -> bad w = false.
  Proof.
    tree_induction t. intros anc b y H.
    assert (V : visits (map G anc) (G (Node h ks)) = (map G anc, G (Node h ks)) ::
                flat_map (visits (map G (Node h ks :: anc))) (map G (filter (fun k => negb (bad k)) ks))).
    { pose proof (G_kids (Node h ks)) as K. cbn [kids] in K. rewrite <- K. cbn [map].
      destruct (G (Node h ks)) as [h' ks']. apply visits_node. }
    rewrite V in H. clear V. destruct H as [H|H].
    - injection H as <- <-. exists [], (Node h ks). split; [apply visits_self|]. split; auto. split; auto.
      intros z p E. destruct p as [|w [|w' p]]; try discriminate. injection E as <-. split; auto. intros w [].
    - apply in_flat_map in H as (k' & Hk & H). apply in_map_iff in Hk as (k & <- & Hk).
      apply filter_In in Hk as [Hk Bk]. destruct (IH k Hk (Node h ks :: anc) b y H) as (q & x & Hx & Eb & Ey & Z).
      exists (q ++ [Node h ks])%list, x. rewrite <- app_assoc. cbn [app]. split; [|split; [auto|split; [auto|]]].
      + rewrite visits_node. right. apply in_flat_map. eauto.
      + intros z p E. change (x :: (q ++ [Node h ks]))%list with ((x :: q) ++ [Node h ks])%list in E.
        apply app_inj_tail in E as [E <-]. split; auto. intros w Hw.
        destruct (exists_last (l := x :: q)) as (p' & z' & E'); [discriminate|].
        destruct (Z z' p' E') as [-> Zp]. rewrite <- E, E' in Hw. apply in_app_iff in Hw as [Hw|[<-|[]]]; auto.
        apply negb_true_iff in Bk. exact Bk.
  Qed.

  (** A node of the cleaned document is a node of the document; neither it nor
      an ancestor below the root is listed. *)
  Lemma G_survives T b y : In (b, y) (visits [] (G T)) ->
    exists a x, In (a, x) (visits [] T) /\ b = map G a /\ y = G x /\
      forall w, In w (removelast (x :: a)) -> bad w = false.
  Proof.
    intro H. destruct (G_visits T [] b y H) as (q & x & Hx & Eb & Ey & Z). rewrite app_nil_r in *.
    exists q, x. split; [auto|split; [auto|split; [auto|]]]. intros w Hw.
    destruct (exists_last (l := x :: q)) as (p & z & E); [discriminate|]. rewrite E, removelast_last in Hw.
    destruct (Z z p E) as [_ Zp]. auto.
  Qed.
End Clean.

Lemma removelast_in {A} (x : A) q a : In x (removelast (x :: q :: a)).
Proof. left. reflexivity. Qed.

Lemma removelast_in2 {A} (x y : A) q a : In y (removelast (x :: y :: q :: a)).
Proof. right. left. reflexivity. Qed.

(** ** New ids change only ids *)

Section Fresh.
  Variables (f : nat -> string -> string) (g : nat) (l2 l : list nat).
  Let F := renumber f g l2.
  Let GG := G F l.

  Lemma FF_attr i h q : q <> lq "id" -> attr_get q (h_attr (F i h)) = attr_get q (h_attr h).
  Proof.
    intro N. unfold F, renumber. destruct (position i l2); auto. destruct (attr_get (lq "id") _); auto.
    cbn. rewrite attr_get_set. destruct (qn_eqb q (lq "id")) eqn:Eq; auto. apply qn_eqb_eq in Eq. congruence.
  Qed.

  Lemma FF_same i h : h_kind (F i h) = h_kind h /\ h_tag (F i h) = h_tag h /\ h_decl (F i h) = h_decl h.
  Proof. unfold F, renumber. destruct (position i l2); auto. destruct (attr_get (lq "id") _); auto. Qed.

  Lemma GG_head t : head (GG t) = F (tid t) (head t).
  Proof. apply G_head. Qed.

  Lemma GG_elem t : is_elem (GG t) = is_elem t.
  Proof. unfold is_elem. rewrite GG_head. destruct (FF_same (tid t) (head t)) as (-> & _). reflexivity. Qed.

  Lemma GG_tag t : h_tag (head (GG t)) = h_tag (head t).
  Proof. rewrite GG_head. apply (FF_same (tid t) (head t)). Qed.

  Lemma GG_named q t : named q (GG t) = named q t.
  Proof. unfold named. rewrite GG_head. destruct (FF_same (tid t) (head t)) as (-> & -> & _). reflexivity. Qed.

  Lemma GG_named_in qs t : named_in qs (GG t) = named_in qs t.
  Proof. unfold named_in. apply existsb_ext. intros q _. apply GG_named. Qed.

  Lemma GG_inside a : inside (map GG a) = inside a.
  Proof. destruct a; reflexivity. Qed.

  Lemma GG_any_inside qs a x : any_inside qs (map GG a) (GG x) = any_inside qs a x.
  Proof. unfold any_inside. rewrite GG_inside, GG_named_in. reflexivity. Qed.

  Lemma GG_child_in ps q a x : child_in ps q (map GG a) (GG x) = child_in ps q a x.
  Proof.
    unfold child_in. rewrite GG_named. f_equal. unfold child_of. destruct a as [|p a]; cbn [map]; auto.
    rewrite GG_named_in, GG_inside. reflexivity.
  Qed.

  Lemma type_not_id : TAG_XSI_TYPE <> lq "id".
  Proof. discriminate. Qed.

  Lemma GG_attr q t : q <> lq "id" -> attr_get q (h_attr (head (GG t))) = attr_get q (h_attr (head t)).
  Proof. intro N. rewrite GG_head. apply FF_attr; auto. Qed.

  Lemma GG_env a x : env_of (map GG a) (GG x) = env_of a x.
  Proof.
    unfold env_of. rewrite <- (map_cons GG), flat_map_map. apply flat_map_ext. intro y.
    rewrite GG_head. destruct (FF_same (tid y) (head y)) as (_ & _ & ->). reflexivity.
  Qed.

  Lemma GG_typed a x : typed (map GG a, GG x) = typed (a, x).
  Proof.
    unfold typed. cbn [fst snd]. rewrite GG_inside, GG_elem. unfold has_attr.
    rewrite GG_attr by apply type_not_id. reflexivity.
  Qed.

  Lemma GG_type_of a x : type_of (map GG a, GG x) = type_of (a, x).
  Proof.
    unfold type_of. cbn [fst snd]. rewrite GG_attr by apply type_not_id. rewrite GG_env. reflexivity.
  Qed.

  Lemma GG_of_type name ns a x : of_type name ns (map GG a, GG x) = of_type name ns (a, x).
  Proof. unfold of_type. rewrite GG_typed, GG_type_of. reflexivity. Qed.

  Lemma GG_type_in ns a x : type_in ns (map GG a) (GG x) = type_in ns a x.
  Proof. unfold type_in. rewrite GG_attr by apply type_not_id. rewrite GG_env. reflexivity. Qed.

  Lemma GG_kids t : kids (GG t) = map GG (filter (fun k => negb (existsb (Nat.eqb (tid k)) l)) (kids t)).
  Proof. apply G_kids. apply renumber_keeps. Qed.

  Lemma GG_survives T b y : In (b, y) (visits [] (GG T)) ->
    exists a x, In (a, x) (visits [] T) /\ b = map GG a /\ y = GG x /\
      forall w, In w (removelast (x :: a)) -> ~ In (tid w) l.
  Proof.
    intro H. destruct (G_survives F l (renumber_keeps f g l2) T b y H) as (a & x & Hx & Eb & Ey & Z).
    exists a, x. split; [auto|split; [auto|split; [auto|]]]. intros w Hw Hi. specialize (Z w Hw).
    assert (Q : existsb (Nat.eqb (tid w)) l = true) by (apply existsb_exists; exists (tid w); split; [auto|apply Nat.eqb_refl]).
    congruence.
  Qed.

  (** What a rule finds after cleaning it also found before. *)
  Definition lasting (T : tree) (r : rule) : Prop :=
    match r with
    | Elements p => forall a x, In (a, x) (visits [] T) -> p (map GG a) (GG x) = true ->
        (forall w, In w (removelast (x :: a)) -> ~ In (tid w) l) ->
        p a x = true /\ a <> []
    | Instances _ _ => True
    | Parents p => forall a x, In (a, x) (visits [] T) ->
        p (map GG a) (GG x) = true -> (forall w, In w (removelast (x :: a)) -> ~ In (tid w) l) ->
        p a x = true /\ exists q q' a', a = q :: q' :: a'
    end.

  Lemma first_err_none {A} (h : ctx -> res A) L : first_err h L = None <-> forall c, In c L -> exists v, h c = Ok v.
  Proof.
    induction L as [|c L IH]; simpl.
    - split; auto. intros _ c [].
    - destruct (h c) as [v|e] eqn:E.
      + rewrite IH. split; [intros H d [<-|Hd]; eauto|intros H d Hd; eauto].
      + split; [discriminate|]. intro H. destruct (H c (or_introl eq_refl)) as (v & Q). congruence.
  Qed.

  Lemma lasting_gone T r l0 : lasting T r -> offenders r T = Ok l0 -> incl l0 l ->
    offenders r (GG T) = Ok [].
  Proof.
    intros L H I. destruct r as [p|name ns|p]; cbn [offenders lasting] in *.
    - f_equal. destruct (selected p (GG T)) as [|[b y] rest] eqn:E; [reflexivity|]. exfalso.
      assert (Hc : In (b, y) (selected p (GG T))) by (rewrite E; left; auto). apply filter_In in Hc as [Hc P].
      destruct (GG_survives T b y Hc) as (a & x & Hx & -> & -> & Z). cbn [fst snd] in P.
      destruct (L a x Hx P Z) as [P' N]. destruct a as [|q a]; [congruence|].
      apply (Z x (removelast_in x q a)). apply I. injection H as <-. apply in_map_iff.
      exists (q :: a, x). split; auto. apply filter_In. auto.
    - destruct (first_err type_of (filter typed (visits [] T))) eqn:E; [discriminate|].
      rewrite first_err_none in E.
      assert (E' : first_err type_of (filter typed (visits [] (GG T))) = None).
      { apply first_err_none. intros [b y] Hc. apply filter_In in Hc as [Hc P].
        destruct (GG_survives T b y Hc) as (a & x & Hx & -> & -> & _). rewrite GG_typed in P. rewrite GG_type_of.
        apply E. apply filter_In. auto. }
      rewrite E'. f_equal. destruct (filter (of_type name ns) (visits [] (GG T))) as [|[b y] rest] eqn:Ef; [reflexivity|].
      exfalso. assert (Hc : In (b, y) (filter (of_type name ns) (visits [] (GG T)))) by (rewrite Ef; left; auto).
      apply filter_In in Hc as [Hc P]. destruct (GG_survives T b y Hc) as (a & x & Hx & -> & -> & Z).
      rewrite GG_of_type in P.
      assert (N : a <> []).
      { intros ->. unfold of_type, typed in P. discriminate. }
      destruct a as [|q a]; [congruence|]. apply (Z x (removelast_in x q a)). apply I. injection H as <-.
      apply in_map_iff. exists (q :: a, x). split; auto. apply filter_In. auto.
    - f_equal. destruct (selected p (GG T)) as [|[b y] rest] eqn:E; [reflexivity|]. exfalso.
      assert (Hc : In (b, y) (selected p (GG T))) by (rewrite E; left; auto). apply filter_In in Hc as [Hc P].
      destruct (GG_survives T b y Hc) as (a & x & Hx & -> & -> & Z). cbn [fst snd] in P.
      destruct (L a x Hx P Z) as [P' (q & q' & a' & ->)].
      apply (Z q (removelast_in2 x q q' a')). apply I. injection H as <-. apply in_flat_map.
      exists (q :: q' :: a', x). split; [apply filter_In; auto|]. left. reflexivity.
  Qed.

  Lemma rules_gone rules T : Forall (lasting T) rules -> forall l0, untranslatable rules T = Ok l0 -> incl l0 l ->
    untranslatable rules (GG T) = Ok [].
  Proof.
    intro H. induction H as [|r rules R H IH]; intros l0 E I; [reflexivity|]. simpl in *.
    destruct (offenders r T) as [a|e] eqn:Ea; [|discriminate]. simpl in E.
    destruct (untranslatable rules T) as [b|e] eqn:Eb; [|discriminate]. injection E as <-.
    rewrite (lasting_gone T r a R Ea) by (intros i Hi; apply I, in_app_iff; auto).
    cbn [rbind]. rewrite (IH b eq_refl) by (intros i Hi; apply I, in_app_iff; auto). reflexivity.
  Qed.

  Lemma any_inside_lasting T qs : lasting T (Elements (any_inside qs)).
  Proof.
    intros a x Hx P _. rewrite GG_any_inside in P. split; auto. intros ->. discriminate.
  Qed.

  Lemma child_in_lasting T ps q : lasting T (Elements (child_in ps q)).
  Proof.
    intros a x Hx P _. rewrite GG_child_in in P. split; auto. intros ->. discriminate.
  Qed.

  Lemma mailslot_lasting T qs q : lasting T (Elements (fun anc t =>
      any_inside qs anc t && existsb (named q) (kids t) && Nat.ltb 1 (length (kids t)))).
  Proof.
    intros a x Hx P _. apply andb_prop in P as [P P3]. apply andb_prop in P as [P1 P2]. rewrite GG_any_inside in P1.
    rewrite GG_kids in P2, P3. split; [|intros ->; discriminate]. rewrite P1. cbn [andb]. apply andb_true_intro. split.
    - apply existsb_exists in P2 as (k' & Hk & P2). apply in_map_iff in Hk as (k & <- & Hk).
      apply filter_In in Hk as [Hk _]. rewrite GG_named in P2. apply existsb_exists. eauto.
    - apply Nat.ltb_lt in P3. apply Nat.ltb_lt. rewrite map_length in P3.
      eapply Nat.lt_le_trans; [exact P3|]. clear. induction (kids x) as [|k ks IH]; simpl; auto.
      destruct (negb _); simpl; lia.
  Qed.

  Lemma cybox_lasting T : Forall (lasting T) cybox_2_0_1_rules.
  Proof.
    unfold cybox_2_0_1_rules. constructor; [apply any_inside_lasting|]. constructor; [apply any_inside_lasting|].
    constructor; [apply child_in_lasting|]. constructor; [apply mailslot_lasting|constructor].
  Qed.

  (** The elements that must not be left empty. *)
  Lemma only_holds_lasting T q ns :
    (forall a x k, In (a, x) (visits [] T) -> named q x = true -> In k (kids x) -> In (tid k) l ->
       type_in ns (x :: a) k = true) ->
    lasting T (Elements (only_holds q ns)).
  Proof.
    intros S a x Hx P _. unfold only_holds in P. apply andb_prop in P as [P1 P2]. rewrite GG_any_inside in P1.
    split; [|intros ->; discriminate]. unfold only_holds. rewrite P1. cbn [andb]. apply forallb_forall. intros k Hk.
    destruct (in_dec Nat.eq_dec (tid k) l) as [Hl|Hl].
    - rewrite (S a x k Hx); auto; [apply orb_true_r|]. unfold any_inside in P1. apply andb_prop in P1 as [_ P1].
      cbn in P1. rewrite orb_false_r in P1. exact P1.
    - rewrite forallb_forall in P2. specialize (P2 (GG k)). rewrite GG_elem, <- (map_cons GG), GG_type_in in P2.
      apply P2. rewrite GG_kids. apply in_map. apply filter_In. split; auto. apply negb_true_iff.
      destruct (existsb (Nat.eqb (tid k)) l) eqn:E; auto. apply existsb_exists in E as (i & Hi & E).
      apply Nat.eqb_eq in E. subst i. contradiction.
  Qed.

  (** ** Ids *)

  Lemma GG_id t : id_of (GG t) = match position (tid t) l2, id_of t with
                                 | Some k, Some old => Some (f (g + k) old)
                                 | _, _ => id_of t
                                 end.
  Proof.
    unfold id_of. rewrite GG_head. unfold F, renumber. destruct (position (tid t) l2) as [k|]; auto.
    destruct (attr_get (lq "id") (h_attr (head t))) as [old|] eqn:E; [|exact E].
    cbn. rewrite attr_get_set. reflexivity.
  Qed.

  Lemma GG_tid t : tid (GG t) = tid t.
  Proof. apply G_tid. apply renumber_keeps. Qed.
End Fresh.

Lemma position_inj l : forall i j k, position i l = Some k -> position j l = Some k -> i = j.
Proof.
  induction l as [|x l IH]; simpl; intros i j k Hi Hj; [discriminate|].
  destruct (Nat.eqb_spec i x), (Nat.eqb_spec j x); subst; auto.
  - destruct (position j l); simpl in Hj; congruence.
  - destruct (position i l); simpl in Hi; congruence.
  - destruct (position i l) as [a|] eqn:Ea; [|discriminate]. destruct (position j l) as [b|] eqn:Eb; [|discriminate].
    simpl in *. apply (IH i j a); congruence.
Qed.

Lemma position_in i l : In i l -> exists k, position i l = Some k.
Proof.
  induction l as [|j l IH]; intro H; [destruct H|]. simpl. destruct (Nat.eqb_spec i j) as [E|E]; [eauto|].
  destruct H as [H|H]; [congruence|]. destruct (IH H) as (k & ->). simpl. eauto.
Qed.

Lemma position_lt l : forall i k, position i l = Some k -> k < length l.
Proof.
  induction l as [|j l IH]; intros i k H; simpl in *; [discriminate|].
  destruct (Nat.eqb i j); [injection H as <-; lia|]. destruct (position i l) as [k0|] eqn:E; [|discriminate].
  injection H as <-. specialize (IH i k0 E). lia.
Qed.

(** ** No id is shared any more *)

Lemma ids_distinct (f : nat -> string -> string) g nss l T d :
  NoDup (ids T) ->
  fresh_for f g (g + length (flat_map snd d)) T ->
  (forall i, In i (flat_map snd d) <-> exists name, bears nss name T i /\ exists j, j <> i /\ bears nss name T j) ->
  forall name i j, bears nss name (cleaned f g (l, d) T) i -> bears nss name (cleaned f g (l, d) T) j -> i = j.
Proof.
  intros N [Inj Fr] L name i j Hi Hj. unfold cleaned, renumbered in Hi, Hj. cbn [fst snd] in Hi, Hj.
  rewrite fresh_ids_tmap in Hi, Hj. set (l2 := flat_map snd d) in *.
  change (without l (tmap (renumber f g l2) T)) with (G (renumber f g l2) l T) in Hi, Hj.
  assert (Q : forall i, bears nss name (G (renumber f g l2) l T) i ->
    exists a x, In (a, x) (visits [] T) /\ tid x = i /\
      ((exists k old, position i l2 = Some k /\ id_of x = Some old /\ name = f (g + k) old) \/
       (bears nss name T i /\ position i l2 = None) )).
  { clear i j Hi Hj. intros i (b & y & ns & Hy & Nb & Ey & Ti & Id & Nm & Ns).
    destruct (GG_survives f g l2 l T b y Hy) as (a & x & Hx & -> & -> & _).
    rewrite GG_tid in Ti. rewrite GG_id, Ti in Id. exists a, x. split; auto. split; auto.
    assert (Bx : id_of x = Some name -> bears nss name T i).
    { intro E. exists a, x, ns. split; auto. split; [destruct a; [destruct (Nb eq_refl)|discriminate]|].
      split; [rewrite GG_elem in Ey; exact Ey|]. split; auto. split; auto. split; auto. rewrite GG_tag in Nm. exact Nm. }
    destruct (position i l2) as [k|] eqn:Ek; [|right; auto]. 
    destruct (id_of x) as [old|] eqn:Eo; [|discriminate]. left. exists k, old. injection Id as <-. auto. }
  destruct (Q i Hi) as (a & x & Hx & Tx & Cx). destruct (Q j Hj) as (b & y & Hy & Ty & Cy).
  destruct Cx as [(k & old & Pk & Ox & Ex)|[Bx Px]]; destruct Cy as [(k' & old' & Pk' & Oy & Ey)|[By Py]].
  - rewrite Ex in Ey. pose proof (position_lt _ _ _ Pk). pose proof (position_lt _ _ _ Pk').
    apply Inj in Ey; [|lia|lia]. assert (k = k') by lia. subst k'. eapply position_inj; eauto.
  - exfalso. destruct By as (b' & y' & ns & Hy' & _ & _ & _ & Id & _). pose proof (position_lt _ _ _ Pk).
    apply (Fr (g + k) old b' y'); [lia|auto|congruence].
  - exfalso. destruct Bx as (b' & y' & ns & Hy' & _ & _ & _ & Id & _). pose proof (position_lt _ _ _ Pk').
    apply (Fr (g + k') old' b' y'); [lia|auto|congruence].
  - destruct (Nat.eq_dec i j) as [E|E]; auto. exfalso.
    assert (Hl : In i l2) by (apply L; exists name; split; auto; exists j; split; auto).
    apply position_in in Hl as (k & Hk). congruence.
Qed.


Lemma ids_of_visits T : ids T = map (fun c => tid (snd c)) (visits [] T).
Proof. symmetry. apply visits_ids. Qed.

Lemma without_NoDup l T : NoDup (ids T) -> NoDup (ids (without l T)).
Proof.
  intro N.
  assert (E : ids (without l T) = map (fun c => tid (snd c)) (survivors l T)).
  { rewrite ids_of_visits. pose proof (f_equal (map (fun p => h_id (hd (Hdr 0 KElem (lq "") [] [] None false None) p)))
      (without_survivors l T)) as Q. rewrite !map_map in Q. exact Q. }
  rewrite E. unfold survivors. apply (NoDup_map_filter (fun c : ctx => tid (snd c))). rewrite visits_ids. exact N.
Qed.

Lemma cleaned_NoDup f g d T : NoDup (ids T) -> NoDup (ids (cleaned f g d T)).
Proof.
  intro N. apply without_NoDup. rewrite fresh_ids_tmap. rewrite tmap_ids by apply renumber_keeps. exact N.
Qed.

(** ** The content of the cleaned document *)

Lemma renumbered_content C n : exists r, C = relabel r (numbered n (erase C)).
Proof.
  exists (fun i => nth (i - n) (ids C) 0). apply erase_ids_eq.
  - rewrite relabel_erase, numbered_erase, erase_idem. reflexivity.
  - rewrite relabel_ids. unfold numbered. rewrite renum_ids, size_erase_eq.
    assert (L : length (ids C) = size C) by (symmetry; apply size_ids). rewrite <- L.
    rewrite (seq_shift_map n), map_map. rewrite (map_ext _ (fun i => nth i (ids C) 0)) by (intro i; f_equal; lia).
    generalize (ids C). intro L0. induction L0 as [|x L0 IH]; [reflexivity|]. cbn [length seq map nth]. f_equal.
    rewrite <- seq_shift, map_map. exact IH.
Qed.

Lemma relab_nil r (x : res (list nat)) : relab (map r) r x = Ok [] -> x = Ok [].
Proof. destruct x as [[|]|e]; simpl; congruence. Qed.

Lemma untranslatable_content rules C n : Forall rule_ins rules -> untranslatable rules C = Ok [] ->
  untranslatable rules (numbered n (erase C)) = Ok [].
Proof.
  intros R H. destruct (renumbered_content C n) as (r & E). rewrite E in H.
  rewrite untranslatable_relabel in H by auto. eapply relab_nil; eauto.
Qed.

Lemma no_groups (nss : list string) C : NoDup (ids C) ->
  (forall name i j, bears nss name C i -> bears nss name C j -> i = j) ->
  forall name, length (bearers nss name C) <= 1.
Proof.
  intros N U name. pose proof (bearers_NoDup nss name C N) as D.
  pose proof (fun i => bearers_bears nss name C i) as B.
  destruct (bearers nss name C) as [|i [|j b]]; simpl; try lia. exfalso. inversion D as [|? ? H1 H2]; subst. apply H1.
  rewrite (U name i j); [left; auto| |]; apply B; simpl; auto.
Qed.

Lemma cybox_none_shared C : NoDup (ids C) ->
  (forall name i j, bears cybox_namespaces name C i -> bears cybox_namespaces name C j -> i = j) ->
  cybox_duplicates C = [].
Proof.
  intros N U. destruct (cybox_duplicates C) as [|[i b] l] eqn:E; [reflexivity|]. exfalso.
  assert (H : In (i, b) (cybox_duplicates C)) by (rewrite E; left; auto). apply cybox_duplicates_spec in H as [-> H].
  pose proof (no_groups _ _ N U i). lia.
Qed.

Lemma stix_none_shared C : NoDup (ids C) ->
  (forall name i j, bears (stix_namespaces ++ cybox_namespaces) name C i ->
     bears (stix_namespaces ++ cybox_namespaces) name C j -> i = j) ->
  stix_duplicates C = [].
Proof.
  intros N U. destruct (stix_duplicates C) as [|[i b] l] eqn:E; [reflexivity|]. exfalso.
  assert (H : In (i, b) (stix_duplicates C)) by (rewrite E; left; auto). apply stix_duplicates_spec in H as [-> H].
  pose proof (no_groups _ _ N U i). lia.
Qed.

Lemma relab_dict_nil r d : relab_dict r d = [] -> d = [].
Proof. destruct d; simpl; congruence. Qed.

Lemma cybox_shared_content C n : cybox_duplicates C = [] -> cybox_duplicates (numbered n (erase C)) = [].
Proof.
  intro H. destruct (renumbered_content C n) as (r & E). rewrite E, cybox_duplicates_relabel in H.
  eapply relab_dict_nil; eauto.
Qed.

Lemma stix_shared_content C n : stix_duplicates C = [] -> stix_duplicates (numbered n (erase C)) = [].
Proof.
  intro H. destruct (renumbered_content C n) as (r & E). rewrite E, stix_duplicates_relabel in H.
  eapply relab_dict_nil; eauto.
Qed.

(** ** Dates *)

Section Dates.
  Variables (f : nat -> string -> string) (g : nat) (l2 l : list nat).
  Let GG := G (renumber f g l2) l.

  Lemma GG_untouched t : (forall a y, In (a, y) (visits [] t) -> id_of y = None) ->
    (forall a y, In (a, y) (visits [] t) -> a <> [] -> ~ In (tid y) l) -> GG t = t.
  Proof.
    tree_induction t. intros Hid Hl.
    pose proof (GG_kids f g l2 l (Node h ks)) as K. pose proof (GG_head f g l2 l (Node h ks)) as Hh.
    fold GG in K, Hh. destruct (GG (Node h ks)) as [h' ks'] eqn:E. cbn [kids head] in K, Hh. f_equal.
    - subst h'. unfold renumber. destruct (position _ l2); auto.
      pose proof (Hid [] (Node h ks) (visits_self _ _)) as Q. unfold id_of in Q. cbn [head] in Q. rewrite Q. reflexivity.
    - subst ks'. clear E Hh.
      assert (V : forall k, In k ks -> forall a y, In (a, y) (visits [Node h ks] k) -> In (a, y) (visits [] (Node h ks))).
      { intros k Hk a y Hy. rewrite visits_node. right. apply in_flat_map. eauto. }
      assert (A : forall k, In k ks -> GG k = k /\ ~ In (tid k) l).
      { intros k Hk. split.
        - apply IH; auto.
          + intros a y Hy. apply (Hid (a ++ [Node h ks])%list). apply (V k Hk). rewrite visits_anc. apply in_map_iff.
            exists (a, y); auto.
          + intros a y Hy _. apply (Hl (a ++ [Node h ks])%list); [|destruct a; discriminate]. apply (V k Hk).
            rewrite visits_anc. apply in_map_iff. exists (a, y); auto.
        - apply (Hl [Node h ks]); [|discriminate]. apply (V k Hk). apply visits_self. }
      clear -A. induction ks as [|k ks IH]; [reflexivity|]. destruct (A k (or_introl eq_refl)) as [E N].
      assert (B : existsb (Nat.eqb (tid k)) l = false).
      { destruct (existsb (Nat.eqb (tid k)) l) eqn:B; auto. apply existsb_exists in B as (i & Hi & B).
        apply Nat.eqb_eq in B. subst i. contradiction. }
      cbn [filter]. rewrite B. cbn [negb map]. rewrite E. f_equal. apply IH. intros k' Hk'. apply A. right; auto.
  Qed.

  Lemma id_of_erase t : id_of (erase t) = id_of t.
  Proof. destruct t; reflexivity. Qed.

  Lemma is_elem_erase t : is_elem (erase t) = is_elem t.
  Proof. destruct t; reflexivity. Qed.

  Lemma erase_relabel t : erase t = relabel (fun _ => 0) t.
  Proof.
    tree_induction t. cbn [erase relabel]. f_equal. apply map_ext_in; intros k Hk; apply IH; auto.
  Qed.

  Lemma simple_untouched o T a x : simple_dates o -> NoDup (ids T) -> (forall i, In i l -> at_element T i) ->
    In (a, x) (visits [] T) -> o_datetime o (erase x) = true -> GG x = x.
  Proof.
    intros S N El Hx D. destruct (S _ D) as [I K].
    assert (V : forall b y, In (b, y) (visits [] x) -> exists b', In (b', erase y) (visits [] (erase x)) /\ (b <> [] -> b' <> [])).
    { intros b y Hy. rewrite (erase_relabel x), relabel_visits_root. exists (map (relabel (fun _ => 0)) b). split.
      - apply in_map_iff. exists (b, y). split; auto. unfold rctx. cbn [fst snd]. rewrite erase_relabel. reflexivity.
      - destruct b; [congruence|discriminate]. }
    apply GG_untouched.
    - intros b y Hy. destruct b as [|q b].
      + assert (y = x).
        { destruct x as [h ks]. rewrite visits_node in Hy. destruct Hy as [Hy|Hy]; [congruence|].
          apply in_flat_map in Hy as (k & _ & Hy). rewrite visits_anc in Hy. apply in_map_iff in Hy as ([c z] & Ez & _).
          cbn [fst snd] in Ez. injection Ez as Ez _. destruct c; discriminate. }
        subst y. rewrite <- id_of_erase. exact I.
      + destruct (V _ _ Hy) as (b' & Hb & Nb). rewrite <- id_of_erase. apply (K b' _ Hb). apply Nb. discriminate.
    - intros b y Hy Nb Hl. destruct (V _ _ Hy) as (b' & Hb & Nb'). destruct (K b' _ Hb (Nb' Nb)) as [Ne _].
      rewrite is_elem_erase in Ne. destruct (El _ Hl) as (c & z & Hz & Ez & Elz).
      assert (Hy' : In ((b ++ a)%list, y) (visits [] T)).
      { eapply visits_trans; [exact Hx|]. rewrite visits_anc. apply in_map_iff. exists (b, y). auto. }
      destruct (visits_unique T [] _ _ _ _ N Hz Hy' Ez) as [_ ->]. congruence.
  Qed.

  Lemma renumber_text i h : h_text (renumber f g l2 i h) = h_text h.
  Proof. unfold renumber. destruct (position i l2); auto. destruct (attr_get _ _); auto. Qed.

  Lemma dates_lasting o T ps q : simple_dates o -> NoDup (ids T) -> (forall i, In i l -> at_element T i) ->
    lasting f g l2 l T (Parents (fun anc t => child_in ps q anc t && negb (date_time o t))).
  Proof.
    intros S N El a x Hx P _. apply andb_prop in P as [P1 P2]. fold GG in P1, P2.
    rewrite (GG_child_in f g l2 l) in P1. split.
    - rewrite P1. cbn [andb]. apply negb_true_iff in P2. apply negb_true_iff.
      destruct (date_time o x) eqn:D; auto. exfalso. unfold date_time in D.
      destruct (given (h_text (head x))) as [w|] eqn:Gt; [|discriminate].
      rewrite (simple_untouched o T a x S N El Hx D) in P2. unfold date_time in P2. rewrite Gt, D in P2. discriminate.
    - unfold child_in, child_of in P1. destruct a as [|p [|p' a]]; try discriminate; [|eauto].
      cbn [inside] in P1. rewrite andb_false_r in P1. discriminate.
  Qed.

  Lemma stix_1_0_lasting T :
    (forall a x k, In (a, x) (visits [] T) -> named (ttp "Malware") x = true -> In k (kids x) -> In (tid k) l ->
       type_in MAEC (x :: a) k = true) ->
    (forall a x k, In (a, x) (visits [] T) -> named (ttp "Attack_Patterns") x = true -> In k (kids x) -> In (tid k) l ->
       type_in CAPEC_2_5 (x :: a) k = true) ->
    Forall (lasting f g l2 l T) stix_1_0_rules.
  Proof.
    intros A B. unfold stix_1_0_rules. constructor; [exact I|]. constructor; [exact I|].
    constructor; [apply only_holds_lasting; auto|]. constructor; [apply only_holds_lasting; auto|constructor].
  Qed.

  Lemma stix_1_0_1_lasting o T :  simple_dates o -> NoDup (ids T) -> (forall i, In i l -> at_element T i) ->
    (forall a x k, In (a, x) (visits [] T) -> named (ttp "Malware") x = true -> In k (kids x) -> In (tid k) l ->
       type_in MAEC (x :: a) k = true) ->
    (forall a x k, In (a, x) (visits [] T) -> named (ttp "Attack_Patterns") x = true -> In k (kids x) -> In (tid k) l ->
       type_in CAPEC_2_6 (x :: a) k = true) ->
    Forall (lasting f g l2 l T) (stix_1_0_1_rules o).
  Proof.
    intros S N El A B. unfold stix_1_0_1_rules. apply Forall_app. split; [|apply cybox_lasting].
    constructor; [exact I|]. constructor; [exact I|]. constructor; [apply dates_lasting; auto|].
    constructor; [apply only_holds_lasting; auto|]. constructor; [apply only_holds_lasting; auto|constructor].
  Qed.
End Dates.

(** ** Through the interface *)

Lemma numbered_content n t : numbered n t = numbered n (erase t).
Proof. rewrite (numbered_shift n t), (numbered_shift n (erase t)), erase_idem. reflexivity. Qed.

Lemma nothing_left_rules rules C : Forall rule_ins rules -> untranslatable rules C = Ok [] ->
  nothing_untranslatable_left rules (erase C).
Proof.
  intros R H r i Hr Ho. pose proof (untranslatable_content rules C 0 R H) as Q.
  destruct (proj2 (untranslatable_spec rules _ [] Q i)); eauto.
Qed.

Lemma bears_relabel nss name r t i : bears nss name t i -> bears nss name (relabel r t) (r i).
Proof.
  intros (a & x & ns & Hx & Na & El & Ti & Id & Nm & Ns).
  exists (map (relabel r) a), (relabel r x), ns. split; [rewrite relabel_visits_root; apply in_map_iff; exists (a, x); auto|].
  split; [destruct a; [congruence|discriminate]|]. split; [rewrite is_elem_relabel; auto|].
  split; [rewrite relabel_tid, Ti; auto|]. split; [rewrite id_of_relabel; auto|]. split; auto.
  rewrite relabel_head. destruct (head x); auto.
Qed.

Lemma no_shared_content nss C : NoDup (ids C) ->
  (forall name i j, bears nss name C i -> bears nss name C j -> i = j) -> no_id_shared nss (erase C).
Proof.
  intros N U name i j Hi Hj. destruct (renumbered_content C 0) as (r & E).
  assert (Eij : r i = r j).
  { apply (U name); rewrite E; apply bears_relabel; auto. }
  assert (Bi : In i (ids (numbered 0 (erase C)))).
  { destruct Hi as (a & x & ns & Hx & _ & _ & <- & _). eapply visits_tid_in; eauto. }
  assert (Bj : In j (ids (numbered 0 (erase C)))).
  { destruct Hj as (a & x & ns & Hx & _ & _ & <- & _). eapply visits_tid_in; eauto. }
  rewrite E, relabel_ids in N. eapply NoDup_map_inj; eauto.
Qed.

Lemma fresh_numbered f g g' n t : fresh_for f g g' t -> fresh_for f g g' (numbered n t).
Proof.
  intros [A B]. split; auto. intros k a anc x Hk Hx. destruct (renumbered_content t n) as (r & E).
  rewrite <- numbered_content in E. intro H.
  apply (B k a (map (relabel r) anc) (relabel r x) Hk); [|rewrite id_of_relabel; auto].
  rewrite E, relabel_visits_root. apply in_map_iff. exists (anc, x). auto.
Qed.

Lemma cleaned_G f g l d T : cleaned f g (l, d) T = G (renumber f g (flat_map snd d)) l T.
Proof. unfold cleaned, renumbered. cbn [fst snd]. rewrite fresh_ids_tmap. reflexivity. Qed.

Lemma document_denotes s i e : document s i e -> exists t, denotes s (DElem i) t /\ erase t = e.
Proof.
  intros (T & HT & Ti & E). exists T. split; auto. exists []. exists T. split; auto. split; auto.
  destruct T. apply visits_self.
Qed.

Lemma idle_again (o : oracle) (up : updater) D i e s :
  (forall opts d s t, wf_state s -> denotes s d t ->
     clean_performs (clean o up d opts) s (or_default o opts) (numbered (next s) t) (D (numbered (next s) t))) ->
  wf_state s -> document s i e -> (forall n, D (numbered n e) = Ok ([], [])) ->
  clean_again_idle o up i e s.
Proof.
  intros P W Dc H opts. destruct (document_denotes s i e Dc) as (t & Dt & Et).
  specialize (P opts (DElem i) s t W Dt). rewrite (numbered_content _ t), Et, H in P.
  destruct P as (r & s' & E & W' & Dd & Fr & R & _). exists r, s'. split; auto. cbn in Fr. inversion Fr. split; auto.
  split; auto. rewrite cleaned_nothing, numbered_erase in Dd. rewrite <- Et in Dd at 1. rewrite erase_idem, Et in Dd. exact Dd.
Qed.

Lemma cybox_nothing_left o opts up d s t r s' :
  dict_get "2.0.1" (CYBOX_UPDATERS o) = Some up -> wf_state s -> denotes s d t ->
  clean o up d opts s = (Ok r, s') -> fresh_for (new_id_func (or_default o opts)) (gen s) (gen s') t ->
  exists e, document s' (r_document r) e /\ nothing_untranslatable_left cybox_2_0_1_rules e /\
    no_id_shared cybox_namespaces e /\ clean_again_idle o up (r_document r) e s'.
Proof.
  intros H W Dn E Fr. set (T := numbered (next s) t) in *. set (f := new_id_func (or_default o opts)) in *.
  pose proof (cybox_clean_does o "2.0.1" up opts _ d s t H eq_refl W Dn) as P. cbv beta in P. fold T in P.
  unfold clean_performs in P. destruct (untranslatable cybox_2_0_1_rules T) as [l|x] eqn:El; cbn [rbind] in P;
    [|destruct P as (s1 & E1); rewrite E in E1; discriminate].
  destruct P as (r' & s1 & E1 & W1 & D1 & _ & _ & G1). rewrite E in E1. injection E1 as <- <-. fold f in D1.
  assert (N : NoDup (ids T)) by apply numbered_NoDup.
  set (C := cleaned f (gen s) (l, cybox_duplicates T) T) in *.
  assert (NC : NoDup (ids C)) by (apply cleaned_NoDup; auto).
  rewrite G1 in Fr. unfold renumbered in Fr. cbn [snd] in Fr. apply (fresh_numbered _ _ _ (next s)) in Fr. fold T in Fr.
  assert (U : forall name i j, bears cybox_namespaces name C i -> bears cybox_namespaces name C j -> i = j).
  { apply ids_distinct; auto. apply groups_listed; auto. intros name b. apply cybox_duplicates_spec. }
  assert (R : untranslatable cybox_2_0_1_rules C = Ok []).
  { unfold C. rewrite cleaned_G. eapply rules_gone; [apply cybox_lasting|exact El|apply incl_refl]. }
  exists (erase C). split; auto. split; [apply nothing_left_rules; auto; apply cybox_2_0_1_rules_ins|].
  split; [apply no_shared_content; auto|].
  apply (idle_again o up _ (r_document r) (erase C) s' (fun op d0 s0 t0 W0 D0 => cybox_clean_does o "2.0.1" up op _ d0 s0 t0 H eq_refl W0 D0)); auto.
  intro n. cbv beta. rewrite (untranslatable_content _ C n); auto; [|apply cybox_2_0_1_rules_ins]. cbn [rbind].
  rewrite cybox_shared_content; auto. apply cybox_none_shared; auto.
Qed.

Lemma stix_no_id_shared o opts up d s t r s' :
  dict_get "1.0.1" (STIX_UPDATERS o) = Some up -> wf_state s -> denotes s d t ->
  clean o up d opts s = (Ok r, s') -> fresh_for (new_id_func (or_default o opts)) (gen s) (gen s') t ->
  exists e, document s' (r_document r) e /\ no_id_shared (stix_namespaces ++ cybox_namespaces) e.
Proof.
  intros H W Dn E Fr. set (T := numbered (next s) t) in *. set (f := new_id_func (or_default o opts)) in *.
  pose proof (stix_clean_does o "1.0.1" up opts _ d s t H eq_refl W Dn) as P. cbv beta in P. fold T in P.
  unfold clean_performs in P. destruct (untranslatable (stix_1_0_1_rules o) T) as [l|x] eqn:El; cbn [rbind] in P;
    [|destruct P as (s1 & E1); rewrite E in E1; discriminate].
  destruct P as (r' & s1 & E1 & W1 & D1 & _ & _ & G1). rewrite E in E1. injection E1 as <- <-. fold f in D1.
  assert (N : NoDup (ids T)) by apply numbered_NoDup.
  set (C := cleaned f (gen s) (l, stix_duplicates T) T) in *.
  assert (NC : NoDup (ids C)) by (apply cleaned_NoDup; auto).
  rewrite G1 in Fr. unfold renumbered in Fr. cbn [snd] in Fr. apply (fresh_numbered _ _ _ (next s)) in Fr. fold T in Fr.
  exists (erase C). split; auto. apply no_shared_content; auto.
  apply ids_distinct; auto. apply groups_listed; auto. intros name b. apply stix_duplicates_spec.
Qed.

Lemma takes_only_listed rules q ns T l : untranslatable rules T = Ok l -> takes_only rules q ns T ->
  forall a x k, In (a, x) (visits [] T) -> named q x = true -> In k (kids x) -> In (tid k) l ->
    type_in ns (x :: a) k = true.
Proof.
  intros E S a x k Hx Nx Hk Hl. apply (untranslatable_spec rules T l E) in Hl as (r & Hr & Ho). eapply S; eauto.
Qed.

Lemma stix_1_0_nothing_left o opts up d s t r s' :
  dict_get "1.0" (STIX_UPDATERS o) = Some up -> wf_state s -> denotes s d t ->
  clean o up d opts s = (Ok r, s') ->
  let T := numbered (next s) t in
  takes_only stix_1_0_rules (ttp "Malware") MAEC T ->
  takes_only stix_1_0_rules (ttp "Attack_Patterns") CAPEC_2_5 T ->
  exists e, document s' (r_document r) e /\ nothing_untranslatable_left stix_1_0_rules e /\
    clean_again_idle o up (r_document r) e s'.
Proof.
  intros H W Dn E T S1 S2. set (f := new_id_func (or_default o opts)) in *.
  pose proof (stix_clean_does o "1.0" up opts _ d s t H eq_refl W Dn) as P. cbv beta in P. fold T in P.
  unfold clean_performs in P. destruct (untranslatable stix_1_0_rules T) as [l|x] eqn:El; cbn [rbind] in P;
    [|destruct P as (s1 & E1); rewrite E in E1; discriminate].
  destruct P as (r' & s1 & E1 & W1 & D1 & _). rewrite E in E1. injection E1 as <- <-. fold f in D1.
  set (C := cleaned f (gen s) (l, []) T) in *.
  assert (R : untranslatable stix_1_0_rules C = Ok []).
  { unfold C. rewrite cleaned_G. eapply rules_gone; [apply stix_1_0_lasting|exact El|apply incl_refl];
      eapply takes_only_listed; eauto. }
  exists (erase C). split; auto. split; [apply nothing_left_rules; auto; apply stix_1_0_rules_ins|].
  apply (idle_again o up _ (r_document r) (erase C) s' (fun op d0 s0 t0 W0 D0 => stix_clean_does o "1.0" up op _ d0 s0 t0 H eq_refl W0 D0)); auto.
  intro n. cbv beta. rewrite (untranslatable_content _ C n); auto. apply stix_1_0_rules_ins.
Qed.

Lemma stix_1_0_1_nothing_left o opts up d s t r s' :
  dict_get "1.0.1" (STIX_UPDATERS o) = Some up -> wf_state s -> denotes s d t ->
  clean o up d opts s = (Ok r, s') -> fresh_for (new_id_func (or_default o opts)) (gen s) (gen s') t -> simple_dates o ->
  let T := numbered (next s) t in
  takes_only (stix_1_0_1_rules o) (ttp "Malware") MAEC T ->
  takes_only (stix_1_0_1_rules o) (ttp "Attack_Patterns") CAPEC_2_6 T ->
  exists e, document s' (r_document r) e /\ nothing_untranslatable_left (stix_1_0_1_rules o) e /\
    clean_again_idle o up (r_document r) e s'.
Proof.
  intros H W Dn E Fr Sd T S1 S2. set (f := new_id_func (or_default o opts)) in *.
  pose proof (stix_clean_does o "1.0.1" up opts _ d s t H eq_refl W Dn) as P. cbv beta in P. fold T in P.
  unfold clean_performs in P. destruct (untranslatable (stix_1_0_1_rules o) T) as [l|x] eqn:El; cbn [rbind] in P;
    [|destruct P as (s1 & E1); rewrite E in E1; discriminate].
  destruct P as (r' & s1 & E1 & W1 & D1 & _ & _ & G1). rewrite E in E1. injection E1 as <- <-. fold f in D1.
  assert (N : NoDup (ids T)) by apply numbered_NoDup.
  set (C := cleaned f (gen s) (l, stix_duplicates T) T) in *.
  assert (NC : NoDup (ids C)) by (apply cleaned_NoDup; auto).
  rewrite G1 in Fr. unfold renumbered in Fr. cbn [snd] in Fr. apply (fresh_numbered _ _ _ (next s)) in Fr. fold T in Fr.
  assert (R : untranslatable (stix_1_0_1_rules o) C = Ok []).
  { unfold C. rewrite cleaned_G. eapply rules_gone; [apply stix_1_0_1_lasting|exact El|apply incl_refl]; auto;
      try (eapply takes_only_listed; eauto; fail).
    apply (untranslatable_elements _ T (stix_1_0_1_rules_elem o) l El). }
  exists (erase C). split; auto. split; [apply nothing_left_rules; auto; apply stix_1_0_1_rules_ins|].
  apply (idle_again o up _ (r_document r) (erase C) s' (fun op d0 s0 t0 W0 D0 => stix_clean_does o "1.0.1" up op _ d0 s0 t0 H eq_refl W0 D0)); auto.
  intro n. cbv beta. rewrite (untranslatable_content _ C n); auto; [|apply stix_1_0_1_rules_ins]. cbn [rbind].
  rewrite stix_shared_content; auto. apply stix_none_shared; auto.
  apply ids_distinct; auto. apply groups_listed; auto. intros name b. apply stix_duplicates_spec.
Qed.

(** ** Fresh ids *)

Lemma append_length (a b : string) : String.length (a ++ b) = String.length a + String.length b.
Proof. induction a; simpl; auto. Qed.

Lemma append_inj_tail a : forall b u v, a ++ u = b ++ v -> String.length u = String.length v -> u = v.
Proof.
  induction a as [|c a IH]; intros [|c' b] u v E L; simpl in E.
  - exact E.
  - apply (f_equal String.length) in E. simpl in E. rewrite append_length in E. lia.
  - apply (f_equal String.length) in E. simpl in E. rewrite append_length in E. lia.
  - injection E as _ E. eauto.
Qed.

Lemma default_ids_fresh o n g g' t :
  (forall k k', g <= k < g' -> g <= k' < g' -> o_uuid o k = o_uuid o k' -> k = k') ->
  (forall k, String.length (o_uuid o k) = n) ->
  (forall anc x a u, In (anc, x) (visits [] t) -> id_of x <> Some (a ++ "-cleaned-" ++ u)) ->
  fresh_for (new_id_func (default_options o)) g g' t.
Proof.
  intros U L N. split.
  - intros k k' a b Hk Hk' E. apply U; auto. change (new_id_func (default_options o)) with (create_new_id (o_uuid o)) in E.
    unfold create_new_id in E. eapply append_inj_tail with (a := a ++ "-cleaned-") (b := b ++ "-cleaned-"); [|rewrite !L; auto].
    assert (A : forall x y z : string, (x ++ y) ++ z = x ++ y ++ z) by (intros x y z; induction x; simpl; congruence).
    rewrite !A. exact E.
  - intros k a anc x _ Hx. apply (N anc x a (o_uuid o k) Hx).
Qed.

(** ** Cases *)

Fixpoint tally (k : nat) : string := match k with O => "" | S k' => String "n" (tally k') end.

(** An id function that counts its calls, and an oracle that accepts date-times
    without attributes and children that start with "2". *)
Definition counting : options := Options true (fun k _ => "new-" ++ tally k) true true.
Definition o1 : oracle :=
  Oracle (fun t => match h_attr (head t), kids t, h_text (head t) with
                   | [], [], Some s => starts_with "2" s
                   | _, _, _ => false
                   end)
         (fun _ => None) tally.

Lemma tally_inj k : forall k', tally k = tally k' -> k = k'.
Proof. induction k as [|k IH]; intros [|k'] E; simpl in E; try discriminate; auto. injection E as E. f_equal. auto. Qed.

Lemma o1_simple : simple_dates o1.
Proof.
  intros [[i k q d a tx c tl] ks] H. cbn in H. destruct a; [|discriminate]. destruct ks; [|discriminate].
  split; [reflexivity|]. intros anc y Hy N. cbn in Hy. destruct Hy as [Hy|[]]. injection Hy as <- _. congruence.
Qed.

Fixpoint all_nodes (p : tree -> bool) (t : tree) : bool :=
  match t with Node _ ks => p t && forallb (all_nodes p) ks end.

Lemma all_nodes_in p t : all_nodes p t = true -> forall anc a x, In (a, x) (visits anc t) -> p x = true.
Proof.
  tree_induction t. intros H anc a x Hx. cbn [all_nodes] in H. apply andb_prop in H as [H1 H2].
  rewrite visits_node in Hx. destruct Hx as [Hx|Hx]; [injection Hx as _ <-; auto|].
  apply in_flat_map in Hx as (k & Hk & Hx). rewrite forallb_forall in H2. eapply IH; eauto.
Qed.

Definition no_new (x : tree) : bool :=
  match id_of x with Some s => negb (starts_with "new-" s) | None => true end.

Lemma counting_fresh g g' t : all_nodes no_new t = true -> fresh_for (new_id_func counting) g g' t.
Proof.
  intro H. split.
  - cbn. intros k k' _ _ _ _ E. injection E as E. apply tally_inj; auto.
  - intros k a anc x _ Hx E. pose proof (all_nodes_in _ _ H _ _ _ Hx) as Q. unfold no_new in Q. rewrite E in Q. discriminate.
Qed.

Definition takes_only_b (l : list nat) (q : qname) (ns : string) (T : tree) : bool :=
  forallb (fun c => negb (named q (snd c)) ||
    forallb (fun k => negb (existsb (Nat.eqb (tid k)) l) || type_in ns (snd c :: fst c) k) (kids (snd c))) (visits [] T).

Lemma takes_only_check rules q ns T l : untranslatable rules T = Ok l -> takes_only_b l q ns T = true ->
  takes_only rules q ns T.
Proof.
  intros E H anc x k r Hx Nx Hk Hr Ho. unfold takes_only_b in H. rewrite forallb_forall in H.
  specialize (H (anc, x) Hx). cbn [fst snd] in H. rewrite Nx in H. cbn [negb orb] in H. rewrite forallb_forall in H.
  specialize (H k Hk). assert (Hl : In (tid k) l) by (apply (untranslatable_spec rules T l E); eauto).
  assert (B : existsb (Nat.eqb (tid k)) l = true) by (apply existsb_exists; exists (tid k); split; [auto|apply Nat.eqb_refl]).
  rewrite B in H. exact H.
Qed.

(** A Malware element whose only child is taken by the rule about attack
    patterns: it is left empty, and so untranslatable itself. *)
Definition pkg_hollow : tree :=
  package "1.0.1"
    [el (qn TTP_NS "Malware") [] [] None
       [el (qn TTP_NS "Malware_Instance") [(Some "capec", CAPEC_2_6)] [(TAG_XSI_TYPE, "capec:CAPEC2.6InstanceType")]
          (Some "m") []]].

Lemma stix_left_refuted : ~ (forall o opts up d s t r s',
  dict_get "1.0.1" (STIX_UPDATERS o) = Some up -> wf_state s -> denotes s d t ->
  clean o up d opts s = (Ok r, s') -> fresh_for (new_id_func (or_default o opts)) (gen s) (gen s') t -> simple_dates o ->
  exists e, document s' (r_document r) e /\ nothing_untranslatable_left (stix_1_0_1_rules o) e).
Proof.
  intro H.
  destruct (clean o1 (STIX_1_0_1_Updater o1) (DFile (Some pkg_hollow)) (Some counting) (memory [])) as [[r|x] s'] eqn:E;
    [|vm_compute in E; discriminate].
  destruct (H o1 (Some counting) (STIX_1_0_1_Updater o1) (DFile (Some pkg_hollow)) (memory []) pkg_hollow r s') as (e & De & N).
  - reflexivity.
  - apply memory_wf.
  - reflexivity.
  - exact E.
  - apply counting_fresh. reflexivity.
  - apply o1_simple.
  - destruct De as (T & HT & Ti & <-). vm_compute in E. injection E as <- <-. cbn [heap In r_document] in HT, Ti.
    destruct HT as [HT|[HT|[HT|[]]]]; subst T; try (vm_compute in Ti; discriminate).
    apply (N (Elements (only_holds (ttp "Malware") MAEC)) 1); [right; right; right; left; reflexivity|].
    eexists _, _. split; [right; left; reflexivity|]. split; reflexivity.
Qed.

Definition obs_2_0_1_bad : tree :=
  observables [(lq "cybox_major_version", "2"); (lq "cybox_minor_version", "0"); (lq "cybox_update_version", "1")]
    [el (qn CYBOX_NS "Object") [] [(lq "id", "ex:1")] None
       [el (http_name "X_Forwarded_Proto") [] [] (Some "p") []];
     el (qn CYBOX_NS "Object") [] [(lq "id", "ex:1")] None
       [el (object_name "WinMailslot" "Handle") [] [] None
          [el (object_name "WinHandle" "Handle") [] [] (Some "1") [];
           el (object_name "WinHandle" "Handle") [] [] (Some "2") []]]].

Lemma nothing_left_case :
  (exists r s', clean o1 (Cybox_2_0_1_Updater o1) (DFile (Some obs_2_0_1_bad)) (Some counting) (memory []) = (Ok r, s') /\
     length (removed_nodes r) = 2 /\ map fst (remapped_ids r) = ["ex:1"] /\
     fresh_for (new_id_func (or_default o1 (Some counting))) 0 (gen s') obs_2_0_1_bad) /\
  (exists r s', clean o1 (STIX_1_0_1_Updater o1) (DFile (Some pkg_1_0_1_bad)) (Some counting) (memory []) = (Ok r, s') /\
     length (removed_nodes r) = 2 /\ map fst (remapped_ids r) = ["ex:t1"] /\
     fresh_for (new_id_func (or_default o1 (Some counting))) 0 (gen s') pkg_1_0_1_bad /\ simple_dates o1 /\
     takes_only (stix_1_0_1_rules o1) (ttp "Malware") MAEC (numbered 0 pkg_1_0_1_bad) /\
     takes_only (stix_1_0_1_rules o1) (ttp "Attack_Patterns") CAPEC_2_6 (numbered 0 pkg_1_0_1_bad)) /\
  takes_only stix_1_0_rules (ttp "Malware") MAEC (numbered 0 pkg_1_0_1_bad) /\
  takes_only stix_1_0_rules (ttp "Attack_Patterns") CAPEC_2_5 (numbered 0 pkg_1_0_1_bad).
Proof.
  split; [|split; [|split]].
  - eexists _, _. split; [vm_compute; reflexivity|]. split; [reflexivity|]. split; [reflexivity|].
    apply counting_fresh. reflexivity.
  - eexists _, _. split; [vm_compute; reflexivity|]. split; [reflexivity|]. split; [reflexivity|].
    split; [apply counting_fresh; reflexivity|]. split; [apply o1_simple|].
    split; eapply takes_only_check; vm_compute; reflexivity.
  - eapply takes_only_check; vm_compute; reflexivity.
  - eapply takes_only_check; vm_compute; reflexivity.
Qed.

(** Two uuids of the same length. *)
Definition o2 : oracle := Oracle (o_datetime o1) (fun _ => None) (fun k => if Nat.eqb k 0 then "a" else "b").

Lemma default_ids_case :
  (exists r s', clean o2 (STIX_1_0_1_Updater o2) (DFile (Some pkg_1_0_1_bad)) None (memory []) = (Ok r, s') /\
     gen s' = 2 /\ map fst (remapped_ids r) = ["ex:t1"]) /\
  (forall k k', 0 <= k < 2 -> 0 <= k' < 2 -> o_uuid o2 k = o_uuid o2 k' -> k = k') /\
  (forall k, String.length (o_uuid o2 k) = 1) /\
  (forall anc x a u, In (anc, x) (visits [] pkg_1_0_1_bad) -> id_of x <> Some (a ++ "-cleaned-" ++ u)).
Proof.
  split; [eexists _, _; split; [vm_compute; reflexivity|split; reflexivity]|]. split; [|split].
  - intros [|[|k]] [|[|k']] Hk Hk' E; try lia; discriminate.
  - intros [|k]; reflexivity.
  - assert (Q : forall anc x, In (anc, x) (visits [] pkg_1_0_1_bad) ->
      match id_of x with Some s => String.length s <= 6 | None => True end).
    { intros anc x H. vm_compute in H.
      repeat (destruct H as [H|H]; [injection H as <- <-; vm_compute; auto; lia|]). destruct H. }
    intros anc x a u Hx E. specialize (Q anc x Hx). rewrite E in Q. rewrite !append_length in Q. simpl in Q. lia.
Qed.
