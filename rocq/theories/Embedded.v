(** * Proofs: CybOX content inside a STIX package is updated like a CybOX document. *)

From Coq Require Import String Ascii List Bool Arith Lia.
From Verif Require Import Str Xml XPath Utils Base Tables Cybox Stix Ramrod Spec SpecDoc SpecPass SpecStep
  SpecCheck SpecClean SpecUpdate SpecTrace SpecField Lib Api Frame Refine RefineBase RefineTrans RefineLists RefineSteps RefineCheck
  RefineClean Relabel RefineUpdate Updates Reports UpdateFacts Trace Fields Carried Follow Vocab Marks Worked Natural Cleaned Refs SpecEmbed.
Import ListNotations.
Local Open Scope string_scope.

(** ** Namespaces in scope *)

Definition unseen (seen : list (option string)) (p : option string * string) : bool := negb (existsb (ostr_eqb (fst p)) seen).

Lemma existsb_app_or {A} (f : A -> bool) a b : existsb f (a ++ b) = existsb f a || existsb f b.
Proof. induction a as [|x a IH]; simpl; auto. rewrite IH. apply orb_assoc. Qed.

Lemma items_seen e : forall seen more, env_items (seen ++ more) e = filter (unseen more) (env_items seen e).
Proof.
  induction e as [|[p u] e IH]; intros seen more; simpl; auto.
  rewrite existsb_app_or. destruct (existsb (ostr_eqb p) seen) eqn:E; simpl; auto.
  unfold unseen at 1. cbn [fst]. destruct (existsb (ostr_eqb p) more) eqn:F; simpl.
  - rewrite <- IH.
    assert (X : forall e s s', (forall q, existsb (ostr_eqb q) s = existsb (ostr_eqb q) s') -> env_items s e = env_items s' e).
    { clear. induction e as [|[p u] e IH]; intros s s' H; simpl; auto. rewrite H. destruct (existsb (ostr_eqb p) s'); auto.
      f_equal. apply IH. intro q. simpl. rewrite H. reflexivity. }
    apply X. intro q. simpl. destruct (ostr_eqb q p) eqn:Q; auto. apply ostr_eqb_eq in Q. subst q.
    rewrite existsb_app_or, F. apply orb_true_r.
  - f_equal. rewrite <- IH. reflexivity.
Qed.

Lemma items_app d : forall seen e0 e1, env_items [] e0 = env_items [] e1 -> env_items seen (d ++ e0) = env_items seen (d ++ e1).
Proof.
  induction d as [|[p u] d IH]; intros seen e0 e1 H; simpl.
  - rewrite <- (app_nil_l seen), !items_seen, H. reflexivity.
  - destruct (existsb _ seen); [|f_equal]; apply IH; exact H.
Qed.

Lemma get_items e : forall seen p, existsb (ostr_eqb p) seen = false -> env_get p (env_items seen e) = env_get p e.
Proof.
  induction e as [|[q u] e IH]; intros seen p H; simpl; auto.
  destruct (existsb (ostr_eqb q) seen) eqn:E.
  - rewrite IH by exact H. destruct (ostr_eqb p q) eqn:Q; auto. apply ostr_eqb_eq in Q. congruence.
  - simpl. destruct (ostr_eqb p q) eqn:Q; auto. apply IH. simpl. rewrite Q. exact H.
Qed.

Lemma items_get e0 e1 p : env_items [] e0 = env_items [] e1 -> env_get p e0 = env_get p e1.
Proof. intro H. rewrite <- (get_items e0 [] p), <- (get_items e1 [] p) by reflexivity. rewrite H. reflexivity. Qed.

(** ** Surroundings that a pass cannot tell apart *)

Definition declared_by (anc : list tree) : list (option string * string) := flat_map (fun a => h_decl (head a)) anc.

Definition plain_top (anc : list tree) : Prop :=
  inside anc = true /\ properties_above (cybox "Object") (cybox "Properties") anc = 0 /\
  match anc with p :: _ => named (cybox "Object") p = false | [] => True end.

Definition twins (A B : list tree) : Prop :=
  env_items [] (declared_by A) = env_items [] (declared_by B) /\ plain_top A /\ plain_top B.

Lemma declared_app (b A : list tree) : declared_by (b ++ A)%list = (declared_by b ++ declared_by A)%list.
Proof. apply flat_map_app. Qed.

Lemma twins_items (b : list tree) A B : twins A B -> env_items [] (declared_by (b ++ A)%list) = env_items [] (declared_by (b ++ B)%list).
Proof. intros (H & _). rewrite !declared_app. apply items_app. exact H. Qed.

Lemma inside_app (b A : list tree) : inside A = true -> inside (b ++ A)%list = true.
Proof. destruct b; auto. Qed.

Lemma twins_inside (b : list tree) A B : twins A B -> inside (b ++ A)%list = true /\ inside (b ++ B)%list = true.
Proof. intros (_ & (H & _) & H' & _). split; apply inside_app; assumption. Qed.

Lemma properties_plain (b A : list tree) : plain_top A -> properties_above (cybox "Object") (cybox "Properties") (b ++ A)%list
  = match b with [] => 0 | _ => properties_above (cybox "Object") (cybox "Properties") b end.
Proof.
  intros (_ & P & H). induction b as [|p b IH]; [exact P|]. destruct b as [|g b].
  - cbn [app]. destruct A as [|a A]; [reflexivity|]. cbn [properties_above] in *. rewrite H, andb_false_r. exact P.
  - cbn [app properties_above] in *. f_equal. exact IH.
Qed.

Lemma twins_properties (b : list tree) A B : twins A B ->
  properties_above (cybox "Object") (cybox "Properties") (b ++ A)%list = properties_above (cybox "Object") (cybox "Properties") (b ++ B)%list.
Proof. intros (_ & H & H'). rewrite !properties_plain by assumption. reflexivity. Qed.

Lemma twins_type (b : list tree) y A B : twins A B -> type_of ((b ++ A)%list, y) = type_of ((b ++ B)%list, y).
Proof.
  intro H. unfold type_of. cbn [fst snd]. destruct (attr_get _ _); auto. destruct (split_char _ _) as [|a [|n [|]]]; auto.
  assert (E : env_get (Some a) (env_of (b ++ A)%list y) = env_get (Some a) (env_of (b ++ B)%list y)).
  { apply items_get. exact (twins_items (y :: b) A B H). }
  rewrite E. reflexivity.
Qed.

Lemma twins_typed (b : list tree) y A B : twins A B -> typed ((b ++ A)%list, y) = typed ((b ++ B)%list, y).
Proof. intro H. destruct (twins_inside b A B H) as [E E']. unfold typed. cbn [fst snd]. rewrite E, E'. reflexivity. Qed.

Lemma twins_outdated v (b : list tree) y A B : twins A B -> outdated v ((b ++ A)%list, y) = outdated v ((b ++ B)%list, y).
Proof. intro H. unfold outdated. rewrite (twins_typed b y A B H), (twins_type b y A B H). reflexivity. Qed.

Lemma twins_upgraded v (b : list tree) y A B : twins A B -> upgraded v ((b ++ A)%list, y) = upgraded v ((b ++ B)%list, y).
Proof. intro H. unfold upgraded. rewrite (twins_type b y A B H). reflexivity. Qed.

Lemma twins_rebuilt drop m (b : list tree) y A B : twins A B -> rebuilt drop m (b ++ A)%list y = rebuilt drop m (b ++ B)%list y.
Proof.
  intro H. unfold rebuilt. do 2 f_equal. f_equal. exact (twins_items (y :: b) A B H).
Qed.

Lemma twins_any_inside qs (b : list tree) y A B : twins A B -> any_inside qs (b ++ A)%list y = any_inside qs (b ++ B)%list y.
Proof. intro H. destruct (twins_inside b A B H) as [E E']. unfold any_inside. rewrite E, E'. reflexivity. Qed.

(** Headers that are twins for the purpose. *)
Definition same_sort (h h' : hdr) : Prop :=
  h_id h' = h_id h /\ h_kind h' = h_kind h /\ h_tag h' = h_tag h /\ h_decl h' = h_decl h.

Definition sorts (A B : list tree) : Prop := Forall2 (fun a b => same_sort (head a) (head b)) A B.

Lemma same_sort_refl h : same_sort h h.
Proof. repeat split. Qed.

Lemma sorts_refl A : sorts A A.
Proof. induction A; constructor; auto. apply same_sort_refl. Qed.

Lemma sorts_declared A B : sorts A B -> declared_by B = declared_by A.
Proof. unfold declared_by. induction 1 as [|a b A B (_ & _ & _ & H) _ IH]; simpl; auto. rewrite H, IH. reflexivity. Qed.

Lemma same_sort_named q a b : same_sort (head a) (head b) -> named q b = named q a.
Proof. intros (_ & K & T & _). unfold named. rewrite K, T. reflexivity. Qed.

Lemma sorts_properties A B : sorts A B ->
  properties_above (cybox "Object") (cybox "Properties") B = properties_above (cybox "Object") (cybox "Properties") A.
Proof.
  induction 1 as [|a b A B H HA IH]; auto. destruct HA as [|a' b' A' B' H' HA']; auto.
  cbn [properties_above] in *. rewrite IH, (same_sort_named _ a b H), (same_sort_named _ a' b' H'). reflexivity.
Qed.

Lemma sorts_top A B : sorts A B -> plain_top A -> plain_top B.
Proof.
  intros S (I & P & H). split; [|split].
  - destruct S; auto.
  - rewrite (sorts_properties _ _ S). exact P.
  - destruct S as [|a b A B Hh S]; auto. rewrite (same_sort_named _ a b Hh). exact H.
Qed.

Lemma sorts_twins A B A' B' : sorts A A' -> sorts B B' -> twins A B -> twins A' B'.
Proof.
  intros SA SB (H & TA & TB). split; [|split; eapply sorts_top; eauto].
  rewrite (sorts_declared _ _ SA), (sorts_declared _ _ SB). exact H.
Qed.

(** ** What is around the content *)

Notation good y := (may_contain (head y)).

Lemma good_sort y y' : same_sort (head y) (head y') -> good y -> good y'.
Proof.
  intros (_ & K & T & _) (A & B & C). unfold may_contain, in_family in *. rewrite K, T. auto.
Qed.

Lemma sorts_good A B : sorts A B -> Forall (fun y => good y) A -> Forall (fun y => good y) B.
Proof. induction 1 as [|a b A B H S IH]; intro F; auto. inversion F; subst. constructor; auto. exact (good_sort _ _ H H2). Qed.

Definition of_cybox (q : qname) : bool :=
  match q_ns q with Some ns => String.prefix "http://cybox.mitre.org/" ns | None => false end.

Lemma named_tag' q y : named q y = true -> h_kind (head y) = KElem /\ h_tag (head y) = q.
Proof. intro H. apply named_tag in H. tauto. Qed.

Lemma good_not q y : of_cybox q = true -> good y -> named q y = false.
Proof.
  intros O (K & F & _). destruct (named q y) eqn:N; auto. exfalso. apply named_tag' in N as [_ T]. apply F. split; auto.
  unfold of_cybox in O. rewrite <- T in O. destruct (q_ns (h_tag (head y))) as [ns|]; [|discriminate].
  exists ns, "http://cybox.mitre.org/". repeat split; auto. left. reflexivity.
Qed.

Lemma good_not_in qs y : forallb of_cybox qs = true -> good y -> named_in qs y = false.
Proof.
  intros O G. unfold named_in. induction qs as [|q qs IH]; auto. cbn [existsb forallb] in *. apply andb_true_iff in O as [O1 O2].
  rewrite (good_not q y O1 G). auto.
Qed.

Lemma good_stays y : good y -> moves driver_ns y = false.
Proof.
  intros (K & F & _). unfold moves. destruct (q_ns (h_tag (head y))) as [ns|] eqn:E; auto. cbn [map fst mem_str driver_ns existsb].
  rewrite orb_false_r. destruct (String.eqb_spec ns "http://cybox.mitre.org/objects#WinDriverObject-2") as [->|]; auto.
  exfalso. apply F. split; auto. exists "http://cybox.mitre.org/objects#WinDriverObject-2", "http://cybox.mitre.org/".
  repeat split; auto. left. reflexivity.
Qed.

Lemma good_top A : A <> [] -> Forall (fun y => good y) A -> plain_top A.
Proof.
  intros N F. split; [destruct A; auto; contradiction|]. split.
  - clear N. induction F as [|a A G F IH]; auto. destruct A as [|b A]; auto. cbn [properties_above] in *.
    rewrite IH, (good_not (cybox "Properties") a eq_refl G). reflexivity.
  - destruct F as [|a A G F]; auto. exact (good_not (cybox "Object") a eq_refl G).
Qed.

(** ** Where a node is after a pass *)

Lemma forall_anc (P : tree -> Prop) k anc a x : In (a, x) (visits anc k) -> Forall P a -> Forall P anc.
Proof. intros I F. destruct (visits_anc_app k anc a x I) as (b & ->). apply Forall_app in F. tauto. Qed.

Lemma edit_at f : (forall b y, good y -> same_sort (head y) (f b y)) ->
  forall t anc anc' a x, sorts anc anc' -> In (a, x) (visits anc t) -> Forall (fun y => good y) a ->
  exists a', In (a', edit f a x) (visits anc' (edit f anc t)) /\ sorts a a'.
Proof.
  intros Hf t. tree_induction t. intros anc anc' a x S I F. destruct I as [E|I].
  - injection E as <- <-. exists anc'. split; auto. apply visits_self.
  - apply in_flat_map in I as (k & Hk & I). assert (G := forall_anc _ _ _ _ _ I F). inversion G as [|? ? G1 G2]; subst.
    assert (S1 : sorts (Node h ks :: anc) (edit f anc (Node h ks) :: anc')).
    { constructor; auto. cbn [edit head]. exact (Hf anc (Node h ks) G1). }
    destruct (IH k Hk _ _ _ _ S1 I F) as (a' & I' & S'). exists a'. split; auto.
    cbn [edit visits]. right. rewrite flat_map_map. apply in_flat_map. exists k. auto.
Qed.

Lemma subst_at F : (forall b y, good y -> F b y = None) ->
  forall t anc anc' a x, sorts anc anc' -> In (a, x) (visits anc t) -> Forall (fun y => good y) (x :: a) ->
  exists a', In (a', subst_nodes F a x) (visits anc' (subst_nodes F anc t)) /\ sorts a a'.
Proof.
  intros HF t. tree_induction t. intros anc anc' a x S I G. destruct I as [E|I].
  - injection E as <- <-. exists anc'. split; auto. apply visits_self.
  - apply in_flat_map in I as (k & Hk & I). inversion G as [|? ? Gx Ga]; subst.
    assert (S1 : sorts (Node h ks :: anc) (subst_nodes F anc (Node h ks) :: anc')).
    { constructor; auto. cbn [subst_nodes head]. apply same_sort_refl. }
    destruct (IH k Hk _ _ _ _ S1 I G) as (a' & I' & S'). exists a'. split; auto.
    assert (Gk : good k).
    { pose proof (visits_top _ _ _ _ I) as T. rewrite Forall_forall in G. exact (G k T). }
    cbn [subst_nodes visits]. right. apply in_flat_map. exists (subst_nodes F (Node h ks :: anc) k). split; auto.
    apply in_flat_map. exists k. split; auto. rewrite (HF _ k Gk). left. reflexivity.
Qed.

Lemma ns_at : forall t anc anc' a x, sorts anc anc' -> In (a, x) (visits anc t) -> Forall (fun y => good y) (x :: a) ->
  exists a', In (a', ns_pass [] driver_ns a x) (visits anc' (ns_pass [] driver_ns anc t)) /\ sorts a a'.
Proof.
  intro t. tree_induction t. intros anc anc' a x S I G. destruct I as [E|I].
  - injection E as <- <-. exists anc'. split; auto. apply visits_self.
  - apply in_flat_map in I as (k & Hk & I). inversion G as [|? ? Gx Ga]; subst.
    assert (Gt := forall_anc _ _ _ _ _ I Ga). inversion Gt as [|? ? G1 G2]; subst.
    assert (S1 : sorts (Node h ks :: anc) (ns_pass [] driver_ns anc (Node h ks) :: anc')).
    { constructor; auto. cbn [ns_pass head]. rewrite (good_stays _ G1). apply same_sort_refl. }
    destruct (IH k Hk _ _ _ _ S1 I G) as (a' & I' & S'). exists a'. split; auto.
    assert (Gk : is_elem k = true).
    { pose proof (visits_top _ _ _ _ I) as T. rewrite Forall_forall in G. destruct (G k T) as (K & _). unfold is_elem. rewrite K. reflexivity. }
    cbn [ns_pass visits]. right. rewrite flat_map_map. apply in_flat_map. exists k. rewrite Gk. split; auto.
Qed.

(** ** The content, seen from two places *)

Lemma edit_twice f g (A B : list tree) k : forall b, (forall c y, In y (nodes k) -> f (c ++ A)%list y = g (c ++ B)%list y) ->
  edit f (b ++ A)%list k = edit g (b ++ B)%list k.
Proof.
  tree_induction k. intros b H. cbn [edit]. f_equal.
  - apply H. apply nodes_self.
  - apply map_ext_in. intros k Hk. apply (IH k Hk (Node h ks :: b)). intros c y Hy. apply H. apply (nodes_kid (Node h ks) k); auto.
Qed.

Lemma subst_twice F G (A B : list tree) k : forall b, (forall c y, In y (nodes k) -> F (c ++ A)%list y = G (c ++ B)%list y) ->
  subst_nodes F (b ++ A)%list k = subst_nodes G (b ++ B)%list k.
Proof.
  tree_induction k. intros b H. cbn [subst_nodes]. f_equal. apply flat_map_ext_in. intros k Hk.
  assert (Hs : forall c y, In y (nodes k) -> F (c ++ A)%list y = G (c ++ B)%list y).
  { intros c y Hy. apply H. apply (nodes_kid (Node h ks) k); auto. }
  assert (E : F (Node h ks :: b ++ A)%list k = G (Node h ks :: b ++ B)%list k) by exact (Hs (Node h ks :: b) k (nodes_self k)).
  rewrite E. destruct (G _ k); auto. f_equal. exact (IH k Hk (Node h ks :: b) Hs).
Qed.

Lemma ns_twice m (A B : list tree) k : twins A B -> forall b, ns_pass [] m (b ++ A)%list k = ns_pass [] m (b ++ B)%list k.
Proof.
  intro Tw. tree_induction k. intro b. cbn [ns_pass]. f_equal.
  - destruct (moves m _); auto. apply twins_rebuilt. exact Tw.
  - apply map_ext_in. intros k Hk. destruct (is_elem k); auto. exact (IH k Hk (Node h ks :: b)).
Qed.

(** The nodes below [x] in [T] are those below the root of [D]. *)
Lemma moved_context k : forall (B : list tree) c y, In (c, y) (visits B k) -> exists b, c = (b ++ B)%list /\ forall A, In ((b ++ A)%list, y) (visits A k).
Proof.
  intros B c y H. rewrite visits_anc in H. apply in_map_iff in H as ([b z] & E & H). cbn [fst snd] in E. injection E as <- <-.
  exists b. split; auto. intro A. rewrite visits_anc. apply in_map_iff. exists (b, z). auto.
Qed.

Lemma below_both T (A : list tree) x D c y : In (A, x) (visits [] T) -> kids x = kids D -> In (c, y) (visits [] D) -> inside c = true ->
  exists b, c = (b ++ [D])%list /\ In ((b ++ x :: A)%list, y) (visits [] T).
Proof.
  intros I K H N. destruct D as [h ks]. destruct H as [E|H]; [injection E as <- <-; discriminate|].
  apply in_flat_map in H as (k & Hk & H). destruct (moved_context k _ _ _ H) as (b & -> & M). exists b. split; auto.
  apply (visits_trans T [] A x); auto. destruct x as [hx kx]. cbn [kids] in K. subst kx. right. apply in_flat_map. exists k. auto.
Qed.

(** ** Content in a package and in a document of its own *)

Definition hosts (T D : tree) (i : nat) : Prop :=
  exists A x, In (A, x) (visits [] T) /\ tid x = i /\ kids x = kids D /\ twins (x :: A) [D] /\ Forall (fun y => good y) (x :: A).

Definition parallel (P : tree -> Prop) (f g : tree -> res tree) : Prop :=
  forall T D i T', P D -> f T = Ok T' -> hosts T D i -> exists D', g D = Ok D' /\ hosts T' D' i.

Definition content (Q : hdr -> Prop) (D : tree) : Prop := forall k y, In k (kids D) -> In y (nodes k) -> Q (head y).

Lemma parallel_edit (P : tree -> Prop) f g :
  (forall b y, good y -> same_sort (head y) (f b y)) -> (forall D, P D -> same_sort (head D) (g [] D)) ->
  (forall (A B b : list tree) D k y, P D -> twins A B -> In k (kids D) -> In y (nodes k) -> f (b ++ A)%list y = g (b ++ B)%list y) ->
  parallel P (always (edit f [])) (always (edit g [])).
Proof.
  intros Hf Hg Hs T D i T' PD E (A & x & I & Ti & K & Tw & G). injection E as <-. exists (edit g [] D). split; auto.
  assert (Ga : Forall (fun y => good y) A) by (inversion G; auto). assert (Gx : good x) by (inversion G; auto).
  destruct (edit_at f Hf T [] [] A x (Forall2_nil _) I Ga) as (A' & I' & S).
  assert (Sx : same_sort (head x) (head (edit f A x))) by (destruct x; apply (Hf A _ Gx)).
  assert (SA : sorts (x :: A) (edit f A x :: A')) by (constructor; auto).
  assert (SD : sorts [D] [edit g [] D]) by (repeat constructor; destruct D; apply (Hg _ PD)).
  exists A', (edit f A x). split; auto. split; [rewrite <- Ti; apply Sx|]. split; [|split].
  - destruct x as [hx kx], D as [hd kd]. cbn [kids edit] in *. subst kx. apply map_ext_in. intros k Hk.
    apply (edit_twice f g (Node hx kd :: A) [Node hd kd] k []). intros c y Hy. exact (Hs _ _ _ _ k y PD Tw Hk Hy).
  - exact (sorts_twins _ _ _ _ SA SD Tw).
  - exact (sorts_good _ _ SA G).
Qed.

Lemma parallel_subst (P : tree -> Prop) F Gd :
  (forall b y, good y -> F b y = None) ->
  (forall (A B b : list tree) D k y, P D -> twins A B -> In k (kids D) -> In y (nodes k) -> F (b ++ A)%list y = Gd (b ++ B)%list y) ->
  parallel P (always (subst_nodes F [])) (always (subst_nodes Gd [])).
Proof.
  intros HF Hs T D i T' PD E (A & x & I & Ti & K & Tw & G). injection E as <-. exists (subst_nodes Gd [] D). split; auto.
  destruct (subst_at F HF T [] [] A x (Forall2_nil _) I G) as (A' & I' & S).
  assert (Sx : same_sort (head x) (head (subst_nodes F A x))) by (destruct x; apply same_sort_refl).
  assert (SA : sorts (x :: A) (subst_nodes F A x :: A')) by (constructor; auto).
  assert (SD : sorts [D] [subst_nodes Gd [] D]) by (repeat constructor; destruct D; apply same_sort_refl).
  exists A', (subst_nodes F A x). split; auto. split; [rewrite <- Ti; apply Sx|]. split; [|split].
  - destruct x as [hx kx], D as [hd kd]. cbn [kids subst_nodes] in *. subst kx. apply flat_map_ext_in. intros k Hk.
    assert (Hc : forall c y, In y (nodes k) -> F (c ++ Node hx kd :: A)%list y = Gd (c ++ [Node hd kd])%list y).
    { intros c y Hy. exact (Hs _ _ _ _ k y PD Tw Hk Hy). }
    assert (E : F (Node hx kd :: A) k = Gd [Node hd kd] k) by exact (Hc [] k (nodes_self k)).
    rewrite E. destruct (Gd _ k); auto. f_equal. exact (subst_twice F Gd (Node hx kd :: A) [Node hd kd] k [] Hc).
  - exact (sorts_twins _ _ _ _ SA SD Tw).
  - exact (sorts_good _ _ SA G).
Qed.

Lemma stuck_at m : forall t anc a x, In (a, x) (visits anc t) -> Forall (fun y => good y) (x :: a) -> stuck m t = false -> stuck m x = false.
Proof.
  intro t. tree_induction t. intros anc a x I G S. destruct I as [E|I]; [injection E as <- <-; exact S|].
  apply in_flat_map in I as (k & Hk & I). apply (IH k Hk (Node h ks :: anc) a x I G).
  cbn [stuck] in S. apply orb_false_iff in S as [_ S].
  assert (Ek : is_elem k = true).
  { destruct k as [hk kk]. assert (Gk : good (Node hk kk)).
    { rewrite Forall_forall in G. apply (G (Node hk kk)). destruct I as [I|I]; [injection I as <- <-; left; reflexivity|]. right.
      apply in_flat_map in I as (z & Hz & I). rewrite visits_anc in I. apply in_map_iff in I as ([c y] & X & _). injection X as <- <-.
      apply in_or_app. right. left. reflexivity. }
    destruct Gk as [K _]. unfold is_elem. rewrite K. reflexivity. }
  destruct (stuck m k) eqn:X; [|reflexivity]. exfalso.
  assert (Y : existsb (fun k => is_elem k && stuck m k) ks = true) by (apply existsb_exists; exists k; rewrite Ek, X; auto). congruence.
Qed.

Lemma parallel_ns (P : tree -> Prop) : (forall D, P D -> moves driver_ns D = false) ->
  parallel P (namespaces_pass [] driver_ns) (namespaces_pass [] driver_ns).
Proof.
  intros HD T D i T' PD E (A & x & I & Ti & K & Tw & G). exists (ns_pass [] driver_ns [] D). split.
  { assert (ST : stuck driver_ns T = false) by (unfold namespaces_pass in E; destruct (stuck driver_ns T); [discriminate|reflexivity]).
    pose proof (stuck_at driver_ns T [] A x I G ST) as Sx.
    unfold namespaces_pass. destruct x as [hx kx], D as [hd kd]. cbn [kids] in K. subst kx. specialize (HD _ PD). cbn [stuck] in *. rewrite HD.
    apply orb_false_iff in Sx as [_ Sx]. rewrite Sx. reflexivity. }
  apply namespaces_ok in E as ->.
  destruct (ns_at T [] [] A x (Forall2_nil _) I G) as (A' & I' & S).
  assert (Gx : good x) by (inversion G; auto).
  assert (Sx : same_sort (head x) (head (ns_pass [] driver_ns A x))).
  { destruct x. cbn [ns_pass head]. rewrite (good_stays _ Gx). apply same_sort_refl. }
  assert (SA : sorts (x :: A) (ns_pass [] driver_ns A x :: A')) by (constructor; auto).
  assert (SD : sorts [D] [ns_pass [] driver_ns [] D]).
  { repeat constructor; specialize (HD D PD); destruct D; cbn [ns_pass head]; rewrite HD; reflexivity. }
  exists A', (ns_pass [] driver_ns A x). split; auto. split; [rewrite <- Ti; apply Sx|]. split; [|split].
  - destruct x as [hx kx], D as [hd kd]. cbn [kids ns_pass] in *. subst kx. apply map_ext_in. intros k Hk.
    destruct (is_elem k); auto. exact (ns_twice driver_ns (Node hx kd :: A) [Node hd kd] k Tw []).
  - exact (sorts_twins _ _ _ _ SA SD Tw).
  - exact (sorts_good _ _ SA G).
Qed.

Lemma parallel_cons (P P' : tree -> Prop) f g l m : parallel P f g -> (forall D D', P D -> g D = Ok D' -> P' D') ->
  parallel P' (in_order l) (in_order m) -> parallel P (in_order (f :: l)) (in_order (g :: m)).
Proof.
  intros H1 H2 H3 T D i T' PD E Ho. apply in_order_ok in E as (T1 & E1 & E2). destruct (H1 T D i T1 PD E1 Ho) as (D1 & F1 & Ho1).
  destruct (H3 T1 D1 i T' (H2 _ _ PD F1) E2 Ho1) as (D' & F2 & Ho2). exists D'. split; auto.
  unfold in_order. rewrite passes_cons, F1. exact F2.
Qed.

Lemma parallel_nil P : parallel P (in_order []) (in_order []).
Proof. intros T D i T' _ E Ho. rewrite in_order_nil in *. injection E as <-. eauto. Qed.

Lemma parallel_when P b f g : parallel P f g -> parallel P (when b f) (when b g).
Proof. intros H T D i T' PD E Ho. destruct b; [exact (H T D i T' PD E Ho)|]. injection E as <-. exists D. auto. Qed.

Lemma parallel_passes {X} (P : tree -> Prop) (f : X -> tree -> res tree) l : (forall x, parallel P (f x) (f x)) ->
  (forall x D D', P D -> f x D = Ok D' -> P D') -> parallel P (passes f l) (passes f l).
Proof.
  intros H H'. induction l as [|x l IH]; intros T D i T' PD E Ho.
  - injection E as <-. exists D. auto.
  - rewrite passes_cons in E. destruct (f x T) as [T1|] eqn:E1; [|discriminate]. destruct (H x T D i T1 PD E1 Ho) as (D1 & F1 & Ho1).
    destruct (IH T1 D1 i T' (H' _ _ _ PD F1) E Ho1) as (D' & F2 & Ho2). exists D'. rewrite passes_cons, F1. auto.
Qed.

(** ** The passes of the CybOX steps *)

Lemma edit_below f t : forall anc, (forall (b : list tree) y, inside b = true -> f b y = head y) -> inside anc = true -> edit f anc t = t.
Proof.
  tree_induction t. intros anc H N. cbn [edit]. rewrite (H anc _ N). cbn [head]. f_equal.
  transitivity (map (fun k : tree => k) ks); [|apply map_id]. apply map_ext_in. intros k Hk. apply IH; auto.
Qed.

Lemma on_root_edit g t : on_root g t = edit (fun b y => if inside b then head y else g (head y)) [] t.
Proof.
  destruct t as [h ks]. unfold on_root. cbn [edit head kids inside]. f_equal.
  transitivity (map (fun k : tree => k) ks); [symmetry; apply map_id|]. apply map_ext_in. intros k Hk. symmetry. apply edit_below; auto. intros b y N. rewrite N. reflexivity.
Qed.

Lemma parallel_ext P f f' g g' : (forall t, f t = f' t) -> (forall t, g t = g' t) -> parallel P f g -> parallel P f' g'.
Proof. intros H H' Pa T D i T' PD E Ho. rewrite <- H in E. destruct (Pa T D i T' PD E Ho) as (D' & E' & R). exists D'. rewrite <- H'. auto. Qed.

Lemma parallel_root P g g' : (forall h, same_sort h (g h)) -> (forall h, same_sort h (g' h)) -> parallel P (always (on_root g)) (always (on_root g')).
Proof.
  intros S S'.
  apply (parallel_ext P (always (edit (fun b y => if inside b then head y else g (head y)) []))
           _ (always (edit (fun b y => if inside b then head y else g' (head y)) []))).
  - intro t. unfold always. rewrite on_root_edit. reflexivity.
  - intro t. unfold always. rewrite on_root_edit. reflexivity.
  - apply parallel_edit.
    + intros b y _. destruct (inside b); auto. apply same_sort_refl.
    + intros D _. apply S'.
    + intros A B b D k y _ Tw _ _. destruct (twins_inside b A B Tw) as [-> ->]. reflexivity.
Qed.

Lemma parallel_loc P drop m loc drop' m' loc' : parallel P (always (schemaloc_pass drop m loc)) (always (schemaloc_pass drop' m' loc')).
Proof.
  apply parallel_root; intro h; destruct (attr_get _ _); repeat split.
Qed.

Lemma parallel_rename P old new : of_cybox old = true -> parallel P (rename old new) (rename old new).
Proof.
  intro O. apply parallel_edit.
  - intros b y G. unfold any_inside. rewrite good_not_in by (cbn [forallb]; rewrite ?O; auto). rewrite andb_false_r. apply same_sort_refl.
  - intros D _. cbn. apply same_sort_refl.
  - intros A B b D k y _ Tw _ _. rewrite (twins_any_inside [old] b y A B Tw). reflexivity.
Qed.


Lemma first_none {A} (h : ctx -> res A) l : first_err h l = None <-> forall c, In c l -> exists v, h c = Ok v.
Proof.
  induction l as [|c l IH]; simpl.
  - split; auto. intros _ c [].
  - destruct (h c) as [v|e] eqn:E.
    + rewrite IH. split; [intros H d [<-|Hd]; eauto|intros H d Hd; eauto].
    + split; [discriminate|]. intro H. destruct (H c (or_introl eq_refl)) as (v & Q). congruence.
Qed.

(** No failure in the package means none in the document. *)
Lemma first_both {X} (h : ctx -> res X) (p : ctx -> bool) T D i : hosts T D i ->
  (forall y, p ([], y) = false) ->
  (forall (A B b : list tree) y, twins A B -> p ((b ++ A)%list, y) = p ((b ++ B)%list, y)) ->
  (forall (A B b : list tree) y, twins A B -> h ((b ++ A)%list, y) = h ((b ++ B)%list, y)) ->
  first_err h (filter p (visits [] T)) = None -> first_err h (filter p (visits [] D)) = None.
Proof.
  intros (A & x & I & Ti & K & Tw & G) P0 Pt Ht N. apply first_none. intros [c y] Hc. apply filter_In in Hc as [Hc Pc].
  assert (In_c : inside c = true) by (destruct c; auto; rewrite P0 in Pc; discriminate).
  destruct (below_both T A x D c y I K Hc In_c) as (b & -> & Iy).
  rewrite <- (Pt _ _ b y Tw) in Pc. rewrite first_none in N. rewrite <- (Ht _ _ b y Tw). apply N. apply filter_In. auto.
Qed.

Lemma parallel_rewrite P qs G : forallb of_cybox qs = true -> parallel P (rewrite_all (any_inside qs) G) (rewrite_all (any_inside qs) G).
Proof.
  intros O T D i T' PD E Ho. unfold rewrite_all in *.
  destruct (first_err (fun c : ctx => G (snd c)) (filter (fun c => any_inside qs (fst c) (snd c)) (visits [] T))) eqn:Fe; [discriminate|].
  assert (Fd := first_both (fun c => G (snd c)) (fun c => any_inside qs (fst c) (snd c)) T D i Ho (fun _ => eq_refl)
    (fun A B b y => twins_any_inside qs b y A B) (fun A B b y _ => eq_refl) Fe).
  unfold ctx in *. rewrite Fd. refine (parallel_subst P _ _ _ _ T D i T' PD E Ho).
  - intros b y Gy. unfold any_inside. rewrite good_not_in by auto. rewrite andb_false_r. reflexivity.
  - intros A B b D1 k y _ Tw _ _. rewrite (twins_any_inside qs b y A B Tw). reflexivity.
Qed.

Lemma parallel_optional P qs : forallb of_cybox qs = true ->
  parallel P (always (optional_pass (any_inside qs))) (always (optional_pass (any_inside qs))).
Proof.
  intro O. apply parallel_subst.
  - intros b y Gy. unfold any_inside. rewrite good_not_in by auto. rewrite andb_false_r. reflexivity.
  - intros A B b D k y _ Tw _ _. rewrite (twins_any_inside qs b y A B Tw). reflexivity.
Qed.

Lemma parallel_unwrap P outer inner new : of_cybox outer = true ->
  parallel P (always (unwrap_pass outer inner new)) (always (unwrap_pass outer inner new)).
Proof.
  intro O. apply parallel_subst.
  - intros b y Gy. rewrite (good_not _ _ O Gy), andb_false_r. reflexivity.
  - intros A B b D k y _ Tw _ _. destruct (twins_inside b A B Tw) as [-> ->]. reflexivity.
Qed.

Lemma same_sort_upgraded v b y h : outdated v (b, y) = true -> upgraded v (b, y) = Ok h -> same_sort (head y) h.
Proof.
  intros O U. pose proof (upgraded_keeps v (b, y) h O U) as I. destruct (upgraded_shape _ _ _ _ U) as (a & n & _ & _ & W).
  apply upgraded_with_same in W as (T & K & D & _). repeat split; auto.
Qed.

Lemma same_sort_vocab v b y : same_sort (head y) (if outdated v (b, y) then match upgraded v (b, y) with Ok h => h | Err _ => head y end else head y).
Proof.
  destruct (outdated v (b, y)) eqn:O; [|apply same_sort_refl]. destruct (upgraded v (b, y)) as [h|] eqn:U; [|apply same_sort_refl].
  exact (same_sort_upgraded v b y h O U).
Qed.

Lemma parallel_vocab P v : parallel P (vocab_pass v) (vocab_pass v).
Proof.
  intros T D i T' PD E Ho. unfold vocab_pass in *.
  destruct (first_err type_of (filter typed (visits [] T))) eqn:F1; [discriminate|].
  destruct (first_err (upgraded v) (filter (outdated v) (visits [] T))) eqn:F2; [discriminate|].
  rewrite (first_both type_of typed T D i Ho); auto.
  2:{ intros A B b y Tw. exact (twins_typed b y A B Tw). }
  2:{ intros A B b y Tw. exact (twins_type b y A B Tw). }
  rewrite (first_both (upgraded v) (outdated v) T D i Ho); auto.
  2:{ intros A B b y Tw. exact (twins_outdated v b y A B Tw). }
  2:{ intros A B b y Tw. exact (twins_upgraded v b y A B Tw). }
  refine (parallel_edit P _ _ _ _ _ T D i T' PD E Ho).
  - intros b y _. apply same_sort_vocab.
  - intros D1 _. apply same_sort_vocab.
  - intros A B b D1 k y _ Tw _ _. rewrite (twins_outdated v b y A B Tw), (twins_upgraded v b y A B Tw). reflexivity.
Qed.

Lemma convert_sort h : same_sort h (convert_text h).
Proof. unfold convert_text. destruct (h_text h) as [s|]; [destruct (String.eqb s "")|]; repeat split. Qed.

Lemma repeat_sort n h : same_sort h (repeat_edit n h).
Proof.
  induction n as [|n IH]; cbn [repeat_edit]; [apply same_sort_refl|]. destruct IH as (A & B & C & D).
  destruct (convert_sort (repeat_edit n h)) as (A' & B' & C' & D'). repeat split; congruence.
Qed.

Lemma parallel_lists P : parallel P (always (lists_pass (cybox "Object") (cybox "Properties"))) (always (lists_pass (cybox "Object") (cybox "Properties"))).
Proof.
  apply parallel_edit.
  - intros b y _. destruct (is_elem y); [apply repeat_sort|apply same_sort_refl].
  - intros D _. destruct (is_elem D); [apply repeat_sort|apply same_sort_refl].
  - intros A B b D k y _ Tw _ _. rewrite (twins_properties b A B Tw). reflexivity.
Qed.

Lemma parallel_stamp (P : tree -> Prop) p q g : (forall h, same_sort h (g h)) ->
  (forall b D k y, P D -> In k (kids D) -> In y (nodes k) -> p b y = false /\ q b y = false) ->
  parallel P (always (edit_where p g)) (always (edit_where q g)).
Proof.
  intros S N. apply parallel_edit.
  - intros b y _. destruct (p b y); [apply S|apply same_sort_refl].
  - intros D _. destruct (q [] D); [apply S|apply same_sort_refl].
  - intros A B b D k y PD _ Hk Hy. destruct (N (b ++ A)%list D k y PD Hk Hy) as [-> _], (N (b ++ B)%list D k y PD Hk Hy) as [_ ->]. reflexivity.
Qed.

(** *** The steps *)

Definition not_observables (h : hdr) : Prop := ~ (h_kind h = KElem /\ h_tag h = cybox "Observables").

Definition calm (h : hdr) : Prop := ~ in_family stix_family h /\ not_observables h.

Definition lone (D : tree) : Prop := content calm D /\ moves driver_ns D = false.

Definition of_stix (q : qname) : bool :=
  match q_ns q with
  | Some ns => String.prefix "http://stix.mitre.org/" ns || String.prefix "http://data-marking.mitre.org/" ns
  | None => false
  end.

Lemma foreign_not q y : of_stix q = true -> ~ in_family stix_family (head y) -> named q y = false.
Proof.
  intros O N. destruct (named q y) eqn:E; auto. exfalso. apply N. apply named_tag' in E as [K T]. split; auto.
  unfold of_stix in O. rewrite <- T in O. destruct (q_ns (h_tag (head y))) as [ns|]; [|discriminate].
  apply orb_true_iff in O as [O|O]; eexists ns, _; (split; [reflexivity|]); (split; [|exact O]); simpl; auto.
Qed.

Lemma foreign_not_in qs y : forallb of_stix qs = true -> ~ in_family stix_family (head y) -> named_in qs y = false.
Proof.
  intros O N. unfold named_in. induction qs as [|q qs IH]; auto. cbn [existsb forallb] in *. apply andb_true_iff in O as [O1 O2].
  rewrite (foreign_not q y O1 N). auto.
Qed.

Lemma calm_not y : calm (head y) -> named_in [cybox "Observables"] y = false.
Proof.
  intros [_ C]. unfold named_in. cbn [existsb]. rewrite orb_false_r. destruct (named _ y) eqn:E; auto. exfalso. apply C. apply named_tag'. exact E.
Qed.

Lemma lone_stamps p qs g : (forall h, same_sort h (g h)) -> forallb of_stix qs = true ->
  (forall b y, named_in qs y = false -> p b y = false) ->
  parallel lone (always (edit_where p g)) (always (edit_where (anywhere [cybox "Observables"]) g)).
Proof.
  intros S O N. apply parallel_stamp; auto. intros b D k y [C _] Hk Hy. pose proof (C k y Hk Hy) as Cy. split.
  - apply N. apply foreign_not_in; auto. apply Cy.
  - unfold anywhere. apply calm_not. exact Cy.
Qed.

Lemma lone_loc drop m loc D D' : lone D -> always (schemaloc_pass drop m loc) D = Ok D' -> lone D'.
Proof.
  intros [C M] E. injection E as <-. split; [exact C|]. unfold moves, schemaloc_pass, on_root in *. cbn [head].
  destruct (attr_get _ _); exact M.
Qed.

Lemma moved_calm b y : moves driver_ns y = true -> calm (rebuilt [] driver_ns b y).
Proof.
  intro M. unfold moves in M. destruct (q_ns (h_tag (head y))) as [ns|] eqn:E; [|discriminate].
  cbn [map fst mem_str driver_ns existsb] in M. rewrite orb_false_r in M. apply String.eqb_eq in M. subst ns.
  unfold calm, in_family, not_observables, rebuilt. cbn [h_kind h_tag]. rewrite E. split.
  - intros (_ & ns & f & H & Hf & Pr). cbn [q_ns] in H. injection H as <-. destruct Hf as [<-|[<-|[]]]; discriminate Pr.
  - intros [_ H]. injection H as H _. discriminate H.
Qed.

Lemma lone_ns D D' : lone D -> namespaces_pass [] driver_ns D = Ok D' -> lone D'.
Proof.
  intros [C M] E. apply namespaces_ok in E as ->. destruct D as [h ks]. split; [|cbn [ns_pass]; rewrite M; exact M].
  intros k' y' Hk Hy. cbn [ns_pass kids] in Hk. apply in_map_iff in Hk as (k & <- & Hk). destruct (is_elem k).
  - destruct (nodes_ns [] driver_ns k _ _ Hy) as (b & y & I & [->|[Mo ->]]); [|apply moved_calm; exact Mo].
    apply (C k y Hk). rewrite <- (nodes_visits k (Node h ks :: [])). apply (in_map snd _ _ I).
  - exact (C k y' Hk Hy).
Qed.

Definition any_tree (_ : tree) : Prop := True.

Lemma cybox_2_0_parallel p qs opts : forallb of_stix qs = true -> (forall b y, named_in qs y = false -> p b y = false) ->
  parallel lone (cybox_2_0_step p opts) (cybox_2_0_step (anywhere [cybox "Observables"]) opts).
Proof.
  intros O N. unfold cybox_2_0_step.
  eapply parallel_cons; [apply parallel_loc|apply lone_loc|].
  eapply (parallel_cons _ any_tree); [eapply lone_stamps; eauto; intro; repeat split|intros; exact Logic.I|].
  eapply (parallel_cons _ any_tree); [apply parallel_lists|intros; exact Logic.I|].
  eapply (parallel_cons _ any_tree); [apply parallel_when, parallel_vocab|intros; exact Logic.I|]. apply parallel_nil.
Qed.

Lemma cybox_2_0_1_parallel p qs opts : forallb of_stix qs = true -> (forall b y, named_in qs y = false -> p b y = false) ->
  parallel lone (cybox_2_0_1_step p opts) (cybox_2_0_1_step (anywhere [cybox "Observables"]) opts).
Proof.
  intros O N. unfold cybox_2_0_1_step.
  eapply parallel_cons; [apply parallel_ns; intros D [_ H]; exact H|apply lone_ns|].
  eapply parallel_cons; [apply parallel_loc|apply lone_loc|].
  eapply (parallel_cons _ any_tree); [eapply lone_stamps; eauto; intro; repeat split|intros; exact Logic.I|].
  do 3 (eapply (parallel_cons _ any_tree); [apply parallel_rewrite; reflexivity|intros; exact Logic.I|]).
  do 4 (eapply (parallel_cons _ any_tree); [apply parallel_rename; reflexivity|intros; exact Logic.I|]).
  eapply (parallel_cons _ any_tree); [apply parallel_unwrap; reflexivity|intros; exact Logic.I|].
  eapply (parallel_cons _ any_tree); [apply parallel_when, parallel_passes; [intro; apply parallel_vocab|intros; exact Logic.I]|intros; exact Logic.I|].
  eapply (parallel_cons _ any_tree); [apply parallel_when, parallel_optional; vm_compute; reflexivity|intros; exact Logic.I|]. apply parallel_nil.
Qed.

(** ** Pure CybOX content stays so *)

Notation type_key := (qn "http://www.w3.org/2001/XMLSchema-instance" "type").

Lemma in_set k v l q s : In (q, s) (attr_set k v l) -> q = k /\ s = v \/ In (q, s) l.
Proof.
  induction l as [|[k' v'] l IH]; simpl.
  - intros [E|[]]. injection E as <- <-. auto.
  - destruct (qn_eqb k k') eqn:Q.
    + apply qn_eqb_eq in Q. subst k'. intros [E|H]; [injection E as <- <-; auto|auto].
    + intros [E|H]; [auto|]. destruct (IH H) as [?|?]; auto.
Qed.

Lemma in_del k l q s : In (q, s) (attr_del k l) -> In (q, s) l.
Proof. induction l as [|[k' v'] l IH]; simpl; auto. destruct (qn_eqb k k'); simpl; tauto. Qed.

Lemma in_update l : forall acc q s, In (q, s) (attr_update acc l) -> In (q, s) acc \/ In (q, s) l.
Proof.
  induction l as [|[k v] l IH]; intros acc q s H; auto. apply IH in H as [H|H]; [|right; right; auto].
  cbn [fst snd] in H. apply in_set in H as [[-> ->]|H]; [right; left; auto|auto].
Qed.

Lemma only_attrs h h' : ~ in_family stix_family h' -> (forall s, In (type_key, s) (h_attr h') -> In (type_key, s) (h_attr h)) -> cybox_only h -> cybox_only h'.
Proof. intros N I [_ C]. split; auto. intros s a n H. exact (C s a n (I s H)). Qed.

Lemma family_same fs h h' : h_kind h' = h_kind h -> h_tag h' = h_tag h -> in_family fs h' -> in_family fs h.
Proof. unfold in_family. intros -> ->. auto. Qed.

Lemma only_same h h' : h_kind h' = h_kind h -> h_tag h' = h_tag h -> (forall s, In (type_key, s) (h_attr h') -> In (type_key, s) (h_attr h)) -> cybox_only h -> cybox_only h'.
Proof. intros K T I C. apply (only_attrs h); auto. intro F. apply C. exact (family_same _ h h' K T F). Qed.

Lemma only_set k s h : k <> type_key -> cybox_only h -> cybox_only (hset_attr k s h).
Proof.
  intros N. apply only_same; try reflexivity. intros v H. unfold hset_attr, set_attrs in H. cbn [h_attr] in H.
  apply in_set in H as [[E _]|H]; [congruence|auto].
Qed.

Lemma only_del k h : cybox_only h -> cybox_only (hdel_attr k h).
Proof. apply only_same; try reflexivity. intros v H. exact (in_del k _ _ _ H). Qed.

Lemma foreign_tag q : of_stix q = false -> forall h, h_tag h = q -> ~ in_family stix_family h.
Proof.
  intros O h T (_ & ns & f & E & Hf & Pr). rewrite T in E. unfold of_stix in O. rewrite E in O. apply orb_false_iff in O as [O1 O2].
  destruct Hf as [<-|[<-|[]]]; congruence.
Qed.

Lemma only_tag q h : of_stix q = false -> cybox_only h -> cybox_only (set_tag q h).
Proof. intros O. apply only_attrs; auto. apply (foreign_tag q O). reflexivity. Qed.

Lemma only_if_present k v h0 h h' : k <> type_key -> set_if_present k v h0 h = Ok h' -> cybox_only h -> cybox_only h'.
Proof.
  intros N E C. unfold set_if_present in E. destruct (has_attr k h0); [destruct v; [|discriminate]|]; injection E as <-; auto.
  apply only_set; auto.
Qed.

Definition harmless (v : vocab) : bool :=
  match split_char ":" (v_new_type v) with [w] => String.eqb w (v_new_type v) | _ => false end && negb (mem_str (v_new_type v) stix_types).

Lemma only_upgraded v b y h : harmless v = true -> cybox_only (head y) -> upgraded v (b, y) = Ok h -> cybox_only h.
Proof.
  intros Hv C U. destruct (upgraded_shape _ _ _ _ U) as (al & n & _ & Sp & W). clear U.
  apply andb_true_iff in Hv as [Sv Nv].
  assert (C1 : cybox_only (hset_attr TAG_XSI_TYPE (al ++ ":" ++ v_new_type v) (head y))).
  { split; [exact (proj1 C)|]. intros s a m H S. unfold hset_attr, set_attrs in H. cbn [h_attr] in H.
    apply in_set in H as [[_ ->]|H]; [|exact (proj2 C s a m H S)].
    change (":" ++ v_new_type v) with (String ":" (v_new_type v)) in S. rewrite split_char_app in S.
    - destruct (split_char ":" (v_new_type v)) as [|w [|]]; try discriminate Sv. apply String.eqb_eq in Sv. subst w. injection S as _ <-.
      intro I. apply mem_str_In in I. rewrite I in Nv. discriminate.
    - eapply split_char_part. rewrite Sp. left. reflexivity. }
  unfold upgraded_with in W. destruct (set_if_present _ _ (head y) _) as [h1|] eqn:E1 in W; [|discriminate]. cbn [rbind] in W.
  destruct (set_if_present _ _ (head y) h1) as [h2|] eqn:E2; [|discriminate]. cbn [rbind] in W.
  apply only_if_present in E1; [|discriminate|exact C1]. apply only_if_present in E2; [|discriminate|exact E1]. injection W as <-.
  destruct (h_text (head y)); [destruct (dict_get _ _)|]; exact E2.
Qed.

Lemma only_vocab v : harmless v = true -> invariant cybox_only (vocab_pass v).
Proof. intro H. apply invariant_vocab. intros b y h C U. exact (only_upgraded v b y h H C U). Qed.

Lemma only_loc drop m loc : invariant cybox_only (always (schemaloc_pass drop m loc)).
Proof. apply invariant_on_root. intros h C. destruct (attr_get _ _); auto. apply only_set; [discriminate|exact C]. Qed.

Lemma only_child_value qs q : forallb (fun n => negb (of_stix n)) qs = true -> invariant cybox_only (rewrite_all (any_inside qs) (value_of_child q)).
Proof.
  intro O. apply invariant_rewrite. intros b k e P E A. unfold value_of_child in E. destruct (filter (named q) (kids k)) as [|v l] eqn:Fl; [discriminate|].
  injection E as <-. intros x [<-|[]]. cbn [head].
  assert (Hv : In v (kids k)).
  { assert (H : In v (filter (named q) (kids k))) by (rewrite Fl; left; auto). apply filter_In in H. tauto. }
  apply (only_attrs (head v)).
  - intro F. assert (N := A k (nodes_self k)). apply N. unfold any_inside in P. apply andb_true_iff in P as [_ P].
    apply existsb_exists in P as (n & _ & P). apply named_tag' in P as [K _]. revert F. apply family_same; auto.
  - intros s H. cbn [h_attr] in H. apply in_update in H as [[]|H]. exact H.
  - apply A. apply (nodes_kid k v); auto. apply nodes_self.
Qed.

Lemma only_as_string qs : invariant cybox_only (rewrite_all (any_inside qs) as_string).
Proof.
  apply invariant_rewrite. intros b k e P E A. injection E as <-. intros x [<-|[]]. cbn [head].
  unfold any_inside in P. apply andb_true_iff in P as [_ P]. apply existsb_exists in P as (n & _ & P). apply named_tag' in P as [K _].
  apply (only_same (head k)); auto.
  - intros s H. cbn [h_attr] in H. destruct (has_attr _ _).
    + apply in_set in H as [[H _]|H]; [discriminate|]. apply in_update in H as [[]|H]. exact H.
    + apply in_update in H as [[]|H]. exact H.
  - apply A. apply nodes_self.
Qed.

Lemma only_unwrap outer inner new : of_stix new = false -> invariant cybox_only (always (unwrap_pass outer inner new)).
Proof.
  intros O t e E A. injection E as <-. apply invariant_subst; auto. intros b k l z _ E Hz Ak.
  destruct (inside b && named _ k); [|discriminate].
  destruct (filter _ (kids k)) as [|x xs] eqn:Fl; [discriminate|]. injection E as <-. destruct Hz as [<-|[]].
  assert (Hx : In x (kids k)).
  { assert (H : In x (filter (named inner) (kids k))) by (rewrite Fl; left; auto). apply filter_In in H. tauto. }
  intros y [<-|Hy]; [apply only_tag; auto; apply Ak, (nodes_kid k x); auto; apply nodes_self|].
  apply Ak. apply (nodes_kid k x); auto. destruct x as [h ks]. right. exact Hy.
Qed.

Lemma only_driver : invariant cybox_only (namespaces_pass [] driver_ns).
Proof.
  apply invariant_ns. intros b y M C. apply (only_attrs (head y)); auto; [apply moved_calm; exact M|].
  intros s H. unfold rebuilt in H. cbn [h_attr] in H. apply in_update in H as [[]|H]. exact H.
Qed.

Lemma only_lists obj prop : invariant cybox_only (always (lists_pass obj prop)).
Proof.
  apply invariant_edit. intros b y C. destruct (is_elem y); auto. induction (properties_above obj prop b) as [|n IH]; auto.
  cbn [repeat_edit]. unfold convert_text. destruct (h_text _) as [s|]; [destruct (String.eqb s "")|]; auto.
Qed.

Lemma only_stamp_2_0_1 p : invariant cybox_only (always (edit_where p stamp_cybox_2_0_1)).
Proof. apply invariant_edit_where. intros h C. unfold stamp_cybox_2_0_1. repeat (apply only_set; [discriminate|]). exact C. Qed.

Lemma only_stamp_2_1 p : invariant cybox_only (always (edit_where p stamp_cybox_2_1)).
Proof. apply invariant_edit_where. intros h C. unfold stamp_cybox_2_1. apply only_del. repeat (apply only_set; [discriminate|]). exact C. Qed.

Lemma only_rename old new : of_stix new = false -> invariant cybox_only (rename old new).
Proof. intro O. apply invariant_rename. intros h _ C. apply only_tag; auto. Qed.

Lemma only_2_0 p opts : invariant cybox_only (cybox_2_0_step p opts).
Proof.
  unfold cybox_2_0_step. apply invariant_cons; [apply only_loc|]. apply invariant_cons; [apply only_stamp_2_0_1|].
  apply invariant_cons; [apply only_lists|]. apply invariant_cons; [apply invariant_when, only_vocab; reflexivity|]. apply invariant_nil.
Qed.

Lemma only_2_0_1 p opts : invariant cybox_only (cybox_2_0_1_step p opts).
Proof.
  unfold cybox_2_0_1_step. apply invariant_cons; [apply only_driver|]. apply invariant_cons; [apply only_loc|].
  apply invariant_cons; [apply only_stamp_2_1|]. do 2 (apply invariant_cons; [apply only_child_value; reflexivity|]).
  apply invariant_cons; [apply only_as_string|]. do 4 (apply invariant_cons; [apply only_rename; reflexivity|]).
  apply invariant_cons; [apply only_unwrap; reflexivity|].
  apply invariant_cons; [apply invariant_when, invariant_passes; intros v [<-|[<-|[<-|[]]]]; apply only_vocab; reflexivity|].
  apply invariant_cons; [apply invariant_when|apply invariant_nil].
  intros t e E A. injection E as <-. apply invariant_prune. exact A.
Qed.

(** ** The passes that only concern STIX *)

Definition sits (T : tree) (K : list tree) (i : nat) : Prop :=
  exists A x, In (A, x) (visits [] T) /\ tid x = i /\ kids x = K /\ Forall (fun y => good y) (x :: A).

Definition pure (K : list tree) : Prop := forall k y, In k K -> In y (nodes k) -> cybox_only (head y).

Definition spares (f : tree -> res tree) : Prop := forall T T' K i, pure K -> f T = Ok T' -> sits T K i -> sits T' K i.

Lemma hosts_sits T D i : hosts T D i -> sits T (kids D) i.
Proof. intros (A & x & I & Ti & K & _ & G). exists A, x. auto. Qed.

Lemma subst_spares F k : forall anc, (forall b y, In y (nodes k) -> F b y = None) -> subst_nodes F anc k = k.
Proof.
  tree_induction k. intros anc H. cbn [subst_nodes]. f_equal.
  transitivity (flat_map (fun k : tree => [k]) ks).
  - apply flat_map_ext_in. intros k Hk. assert (Hs : forall b y, In y (nodes k) -> F b y = None).
    { intros b y Hy. apply H. apply (nodes_kid (Node h ks) k); auto. }
    rewrite (Hs _ k (nodes_self k)). f_equal. apply IH; auto.
  - clear. induction ks as [|k ks IH]; simpl; congruence.
Qed.

Lemma spares_edit f : (forall b y, good y -> same_sort (head y) (f b y)) -> (forall b y, cybox_only (head y) -> inside b = true -> f b y = head y) ->
  spares (always (edit f [])).
Proof.
  intros Hf Hs T T' K i PK E (A & x & I & Ti & Kx & G). injection E as <-.
  assert (Ga : Forall (fun y => good y) A) by (inversion G; auto). assert (Gx : good x) by (inversion G; auto).
  destruct (edit_at f Hf T [] [] A x (Forall2_nil _) I Ga) as (A' & I' & S).
  assert (Sx : same_sort (head x) (head (edit f A x))) by (destruct x; apply (Hf A _ Gx)).
  exists A', (edit f A x). split; auto. split; [rewrite <- Ti; apply Sx|]. split.
  - assert (X : forall anc k, inside anc = true -> (forall y, In y (nodes k) -> cybox_only (head y)) -> edit f anc k = k).
    { clear -Hs. intros anc k. revert anc. tree_induction k. intros anc N H. cbn [edit]. rewrite Hs; auto; [|apply H, nodes_self]. cbn [head]. f_equal.
      transitivity (map (fun k : tree => k) ks); [|apply map_id]. apply map_ext_in. intros k Hk. apply IH; auto.
      intros y Hy. apply H. apply (nodes_kid (Node h ks) k); auto. }
    destruct x as [hx kx]. cbn [kids edit] in *. subst kx. transitivity (map (fun k : tree => k) K); [|apply map_id].
    apply map_ext_in. intros k Hk. apply X; auto. intros y Hy. exact (PK k y Hk Hy).
  - apply (sorts_good (x :: A)); auto. constructor; auto.
Qed.

(** Around the content: nothing, or a new element around the whole of it. *)
Lemma spares_subst F : (forall b y, good y -> F b y = None \/ exists w, F b y = Some [w] /\ good w /\ kids w = [y]) ->
  (forall b y, cybox_only (head y) -> F b y = None) -> spares (always (subst_nodes F [])).
Proof.
  intros HF Hs T T' K i PK E (A & x & I & Ti & Kx & G). injection E as <-.
  assert (Hx : forall anc, kids (subst_nodes F anc x) = kids x).
  { intro anc. destruct x as [hx kx]. cbn [kids subst_nodes] in *. subst kx. transitivity (flat_map (fun k : tree => [k]) K).
    - apply flat_map_ext_in. intros k Hk. rewrite (Hs _ k (PK k k Hk (nodes_self k))). f_equal. apply subst_spares.
      intros b y Hy. apply Hs. exact (PK k y Hk Hy).
    - clear. induction K as [|k ks IH]; simpl; congruence. }
  assert (X : forall t anc anc' a, In (a, x) (visits anc t) -> Forall (fun y => good y) (x :: a) -> Forall (fun y => good y) anc' ->
            exists a' x', In (a', x') (visits anc' (subst_nodes F anc t)) /\ tid x' = tid x /\ kids x' = kids x /\ Forall (fun y => good y) (x' :: a')).
  { clear -HF Hx. intro t. tree_induction t. intros anc anc' a I G G'. destruct I as [E|I].
    - injection E as <- Ex. rewrite Ex. exists anc', (subst_nodes F anc x). split; [apply visits_self|].
      assert (Hh : head (subst_nodes F anc x) = head x) by (destruct x; reflexivity).
      split; [unfold tid; rewrite Hh; reflexivity|]. split; [apply Hx|]. constructor; auto. rewrite Hh. inversion G; auto.
    - apply in_flat_map in I as (k & Hk & I).
      assert (Gk : good k) by (rewrite Forall_forall in G; exact (G k (visits_top _ _ _ _ I))).
      assert (Ga : Forall (fun y => good y) a) by (inversion G; auto).
      assert (Gt := forall_anc _ _ _ _ _ I Ga). inversion Gt as [|? ? G1 G2]; subst.
      assert (Gn : Forall (fun y => good y) (subst_nodes F anc (Node h ks) :: anc')) by (constructor; auto).
      destruct (HF (Node h ks :: anc) k Gk) as [N|(w & N & Gw & Kw)].
      + destruct (IH k Hk (Node h ks :: anc) _ a I G Gn) as (a' & x' & I' & R). exists a', x'. split; auto.
        cbn [subst_nodes visits]. right. apply in_flat_map. exists (subst_nodes F (Node h ks :: anc) k). split; auto.
        apply in_flat_map. exists k. split; auto. rewrite N. left. reflexivity.
      + destruct (moved_context k _ _ _ I) as (b & -> & M). exists (b ++ w :: subst_nodes F anc (Node h ks) :: anc')%list, x. split; [|split; [reflexivity|split; [reflexivity|]]].
        * cbn [subst_nodes visits]. right. apply in_flat_map. exists w. split.
          -- apply in_flat_map. exists k. split; auto. rewrite N. left. reflexivity.
          -- destruct w as [hw kw]. cbn [kids] in Kw. subst kw. right. apply in_flat_map. exists k. split; [left; auto|]. apply M.
        * inversion G as [|? ? Gx _]; subst. constructor; auto. apply Forall_app in Ga as [Gb _]. apply Forall_app. split; auto. }
  destruct (X T [] [] A I G (Forall_nil _)) as (A' & x' & I' & T1 & K1 & G1). exists A', x'. split; auto. split; [congruence|]. split; [congruence|auto].
Qed.

Lemma spares_cons f l : spares f -> spares (in_order l) -> spares (in_order (f :: l)).
Proof. intros H H' T T' K i PK E S. apply in_order_ok in E as (m & E1 & E2). eauto. Qed.

Lemma spares_nil : spares (in_order []).
Proof. intros T T' K i PK E S. rewrite in_order_nil in E. injection E as <-. exact S. Qed.

Lemma spares_when b f : spares f -> spares (when b f).
Proof. intros H T T' K i PK E S. destruct b; [eapply H; eauto|]. injection E as <-. exact S. Qed.

Lemma spares_passes {X} (f : X -> tree -> res tree) l : (forall x, In x l -> spares (f x)) -> spares (passes f l).
Proof.
  induction l as [|x l IH]; intros H T T' K i PK E S.
  - injection E as <-. exact S.
  - rewrite passes_cons in E. destruct (f x T) as [m|] eqn:E1; [|discriminate]. eapply IH; eauto.
    + intros y Hy. apply H. right. auto.
    + eapply H; eauto. left. auto.
Qed.

Lemma spares_loc drop m loc : spares (always (schemaloc_pass drop m loc)).
Proof.
  intros T T' K i PK E. unfold always, schemaloc_pass in E. rewrite on_root_edit in E. revert PK E. apply spares_edit.
  - intros b y _. destruct (inside b); [apply same_sort_refl|]. destruct (attr_get _ _); repeat split.
  - intros b y _ N. rewrite N. reflexivity.
Qed.

Lemma components_stix : forallb of_stix component_names = true.
Proof. reflexivity. Qed.

Lemma spares_stamp i w : spares (always (edit_where carries_version (stamp_stix i w))).
Proof.
  apply spares_edit.
  - intros b y _. destruct (carries_version b y); repeat split.
  - intros b y [N _] _. unfold carries_version. rewrite (foreign_not (stix "STIX_Package") y eq_refl N), (foreign_not_in _ y components_stix N). reflexivity.
Qed.

Lemma only_not_outdated v b y : forallb (fun n => mem_str n stix_types) (v_old_types v) = true -> cybox_only (head y) -> outdated v (b, y) = false.
Proof.
  intros H [_ C]. unfold outdated. destruct (typed _); auto. cbn [andb]. unfold type_of. cbn [fst snd].
  destruct (attr_get TAG_XSI_TYPE (h_attr (head y))) as [s|] eqn:G; auto.
  destruct (split_char ":" s) as [|a [|n [|]]] eqn:S; auto. destruct (env_get _ _); auto.
  destruct (mem_str n (v_old_types v)) eqn:M; [|apply andb_false_r]. exfalso.
  apply (C s a n); auto.
  - clear -G. induction (h_attr (head y)) as [|[k v] l IH]; [discriminate|]. simpl in G. destruct (qn_eqb TAG_XSI_TYPE k) eqn:Q.
    + apply qn_eqb_eq in Q. subst k. injection G as ->. left. reflexivity.
    + right. auto.
  - rewrite forallb_forall in H. apply mem_str_In in M. apply H in M. apply mem_str_In in M. exact M.
Qed.

Lemma spares_vocab v : forallb (fun n => mem_str n stix_types) (v_old_types v) = true -> spares (vocab_pass v).
Proof.
  intros H T T' K i PK E. unfold vocab_pass in E. destruct (first_err type_of _); [discriminate|].
  destruct (first_err (upgraded v) _); [discriminate|]. revert PK E. apply spares_edit.
  - intros b y _. apply same_sort_vocab.
  - intros b y C _. rewrite only_not_outdated; auto.
Qed.

Lemma good_keeps q y : In q [common "Contributors"; marking "Controlled_Structure"; marking "Marking_Structure"] -> good y -> named q y = false.
Proof. intros I (_ & _ & N). destruct (named q y) eqn:E; auto. apply named_tag' in E as [_ T]. rewrite T in N. contradiction. Qed.

Lemma spares_contributing : spares (rewrite_all (any_inside [common "Contributors"]) (contributing_sources NS_COMMON)).
Proof.
  intros T T' K i PK E. unfold rewrite_all in E. destruct (first_err (fun c : ctx => contributing_sources NS_COMMON (snd c)) _); [discriminate|].
  revert PK E. apply spares_subst.
  - intros b y G. left. unfold any_inside, named_in. cbn [existsb]. rewrite (good_keeps (common "Contributors") y) by (simpl; auto). rewrite andb_false_r. reflexivity.
  - intros b y [N _]. unfold any_inside. rewrite (foreign_not_in [common "Contributors"] y eq_refl N), andb_false_r. reflexivity.
Qed.

Lemma spares_wrap : spares (rewrite_all (child_in [ttp "Exploit_Targets"] (common "Exploit_Target")) (wrap (ttp "Exploit_Target"))).
Proof.
  intros T T' K i PK E. unfold rewrite_all in E. destruct (first_err (fun c : ctx => wrap (ttp "Exploit_Target") (snd c)) _); [discriminate|].
  revert PK E. apply spares_subst.
  - intros b y G. destruct (child_in _ _ b y); [right|left; reflexivity]. exists (element (ttp "Exploit_Target") [y]). split; [reflexivity|].
    split; [|reflexivity]. split; [reflexivity|]. split.
    + intros (_ & ns & f & E & [<-|[]] & Pr). injection E as <-. discriminate Pr.
    + intros [E|[E|[E|[]]]]; discriminate E.
  - intros b y [N _]. unfold child_in. rewrite (foreign_not (common "Exploit_Target") y eq_refl N), andb_false_r. reflexivity.
Qed.

Lemma spares_markings : spares (always (optional_pass (any_inside [marking "Controlled_Structure"; marking "Marking_Structure"]))).
Proof.
  apply spares_subst.
  - intros b y G. left. unfold any_inside, named_in. cbn [existsb].
    rewrite (good_keeps (marking "Controlled_Structure") y), (good_keeps (marking "Marking_Structure") y) by (simpl; auto). rewrite andb_false_r. reflexivity.
  - intros b y [N _]. unfold any_inside. rewrite (foreign_not_in [marking "Controlled_Structure"; marking "Marking_Structure"] y eq_refl N), andb_false_r. reflexivity.
Qed.

(** ** Whole steps *)

Lemma stix_1_0_hosts opts T T' D i : lone D -> all cybox_only D -> stix_1_0_step opts T = Ok T' -> hosts T D i ->
  exists D', cybox_2_0_step (anywhere [cybox "Observables"]) opts D = Ok D' /\ sits T' (kids D') i.
Proof.
  intros L C E Ho. unfold stix_1_0_step in E. apply in_order_ok in E as (m & E1 & E).
  destruct (cybox_2_0_parallel (anywhere cybox_in_stix_1_0) cybox_in_stix_1_0 opts eq_refl (fun _ _ H => H) T D i m L E1 Ho) as (D' & ED & Hm).
  exists D'. split; auto. assert (C' := only_2_0 _ _ _ _ ED C). refine ((_ : spares (in_order _)) m T' (kids D') i _ E (hosts_sits _ _ _ Hm)).
  - apply spares_cons; [apply spares_loc|]. apply spares_cons; [apply spares_stamp|].
    apply spares_cons; [apply spares_when, spares_passes; intros v [<-|[<-|[]]]; apply spares_vocab; reflexivity|]. apply spares_nil.
  - intros k y Hk Hy. apply C'. exact (nodes_kid D' k y Hk Hy).
Qed.

Lemma stix_1_0_1_hosts opts T T' D i : lone D -> all cybox_only D -> stix_1_0_1_step opts T = Ok T' -> hosts T D i ->
  exists D', cybox_2_0_1_step (anywhere [cybox "Observables"]) opts D = Ok D' /\ sits T' (kids D') i.
Proof.
  intros L C E Ho. unfold stix_1_0_1_step in E. apply in_order_ok in E as (m & E1 & E).
  assert (N : forall b y, named_in cybox_in_stix_1_0_1 y = false -> any_inside cybox_in_stix_1_0_1 b y = false).
  { intros b y H. unfold any_inside. rewrite H. apply andb_false_r. }
  destruct (cybox_2_0_1_parallel (any_inside cybox_in_stix_1_0_1) cybox_in_stix_1_0_1 opts eq_refl N T D i m L E1 Ho) as (D' & ED & Hm).
  exists D'. split; auto. assert (C' := only_2_0_1 _ _ _ _ ED C). refine ((_ : spares (in_order _)) m T' (kids D') i _ E (hosts_sits _ _ _ Hm)).
  - apply spares_cons; [apply spares_loc|]. apply spares_cons; [apply spares_stamp|]. apply spares_cons; [apply spares_contributing|].
    apply spares_cons; [apply spares_wrap|].
    apply spares_cons; [apply spares_when, spares_passes; intros v [<-|[<-|[]]]; apply spares_vocab; reflexivity|].
    apply spares_cons; [apply spares_when, spares_markings|]. apply spares_nil.
  - intros k y Hk Hy. apply C'. exact (nodes_kid D' k y Hk Hy).
Qed.

(** ** Updates *)

Lemma only_blind h : cybox_only (set_id 0 h) <-> cybox_only h.
Proof. reflexivity. Qed.

Lemma calm_blind h : calm (set_id 0 h) <-> calm h.
Proof. reflexivity. Qed.

Lemma content_erase (Q : hdr -> Prop) ks ks' : (forall h, Q (set_id 0 h) <-> Q h) -> map erase ks = map erase ks' ->
  (forall k y, In k ks' -> In y (nodes k) -> Q (head y)) -> forall k y, In k ks -> In y (nodes k) -> Q (head y).
Proof.
  intros B E H k y Hk Hy. assert (I : In (erase k) (map erase ks')) by (rewrite <- E; apply in_map; auto).
  apply in_map_iff in I as (k' & Ek & Hk'). assert (A : all Q k').
  { intros z Hz. exact (H k' z Hk' Hz). }
  apply (all_erase Q k' B) in A. rewrite Ek in A. apply (all_erase Q k B) in A. exact (A y Hy).
Qed.

(** The document with the labelled content. *)
Lemma embeds_hosts T A x D : In (A, x) (visits [] T) -> embeds A x D ->
  exists D1, erase D1 = erase D /\ lone D1 /\ all cybox_only D1 /\ hosts T D1 (tid x).
Proof.
  intros I (K & En & Kd & Tg & G & C & N). set (D1 := Node (head D) (kids x)). exists D1.
  assert (E : erase D1 = erase D) by (unfold D1; destruct D as [h ks]; cbn [erase head kids] in *; rewrite K; reflexivity).
  split; auto. split; [|split].
  - split.
    + intros k y Hk Hy. refine (content_erase calm (kids x) (kids D) calm_blind K _ k y Hk Hy). intros k' y' Hk' Hy'. split.
      * apply C. exact (nodes_kid D k' y' Hk' Hy').
      * intros [Ky Ty]. exact (N k' y' Hk' Hy' Ky Ty).
    + unfold moves, D1. cbn [head]. rewrite Tg. reflexivity.
  - apply (all_erase _ _ only_blind). rewrite E. apply (all_erase _ _ only_blind). exact C.
  - exists A, x. split; auto. split; auto. split; [reflexivity|]. 
    assert (Gf : Forall (fun y => good y) (x :: A)) by (apply Forall_forall; exact G). split; auto. split; [|split].
    + cbn [declared_by flat_map D1 head]. rewrite app_nil_r. exact En.
    + apply good_top; auto. discriminate.
    + split; [reflexivity|]. split; [reflexivity|]. unfold named, D1. cbn [head]. rewrite Kd, Tg. reflexivity.
Qed.

Lemma pair_hosts o opts v w f g T T' D i : In (v, w) content_versions -> stix_step o opts v = Some f -> cybox_step opts w = Some g ->
  lone D -> all cybox_only D -> f T = Ok T' -> hosts T D i -> exists D', g D = Ok D' /\ sits T' (kids D') i.
Proof.
  intros [P|[P|[]]] F G L C E Ho; injection P as <- <-.
  - change (stix_step o opts "1.0") with (Some (stix_1_0_step opts)) in F.
    change (cybox_step opts "2.0") with (Some (cybox_2_0_step (anywhere [cybox "Observables"]) opts)) in G.
    apply some_inj in F. apply some_inj in G. subst f g. exact (stix_1_0_hosts opts T T' D i L C E Ho).
  - change (stix_step o opts "1.0.1") with (Some (stix_1_0_1_step opts)) in F.
    change (cybox_step opts "2.0.1") with (Some (cybox_2_0_1_step (anywhere [cybox "Observables"]) opts)) in G.
    apply some_inj in F. apply some_inj in G. subst f g. exact (stix_1_0_1_hosts opts T T' D i L C E Ho).
Qed.

(** The step of the CybOX document, from that of the package. *)
Lemma embedded_step o opts v w f g T T' A x D : In (v, w) content_versions -> stix_step o opts v = Some f -> cybox_step opts w = Some g ->
  f T = Ok T' -> In (A, x) (visits [] T) -> embeds A x D ->
  exists A' x' new, g (erase D) = Ok new /\ In (A', x') (visits [] T') /\ tid x' = tid x /\ map erase (kids x') = map erase (kids new).
Proof.
  intros V F G E I Em. destruct (embeds_hosts T A x D I Em) as (D1 & Er & L & C & Ho).
  destruct (pair_hosts o opts v w f g T T' D1 (tid x) V F G L C E Ho) as (D' & ED & A' & x' & I' & Ti & K & _).
  pose proof (cybox_step_blind opts w g G D1) as B. rewrite ED, Er in B. cbn [rmap] in B.
  exists A', x', (erase D'). split; auto. split; auto. split; auto. rewrite K. destruct D' as [h ks]. cbn [erase kids].
  rewrite map_map. apply map_ext. intro k. symmetry. apply erase_idem.
Qed.

Lemma embedded_update o v w up up2 d opts force s t r s' : In (v, w) content_versions ->
  dict_get v (STIX_UPDATERS o) = Some up -> dict_get w (CYBOX_UPDATERS o) = Some up2 -> wf_state s -> denotes s d t ->
  updater_update o up d opts force s = (Ok r, s') ->
  exists t1 e, worked_on o up d opts force s t t1 /\ document s' (r_document r) (erase e) /\
    carried (stix_gone (or_default o opts) v) (labelled t1) e /\
    forall A x D d2 s2 r2 s2' new, In (A, x) (visits [] (labelled t1)) -> embeds A x D -> wf_state s2 -> denotes s2 d2 D ->
      updater_update o up2 d2 opts false s2 = (Ok r2, s2') -> document s2' (r_document r2) new ->
      exists A' x', In (A', x') (visits [] e) /\ tid x' = tid x /\ map erase (kids x') = map erase (kids new).
Proof.
  intros V U U2 W Dn E. on_step U W Dn E f Ef t1 e Wk Fit Fe Doc. exists t1, e. split; auto. split; auto.
  split; [eapply stix_step_carries; eauto|]. intros A x D2 d2 s2 r2 s2' new I Em W2 Dn2 E2 Doc2.
  destruct (cybox_described o (or_default o opts) w up2 U2) as (c2 & Di2 & g & _ & _ & Eg & _).
  destruct (embedded_step o _ v w f g _ _ A x D2 V Ef Eg Fe I Em) as (A' & x' & n & Gn & I' & Ti & K).
  exists A', x'. split; auto. split; auto. rewrite K. do 2 f_equal.
  pose proof (cybox_step_performed o opts w up2 d2 false s2 D2 U2 W2 Dn2) as Pf.
  destruct (cybox_step_worked o opts w up2 g d2 false s2 D2 r2 s2' U2 Eg W2 Dn2 E2) as (t2 & e2 & Wk2 & _ & Fe2 & De2).
  assert (W2' : wf_state s2').
  { destruct (cybox_single _ _ _ _ _) in Pf; [|destruct Pf as (z & Pf); rewrite E2 in Pf; discriminate].
    destruct Pf as (r3 & s3 & Pf & W3 & _). rewrite E2 in Pf. injection Pf as _ <-. exact W3. }
  destruct Wk2 as [->|[X _]]; [|discriminate].
  rewrite (document_unique _ _ _ _ W2' Doc2 De2). 
  pose proof (cybox_step_blind _ _ _ Eg (labelled (erase D2))) as B. rewrite Fe2, erase_labelled, erase_idem, Gn in B. injection B as ->. reflexivity.
Qed.

Lemma embedded_succeeds o v w up up2 d opts force s t r s' : In (v, w) content_versions ->
  dict_get v (STIX_UPDATERS o) = Some up -> dict_get w (CYBOX_UPDATERS o) = Some up2 -> wf_state s -> denotes s d t ->
  updater_update o up d opts force s = (Ok r, s') ->
  exists t1, worked_on o up d opts force s t t1 /\
    forall A x D s2 u, In (A, x) (visits [] (labelled t1)) -> embeds A x D -> wf_state s2 -> In D (heap s2) ->
      up_check up2 (tid D) (or_default o opts) s2 = (Ok u, s2) ->
      exists r2 s2', updater_update o up2 (DElem (tid D)) opts false s2 = (Ok r2, s2').
Proof.
  intros V U U2 W Dn E. on_step U W Dn E f Ef t1 e Wk Fit Fe Doc. exists t1. split; auto.
  intros A x D2 s2 u I Em W2 H2 Ck.
  destruct (cybox_described o (or_default o opts) w up2 U2) as (c2 & Di2 & g & Ec & _ & Eg & X).
  destruct (embedded_step o _ v w f g _ _ A x D2 V Ef Eg Fe I Em) as (A' & x' & n & Gn & _).
  assert (Dn2 : denotes s2 (DElem (tid D2)) D2).
  { exists [], D2. split; auto. split; auto. apply visits_self. }
  pose proof X as (HC & _). rewrite (HC s2 D2 W2 H2) in Ck. injection Ck as Ck.
  assert (C2 : c2 (numbered (next s2) D2) = Ok u).
  { assert (St := cybox_check_stable _ _ _ Ec). 
    pose proof (numbered_about D2) as R1. pose proof (numbered_about (numbered (next s2) D2)) as R2. rewrite numbered_erase in R2.
    pose proof (St (fun k => nth k (ids D2) 0) (numbered 0 (erase D2))) as C1. rewrite <- R1, Ck in C1.
    pose proof (St (fun k => nth k (ids (numbered (next s2) D2)) 0) (numbered 0 (erase D2))) as C2. rewrite <- R2 in C2.
    destruct (c2 (numbered 0 (erase D2))) as [z|]; [|discriminate C1]. cbn [relab] in C1, C2. rewrite C2. symmetry. exact C1. }
  destruct u. pose proof (update_accepted o up2 opts c2 Di2 g _ false s2 D2 X W2 Dn2 C2) as P. rewrite Gn in P.
  destruct P as (r2 & s2' & P & _). eauto.
Qed.
