(** * Following nodes with their surroundings through the passes. *)

From Coq Require Import String Ascii List Bool Arith Lia.
From Verif Require Import Str Xml XPath Utils Base Tables Spec SpecDoc SpecPass SpecStep
  SpecCheck SpecClean SpecUpdate SpecTrace Lib Refine RefineBase RefineTrans RefineLists RefineSteps Relabel Cybox Stix RefineUpdate Natural Reports UpdateFacts Trace SpecField Fields Carried.
Import ListNotations.
Local Open Scope string_scope.

Definition place := list tree -> list tree -> Prop.
Definition change := list tree -> tree -> hdr -> Prop.

(** Labelled nodes come from the node with their label; the places are related
    by [S], the old node and the new header by [N]. *)
Definition traced (S : place) (N : change)
  (anc : list tree) (t : tree) (A : list tree) (e : tree) : Prop :=
  forall b' y', In (b', y') (visits A e) -> tid y' <> 0 ->
  exists b y, In (b, y) (visits anc t) /\ tid y = tid y' /\ S b b' /\ S (y :: b) (y' :: b') /\ N b y (head y').

Definition push (S : place) (h h' : hdr) : Prop :=
  forall b A ks ks', S b A -> S (Node h ks :: b) (Node h' ks' :: A).

Lemma traced_kids (S : place) (N : change) anc t A h' ks' :
  (h_id h' = 0 \/ tid t = h_id h' /\ S anc A /\ S (t :: anc) (Node h' ks' :: A) /\ N anc t h') ->
  (forall k', In k' ks' -> exists k, In k (kids t) /\ traced S N (t :: anc) k (Node h' ks' :: A) k') ->
  traced S N anc t A (Node h' ks').
Proof.
  intros T H b' y' [E|I] Nz.
  - injection E as <- <-. destruct T as [T|(T & Sa & Sb & Na)]; [contradiction|].
    exists anc, t. split; [apply visits_self|]. auto.
  - apply in_flat_map in I as (k' & Hk' & I). destruct (H k' Hk') as (k & Hk & Hn).
    destruct (Hn b' y' I Nz) as (b & y & I' & R). exists b, y. split; auto.
    destruct t as [h ks]. right. apply in_flat_map. exists k. auto.
Qed.

Lemma traced_impl S (N N' : change) anc t A e : (forall b y h', In (b, y) (visits anc t) -> N b y h' -> N' b y h') ->
  traced S N anc t A e -> traced S N' anc t A e.
Proof.
  intros H T b' y' I Nz. destruct (T b' y' I Nz) as (b & y & I' & E & Sb & Sc & Nb). exists b, y. repeat split; auto.
Qed.

Lemma traced_trans (S : place) N1 N2 anc A B a b c :
  (forall x y z, S x y -> S y z -> S x z) ->
  traced S N1 anc a A b -> traced S N2 A b B c ->
  traced S (fun p y h'' => exists q z, S p q /\ S (y :: p) (z :: q) /\ N1 p y (head z) /\ N2 q z h'') anc a B c.
Proof.
  intros Tr H H' b' y' I Nz. destruct (H' b' y' I Nz) as (b1 & y1 & I1 & E1 & S1 & S1' & N1').
  destruct (H b1 y1 I1) as (b2 & y2 & I2 & E2 & S2 & S2' & N2'); [congruence|].
  exists b2, y2. split; auto. split; [congruence|]. split; [eapply Tr; eauto|]. split; [eapply Tr; eauto|]. exists b1, y1. auto.
Qed.

Lemma traced_edit (S : place) (N : change) f t : (forall b y, h_id (f b y) = tid y) -> forall anc A, S anc A ->
  (forall b y, In (b, y) (visits anc t) -> push S (head y) (f b y)) ->
  (forall b y, In (b, y) (visits anc t) -> N b y (f b y)) -> traced S N anc t A (edit f anc t).
Proof.
  intro K. tree_induction t. intros anc A Sa P Nf. cbn [edit].
  assert (Self : In (anc, Node h ks) (visits anc (Node h ks))) by apply visits_self.
  apply traced_kids.
  - right. split; [symmetry; apply K|]. split; auto. split; auto. exact (P anc (Node h ks) Self _ _ _ _ Sa).
  - intros k' Hk'. apply in_map_iff in Hk' as (k & <- & Hk). exists k. split; auto.
    assert (Sub : forall b y, In (b, y) (visits (Node h ks :: anc) k) -> In (b, y) (visits anc (Node h ks))).
    { intros b y I. right. apply in_flat_map. exists k. auto. }
    apply IH; auto. exact (P anc (Node h ks) Self _ _ _ _ Sa).
Qed.

Lemma traced_subst (S : place) (N : change) F t : (forall h, push S h h) -> (forall b y, N b y (head y)) ->
  forall anc A, S anc A ->
  (forall b k l B, In (b, k) (visits anc t) -> F b k = Some l -> inside b = true -> S b B -> forall e, In e l -> traced S N b k B e) ->
  traced S N anc t A (subst_nodes F anc t).
Proof.
  intros Sp Nr. tree_induction t. intros anc A Sa H. cbn [subst_nodes]. apply traced_kids.
  - right. split; [reflexivity|]. split; auto. split; [apply Sp; auto|]. apply Nr.
  - intros k' Hk'. apply in_flat_map in Hk' as (k & Hk & I). exists k. split; auto.
    assert (Sub : forall b y, In (b, y) (visits (Node h ks :: anc) k) -> In (b, y) (visits anc (Node h ks))).
    { intros b y Iy. right. apply in_flat_map. exists k. auto. }
    destruct (F (Node h ks :: anc) k) as [l|] eqn:E.
    + eapply H; eauto. apply Sub. apply visits_self. apply Sp. auto.
    + destruct I as [<-|[]]. apply IH; auto. apply Sp. auto. intros b x l B Ix. apply H. apply Sub. exact Ix.
Qed.

Lemma traced_refl (S : place) (N : change) t : (forall h, push S h h) -> (forall b y, N b y (head y)) -> forall anc A, S anc A -> traced S N anc t A t.
Proof.
  intros Sp Nr. tree_induction t. intros anc A Sa. apply traced_kids.
  - right. split; [reflexivity|]. split; auto. split; [apply Sp; auto|]. apply Nr.
  - intros k Hk. exists k. split; auto. apply IH; auto. apply Sp. auto.
Qed.

Lemma traced_blank (S : place) (N : change) anc t A e : (forall x, In x (nodes e) -> tid x = 0) -> traced S N anc t A e.
Proof.
  intros H b' y' I Nz. exfalso. apply Nz. apply H. rewrite <- (nodes_visits e A). apply in_map_iff. exists (b', y'). auto.
Qed.

Lemma traced_element (S : place) (N : change) anc t A q ks : (forall k, In k ks -> traced S N anc t (element q ks :: A) k) ->
  traced S N anc t A (element q ks).
Proof.
  intros H b' y' [E|I] Nz; [injection E as <- <-; contradiction Nz; reflexivity|].
  apply in_flat_map in I as (k & Hk & I). apply (H k Hk); auto.
Qed.

Lemma traced_child (S : place) (N : change) anc t A k e : In k (kids t) -> traced S N (t :: anc) k A e -> traced S N anc t A e.
Proof.
  intros Hk H b' y' I Nz. destruct (H b' y' I Nz) as (b & y & I' & R). exists b, y. split; auto.
  destruct t as [h ks]. right. apply in_flat_map. exists k. auto.
Qed.

Lemma traced_top (S : place) (N : change) anc h ks A h' : (forall h, push S h h) -> (forall b y, N b y (head y)) ->
  h_id h' = h_id h -> push S h h' -> N anc (Node h ks) h' -> S anc A -> traced S N anc (Node h ks) A (Node h' ks).
Proof.
  intros Sp Nr I P Nh Sa. apply traced_kids; [right; split; [symmetry; exact I|split; auto]|].
  intros k Hk. exists k. split; auto. apply traced_refl; auto.
Qed.

(** ** Scopes: where a prefix stands for a namespace *)

Definition seen (n alias : string) (l : list tree) : bool :=
  ostr_eqb (env_get (Some alias) (flat_map (fun a => h_decl (head a)) l)) (Some n).

Definition scopes (ns : list string) (b A : list tree) : Prop :=
  inside b = inside A /\ forall n alias, In n ns -> seen n alias b = seen n alias A.

Lemma env_get_app p a b : env_get p (a ++ b) = match env_get p a with Some u => Some u | None => env_get p b end.
Proof. induction a as [|[q u] a IH]; simpl; auto. destruct (ostr_eqb p q); auto. Qed.

Lemma scopes_push ns h h' : h_decl h' = h_decl h -> push (scopes ns) h h'.
Proof.
  intros D b A ks ks' [I H]. split; [reflexivity|]. intros n alias Hn. specialize (H n alias Hn). unfold seen in *. simpl.
  rewrite D, !env_get_app. destruct (env_get (Some alias) (h_decl h)); auto.
Qed.

Lemma scopes_refl ns b : scopes ns b b.
Proof. split; auto. Qed.

Lemma scopes_trans ns x y z : scopes ns x y -> scopes ns y z -> scopes ns x z.
Proof. intros [I H] [I' H']. split; [congruence|]. intros n a Hn. rewrite (H n a Hn). auto. Qed.

Lemma scopes_new ns b A q ks : inside b = true -> scopes ns b A -> scopes ns b (element q ks :: A).
Proof. intros I [I' H]. split; [exact I|]. exact H. Qed.

Lemma scopes_drop ns b A x : inside b = true -> h_decl (head x) = [] -> scopes ns b A -> scopes ns (x :: b) A.
Proof.
  intros I D [I' H]. split; [rewrite <- I'; symmetry; exact I|]. intros n alias Hn. rewrite <- (H n alias Hn). unfold seen. simpl.
  rewrite D. reflexivity.
Qed.

(** ** Passes that keep a projection [pi] of the header *)

Definition same {X} (pi : hdr -> X) : change := fun _ y h' => pi h' = pi (head y).

Definition inert (g : hdr -> hdr) : Prop := forall h, h_decl (g h) = h_decl h.

Definition follows {X} (pi : hdr -> X) (ns : list string) (f : tree -> res tree) (t : tree) : Prop :=
  forall e, f t = Ok e -> traced (scopes ns) (same pi) [] t [] e.

Lemma follows_edit {X} (pi : hdr -> X) (ns : list string) f t : (forall b y, h_id (f b y) = tid y) -> (forall b y, h_decl (f b y) = h_decl (head y)) ->
  (forall b y, In (b, y) (visits [] t) -> pi (f b y) = pi (head y)) -> traced (scopes ns) (same pi) [] t [] (edit f [] t).
Proof.
  intros K D H. apply traced_edit; auto.
  - apply scopes_refl.
  - intros b y _. apply scopes_push. apply D.
Qed.

Lemma follows_edit_where {X} (pi : hdr -> X) (ns : list string) (p : list tree -> tree -> bool) g t : keeps_id g -> inert g -> (forall b y, p b y = true -> pi (g (head y)) = pi (head y)) ->
  follows pi ns (always (edit_where p g)) t.
Proof.
  intros K D H e E. injection E as <-. apply follows_edit; intros b y; [| |intros _]; destruct (p b y) eqn:Pb; try reflexivity; solve [apply K|apply D|eauto].
Qed.

Lemma follows_on_root {X} (pi : hdr -> X) (ns : list string) g t : keeps_id g -> inert g -> (forall h, pi (g h) = pi h) -> follows pi ns (always (on_root g)) t.
Proof.
  intros K D H e E. injection E as <-. destruct t as [h ks]. apply traced_top; auto.
  - intro. apply scopes_push. reflexivity.
  - intros. reflexivity.
  - apply scopes_push. apply D.
  - apply H.
  - apply scopes_refl.
Qed.

Lemma follows_loc {X} (pi : hdr -> X) (ns : list string) drop m loc t : (forall v h, pi (hset_attr TAG_SCHEMALOCATION v h) = pi h) ->
  follows pi ns (always (schemaloc_pass drop m loc)) t.
Proof.
  intro H. apply follows_on_root; [apply loc_keeps_id| |]; intro h; destruct (attr_get _ _); auto.
Qed.

Lemma follows_rename {X} (pi : hdr -> X) (ns : list string) old new t : (forall h, h_tag h = old -> h_kind h = KElem -> pi (set_tag new h) = pi h) ->
  follows pi ns (rename old new) t.
Proof.
  intros H. apply follows_edit_where; [intro; reflexivity|intro; reflexivity|].
  intros b y Pb. apply any_inside_one in Pb as [T K]. auto.
Qed.

Lemma follows_subst {X} (pi : hdr -> X) (ns : list string) F t :
  (forall b k l B, In (b, k) (visits [] t) -> F b k = Some l -> inside b = true -> scopes ns b B ->
     forall e, In e l -> traced (scopes ns) (same pi) b k B e) ->
  traced (scopes ns) (same pi) [] t [] (subst_nodes F [] t).
Proof.
  intro H. apply traced_subst; auto; [intro; apply scopes_push; reflexivity|intros; reflexivity|apply scopes_refl].
Qed.

Lemma follows_prune {X} (pi : hdr -> X) (ns : list string) p t : traced (scopes ns) (same pi) [] t [] (prune p t).
Proof. apply follows_subst. intros b k l B _ E _ _ e I. destruct (p b k); [injection E as <-; destruct I|discriminate]. Qed.

Lemma follows_optional {X} (pi : hdr -> X) (ns : list string) p t : follows pi ns (always (optional_pass p)) t.
Proof. intros e E. injection E as <-. apply follows_prune. Qed.

Lemma follows_optional_in_type {X} (pi : hdr -> X) (ns : list string) name u t : follows pi ns (optional_in_type name u) t.
Proof.
  intros e E. unfold optional_in_type in E. destruct (first_err _ _); [discriminate|]. injection E as <-. apply follows_prune.
Qed.

Lemma follows_rewrite {X} (pi : hdr -> X) (ns : list string) p G t :
  (forall b k e B, In (b, k) (visits [] t) -> p b k = true -> G k = Ok e -> inside b = true -> scopes ns b B ->
     traced (scopes ns) (same pi) b k B e) -> follows pi ns (rewrite_all p G) t.
Proof.
  intros H e E. unfold rewrite_all in E. destruct (first_err _ _); [discriminate|]. injection E as <-.
  apply follows_subst. intros b k l B I E In_b Sb e Ie. destruct (p b k) eqn:Pb; [|discriminate].
  destruct (G k) as [e'|] eqn:Gk; [|discriminate]. injection E as <-. destruct Ie as [<-|[]]. eapply H; eauto.
Qed.

Lemma follows_child_value {X} (pi : hdr -> X) (ns : list string) p q t : follows pi ns (rewrite_all p (value_of_child q)) t.
Proof.
  apply follows_rewrite. intros b k e B _ _ E _ _. unfold value_of_child in E. destruct (filter _ _); [discriminate|].
  injection E as <-. apply traced_blank. intros x [<-|[]]. reflexivity.
Qed.

Lemma follows_as_string {X} (pi : hdr -> X) (ns : list string) p t : follows pi ns (rewrite_all p as_string) t.
Proof.
  apply follows_rewrite. intros b k e B _ _ E _ _. injection E as <-. apply traced_blank. intros x [<-|[]]. reflexivity.
Qed.

Lemma follows_source {X} (pi : hdr -> X) (ns : list string) p o s t : follows pi ns (rewrite_all p (structured_source o s)) t.
Proof.
  apply follows_rewrite. intros b k e B _ _ E _ _. unfold structured_source in E. destruct (parse_source _ _ _); [|discriminate].
  injection E as <-. apply traced_blank. apply nodes_erase.
Qed.

Lemma follows_wrap {X} (pi : hdr -> X) (ns : list string) p w t : follows pi ns (rewrite_all p (wrap w)) t.
Proof.
  apply follows_rewrite. intros b k e B _ _ E I Sb. injection E as <-. apply traced_element. intros k' [<-|[]].
  apply traced_refl; [intro; apply scopes_push; reflexivity|intros; reflexivity|]. apply scopes_new; auto.
Qed.

Lemma traced_renamed {X} (pi : hdr -> X) (ns : list string) q k b B : pi (set_tag q (head k)) = pi (head k) -> scopes ns b B ->
  traced (scopes ns) (same pi) b k B (renamed_to q k).
Proof.
  intros H Sb. destruct k as [h ks]. unfold renamed_to. cbn [head kids]. apply traced_top; auto.
  - intro. apply scopes_push. reflexivity.
  - intros. reflexivity.
  - apply scopes_push. reflexivity.
Qed.

Lemma follows_wrap_renamed {X} (pi : hdr -> X) (ns : list string) p w q t : (forall b k, p b k = true -> pi (set_tag q (head k)) = pi (head k)) ->
  follows pi ns (rewrite_all p (wrap_renamed w q)) t.
Proof.
  intro H. apply follows_rewrite. intros b k e B _ Pb E I Sb. injection E as <-. apply traced_element. intros k' [<-|[]].
  apply traced_renamed; eauto. apply scopes_new; auto.
Qed.

Lemma follows_contributing {X} (pi : hdr -> X) (ns : list string) p u t : (forall h, pi (set_tag (qn u "Identity") h) = pi h) ->
  (forall b k, In (b, k) (visits [] t) -> p b k = true -> h_decl (head k) = []) ->
  follows pi ns (rewrite_all p (contributing_sources u)) t.
Proof.
  intros H D. apply follows_rewrite. intros b k e B I Pb E In_b Sb. unfold contributing_sources in E.
  destruct (forallb _ _); [|discriminate]. injection E as <-.
  apply traced_element. intros x Hx. apply in_map_iff in Hx as (c & <- & Hc). apply traced_element. intros y [<-|[]].
  apply (traced_child _ _ b k _ c _ Hc). apply traced_renamed; auto.
  apply scopes_new; [reflexivity|]. apply scopes_new; [reflexivity|]. apply scopes_drop; eauto.
Qed.

Lemma follows_unwrap {X} (pi : hdr -> X) (ns : list string) a c d t : (forall k, named c k = true -> pi (set_tag d (head k)) = pi (head k)) ->
  (forall b k, In (b, k) (visits [] t) -> named a k = true -> h_decl (head k) = []) ->
  follows pi ns (always (unwrap_pass a c d)) t.
Proof.
  intros H D e E. injection E as <-. apply follows_subst. intros b k l B I E In_b Sb e Ie.
  rewrite In_b in E. cbn [andb] in E. destruct (named a k) eqn:Na; [|discriminate].
  destruct (filter (named c) (kids k)) as [|x xs] eqn:Fl; [discriminate|]. injection E as <-. destruct Ie as [<-|[]].
  assert (Ix : In x (filter (named c) (kids k))) by (rewrite Fl; left; auto). apply filter_In in Ix as [Ix Nx].
  apply (traced_child _ _ b k _ x _ Ix). apply traced_renamed; auto. apply scopes_drop; eauto.
Qed.

Lemma follows_when {X} (pi : hdr -> X) (ns : list string) b f t : (b = true -> follows pi ns f t) -> follows pi ns (when b f) t.
Proof.
  intros H e E. unfold when in E. destruct b; [exact (H eq_refl e E)|]. injection E as <-.
  apply traced_refl; [intro; apply scopes_push; reflexivity|intros; reflexivity|apply scopes_refl].
Qed.

Lemma follows_nil {X} (pi : hdr -> X) (ns : list string) t : follows pi ns (in_order []) t.
Proof.
  intros e E. rewrite in_order_nil in E. injection E as <-.
  apply traced_refl; [intro; apply scopes_push; reflexivity|intros; reflexivity|apply scopes_refl].
Qed.

Lemma traced_same_trans {X} (pi : hdr -> X) (ns : list string) A B C a b c : traced (scopes ns) (same pi) A a B b -> traced (scopes ns) (same pi) B b C c ->
  traced (scopes ns) (same pi) A a C c.
Proof.
  intros H H'. eapply traced_impl; [|eapply traced_trans; [apply scopes_trans|exact H|exact H']].
  intros p y h' _ (q & z & _ & _ & E1 & E2). unfold same in *. congruence.
Qed.

Lemma follows_cons {X} (pi : hdr -> X) (ns : list string) f l t : follows pi ns f t -> (forall m, f t = Ok m -> follows pi ns (in_order l) m) -> follows pi ns (in_order (f :: l)) t.
Proof.
  intros H H' e E. apply in_order_ok in E as (m & A & B). eapply traced_same_trans; [exact (H m A)|exact (H' m A e B)].
Qed.

(** ** Namespaces *)

Lemma env_items_get p e : forall sn, existsb (ostr_eqb p) sn = false -> env_get p (env_items sn e) = env_get p e.
Proof.
  induction e as [|[q u] e IH]; intros sn H; auto. simpl. destruct (existsb (ostr_eqb q) sn) eqn:E.
  - rewrite IH by auto. destruct (ostr_eqb p q) eqn:Q; auto. apply ostr_eqb_eq in Q. subst. congruence.
  - simpl. destruct (ostr_eqb p q) eqn:Q; auto. apply IH. simpl. rewrite Q. exact H.
Qed.

Lemma env_get_map p f e : env_get p (map (fun q => (fst q, f (snd q))) e) = option_map f (env_get p e).
Proof. induction e as [|[q u] e IH]; simpl; auto. destruct (ostr_eqb p q); auto. Qed.

Lemma filter_all {A} (p : A -> bool) l : (forall x, p x = true) -> filter p l = l.
Proof. intro H. induction l; simpl; auto. rewrite H. congruence. Qed.

(** [m] neither takes a namespace from [ns] nor leads to one. *)
Definition away (m : dict string) (ns : list string) : Prop :=
  forall n, In n ns -> forall u, new_ns m u = n <-> u = n.

Lemma scopes_rebuilt ns m b y ks' A : away m ns -> scopes ns b A ->
  scopes ns (y :: b) (Node (rebuilt [] m b y) ks' :: A).
Proof.
  intros W [I H]. split; [reflexivity|]. intros n alias Hn. specialize (H n alias Hn). unfold seen in *.
  cbn [flat_map head]. unfold rebuilt. cbn [h_decl]. rewrite !env_get_app, filter_all by reflexivity.
  rewrite (env_get_map (Some alias) (new_ns m)), env_items_get by reflexivity. unfold env_of. cbn [flat_map]. rewrite env_get_app.
  destruct (env_get (Some alias) (h_decl (head y))) as [u|].
  - cbn [option_map]. apply eq_true_iff_eq. rewrite !ostr_eqb_eq. specialize (W n Hn u). split; intro E; injection E as E; f_equal; apply W; auto.
  - destruct (env_get (Some alias) (flat_map (fun a => h_decl (head a)) b)) as [u|].
    + cbn [option_map]. apply eq_true_iff_eq. rewrite !ostr_eqb_eq. specialize (W n Hn u). split; intro E; injection E as E; f_equal; apply W; auto.
    + exact H.
Qed.

Lemma follows_ns {X} (pi : hdr -> X) ns m t : away m ns ->
  (forall b y, In (b, y) (visits [] t) -> (inside b = true -> is_elem y = true) -> moves m y = true ->
     pi (rebuilt [] m b y) = pi (head y)) ->
  follows pi ns (namespaces_pass [] m) t.
Proof.
  intros W H e E. apply namespaces_ok in E as ->.
  assert (G : forall anc A, scopes ns anc A ->
    (inside anc = true -> is_elem t = true) ->
    (forall b y, In (b, y) (visits anc t) -> (inside b = true -> is_elem y = true) -> moves m y = true ->
       pi (rebuilt [] m b y) = pi (head y)) ->
    traced (scopes ns) (same pi) anc t A (ns_pass [] m anc t)).
  { clear H. tree_induction t. intros anc A Sa El H. cbn [ns_pass].
    assert (Self : In (anc, Node h ks) (visits anc (Node h ks))) by apply visits_self.
    assert (Sp : forall ks', scopes ns (Node h ks :: anc) (Node (if moves m (Node h ks) then rebuilt [] m anc (Node h ks) else h) ks' :: A)).
    { intro ks'. destruct (moves m (Node h ks)); [apply scopes_rebuilt; auto|apply scopes_push; auto]. }
    apply traced_kids.
    - right. split; [destruct (moves m (Node h ks)); reflexivity|]. split; auto. split; auto. unfold same.
      destruct (moves m (Node h ks)) eqn:M; auto.
    - intros k' Hk'. apply in_map_iff in Hk' as (k & <- & Hk). exists k. split; auto.
      destruct (is_elem k) eqn:Ek.
      + apply IH; auto. intros b y Iy. apply H. right. apply in_flat_map. exists k. auto.
      + apply traced_refl; [intro; apply scopes_push; reflexivity|intros; reflexivity|auto]. }
  apply G; auto; [apply scopes_refl|discriminate].
Qed.
