(** * Which nodes stay through a step, and where. *)

From Coq Require Import String Ascii List Bool Arith Lia.
From Verif Require Import Str Xml XPath Utils Base Tables Spec SpecDoc SpecPass SpecStep
  SpecCheck SpecClean SpecUpdate SpecTrace Lib Refine RefineBase RefineTrans RefineLists RefineSteps Relabel Cybox Stix RefineUpdate Natural Reports UpdateFacts Trace SpecField Fields.
Import ListNotations.
Local Open Scope string_scope.

(** The labels on a path. *)
Definition plabels (l : list tree) : list nat := filter (fun i => negb (Nat.eqb i 0)) (map tid l).

Lemma plabels_cons x l : plabels (x :: l) = ((if Nat.eqb (tid x) 0 then [] else [tid x]) ++ plabels l)%list.
Proof. unfold plabels. simpl. destruct (Nat.eqb (tid x) 0); reflexivity. Qed.

Lemma plabels_sub x x' l l' : tid x = tid x' -> sublist (plabels l) (plabels l') ->
  sublist (plabels (x :: l)) (plabels (x' :: l')).
Proof. intros E H. rewrite !plabels_cons, E. apply sublist_app; auto. apply sublist_refl. Qed.

Lemma plabels_new x l : tid x = 0 -> plabels (x :: l) = plabels l.
Proof. intro E. rewrite plabels_cons, E. reflexivity. Qed.

Lemma plabels_more x l l' : sublist (plabels l) (plabels l') -> sublist (plabels l) (plabels (x :: l')).
Proof. intro H. rewrite plabels_cons. destruct (Nat.eqb _ _); simpl; auto. constructor. auto. Qed.

(** ** Nodes that stay *)

Definition freel (P : hdr -> bool) (l : list tree) : Prop := forall z, In z l -> P (head z) = false.

(** Every free node is found, free, in the result, below its ancestors. *)
Definition holds (P : hdr -> bool) (t e : tree) : Prop :=
  forall anc b y A, In (b, y) (visits anc t) -> freel P (y :: b) -> freel P A -> sublist (plabels anc) (plabels A) ->
  exists b' y', In (b', y') (visits A e) /\ tid y' = tid y /\ freel P (y' :: b') /\ sublist (plabels b) (plabels b').

Definition holding (P : hdr -> bool) (f : tree -> res tree) : Prop := forall t e, f t = Ok e -> holds P t e.

Lemma visits_top t : forall anc b y, In (b, y) (visits anc t) -> In t (y :: b).
Proof.
  intros anc b y H. destruct (visits_below t anc b y H) as (q & E). rewrite E. apply in_or_app. right. left. auto.
Qed.

Lemma holds_edit P f t : (forall b y, h_id (f b y) = tid y) ->
  (forall b y, P (head y) = false -> P (f b y) = false) -> forall anc0, holds P t (edit f anc0 t).
Proof.
  intros K H. tree_induction t. intros anc0 anc b y A I F FA S.
  assert (F0 : P h = false) by (apply (F (Node h ks)); apply (visits_top _ anc b y I)).
  assert (F2 : freel P (edit f anc0 (Node h ks) :: A)) by (intros z [<-|Hz]; auto; cbn [edit head]; apply H; exact F0).
  assert (T : tid (Node h ks) = tid (edit f anc0 (Node h ks))).
  { cbn [edit]. unfold tid at 2. cbn [head]. rewrite K. reflexivity. }
  destruct I as [E|I].
  - injection E as <- <-. exists A, (edit f anc0 (Node h ks)). split; [apply visits_self|]. auto.
  - apply in_flat_map in I as (k & Hk & I).
    destruct (IH k Hk (Node h ks :: anc0) (Node h ks :: anc) b y (edit f anc0 (Node h ks) :: A) I F F2) as (b' & y' & I' & R);
      [apply plabels_sub; auto|].
    exists b', y'. split; auto. cbn [edit visits]. right. rewrite flat_map_map. apply in_flat_map. exists k. split; auto.
Qed.

Lemma holds_subst P F t :
  (forall p b k l, F (p :: b) k = Some l -> P (head p) = false -> P (head k) = false -> exists e, l = [e] /\ holds P k e) ->
  forall anc0, holds P t (subst_nodes F anc0 t).
Proof.
  intros H. tree_induction t. intros anc0 anc b y A I Fr FA S.
  assert (F0 : P h = false) by (apply (Fr (Node h ks)); apply (visits_top _ anc b y I)).
  assert (F2 : freel P (subst_nodes F anc0 (Node h ks) :: A)) by (intros z [<-|Hz]; auto).
  assert (S2 : sublist (plabels (Node h ks :: anc)) (plabels (subst_nodes F anc0 (Node h ks) :: A))) by (apply plabels_sub; auto).
  destruct I as [E|I].
  - injection E as <- <-. exists A, (subst_nodes F anc0 (Node h ks)). split; [apply visits_self|]. auto.
  - apply in_flat_map in I as (k & Hk & I). cbn [subst_nodes visits].
    destruct (F (Node h ks :: anc0) k) as [l|] eqn:E.
    + destruct (H _ _ _ _ E) as (e & -> & He); [exact F0|apply Fr; apply (visits_top _ (Node h ks :: anc) b y I)|].
      destruct (He (Node h ks :: anc) b y (subst_nodes F anc0 (Node h ks) :: A) I Fr F2 S2) as (b' & y' & I' & R).
      exists b', y'. split; auto. right. apply in_flat_map. exists e. split; auto.
      apply in_flat_map. exists k. split; auto. rewrite E. left. auto.
    + destruct (IH k Hk (Node h ks :: anc0) (Node h ks :: anc) b y (subst_nodes F anc0 (Node h ks) :: A) I Fr F2 S2) as (b' & y' & I' & R).
      exists b', y'. split; auto. right. apply in_flat_map. exists (subst_nodes F (Node h ks :: anc0) k). split; auto.
      apply in_flat_map. exists k. split; auto. rewrite E. left. auto.
Qed.

Lemma holds_refl P t : holds P t t.
Proof.
  tree_induction t. intros anc b y A I F FA S.
  assert (F0 : P h = false) by (apply (F (Node h ks)); apply (visits_top _ anc b y I)).
  assert (F2 : freel P (Node h ks :: A)) by (intros z [<-|Hz]; auto).
  assert (S2 : sublist (plabels (Node h ks :: anc)) (plabels (Node h ks :: A))) by (apply plabels_sub; auto).
  destruct I as [E|I].
  - injection E as <- <-. exists A, (Node h ks). split; [apply visits_self|]. auto.
  - apply in_flat_map in I as (k & Hk & I). destruct (IH k Hk _ b y (Node h ks :: A) I F F2 S2) as (b' & y' & I' & R).
    exists b', y'. split; auto. right. apply in_flat_map. exists k. auto.
Qed.

Lemma holds_trans P a b c : holds P a b -> holds P b c -> holds P a c.
Proof.
  intros H H' anc x y A I F FA S.
  destruct (H anc x y A I F FA S) as (b' & y' & I' & E & F' & S').
  destruct (H' A b' y' A I' F' FA (sublist_refl _)) as (b'' & y'' & I'' & E' & F'' & S'').
  exists b'', y''. split; auto. split; [congruence|]. split; auto. eapply sublist_trans; eauto.
Qed.

Lemma holding_nil P : holding P (in_order []).
Proof. intros t e H. rewrite in_order_nil in H. injection H as <-. apply holds_refl. Qed.

Lemma holding_cons P f l : holding P f -> holding P (in_order l) -> holding P (in_order (f :: l)).
Proof.
  intros H H' t e E. apply in_order_ok in E as (m & A & B). eapply holds_trans; [apply (H t m A)|apply (H' m e B)].
Qed.

Lemma holding_when P b f : (b = true -> holding P f) -> holding P (when b f).
Proof. intros H t e E. unfold when in E. destruct b; [exact (H eq_refl t e E)|]. injection E as <-. apply holds_refl. Qed.

Lemma holding_passes {A} P (f : A -> tree -> res tree) l : (forall x, In x l -> holding P (f x)) -> holding P (passes f l).
Proof.
  induction l as [|x l IH]; intros H t e E.
  - injection E as <-. apply holds_refl.
  - rewrite passes_cons in E. destruct (f x t) as [m|] eqn:E1; [|discriminate].
    eapply holds_trans; [exact (H x (or_introl eq_refl) t m E1)|exact (IH (fun y Hy => H y (or_intror Hy)) m e E)].
Qed.

Lemma holding_edit P f : (forall b y, h_id (f b y) = tid y) ->
  (forall b y, P (head y) = false -> P (f b y) = false) -> holding P (always (edit f [])).
Proof. intros K H t e E. injection E as <-. apply holds_edit; auto. Qed.

Lemma holding_edit_where P p g : keeps_id g -> (forall h, P h = false -> P (g h) = false) -> holding P (always (edit_where p g)).
Proof.
  intros K H. apply holding_edit.
  - intros b y. destruct (p b y); auto. apply K.
  - intros b y. destruct (p b y); auto.
Qed.

Lemma holding_rename P old new : (forall h, h_kind h = KElem -> h_tag h = old -> P h = false -> P (set_tag new h) = false) ->
  holding P (rename old new).
Proof.
  intro H. apply holding_edit.
  - intros b y. destruct (any_inside [old] b y); reflexivity.
  - intros b y. destruct (any_inside [old] b y) eqn:E; auto. apply any_inside_one in E as [T K]. auto.
Qed.

(** Only the top node changes. *)
Lemma holds_top P h h' ks : h_id h' = h_id h -> (P h = false -> P h' = false) -> holds P (Node h ks) (Node h' ks).
Proof.
  intros K N anc b y A I F FA S.
  assert (F0 : P h = false) by (apply (F (Node h ks)); apply (visits_top _ anc b y I)).
  assert (F2 : freel P (Node h' ks :: A)) by (intros z [<-|Hz]; auto; exact (N F0)).
  assert (T : tid (Node h ks) = tid (Node h' ks)) by (symmetry; exact K).
  assert (S2 : sublist (plabels (Node h ks :: anc)) (plabels (Node h' ks :: A))) by (apply plabels_sub; auto).
  destruct I as [E|I].
  - injection E as <- <-. exists A, (Node h' ks). split; [apply visits_self|]. auto.
  - apply in_flat_map in I as (k & Hk & I).
    destruct (holds_refl P k _ b y (Node h' ks :: A) I F F2 S2) as (b' & y' & I' & R).
    exists b', y'. split; auto. right. apply in_flat_map. exists k. auto.
Qed.

Lemma holding_on_root P f : keeps_id f -> (forall h, P h = false -> P (f h) = false) -> holding P (always (on_root f)).
Proof. intros K H t e E. injection E as <-. destruct t as [h ks]. apply holds_top; auto. Qed.

Lemma holding_rewrite P p G : (forall anc k e, p anc k = true -> G k = Ok e -> P (head k) = false -> holds P k e) ->
  holding P (rewrite_all p G).
Proof.
  intros H t e E. unfold rewrite_all in E. destruct (first_err _ _); [discriminate|]. injection E as <-.
  apply holds_subst. intros q b0 k l E _ N. destruct (p (q :: b0) k) eqn:Pk; [|discriminate]. destruct (G k) as [e|] eqn:Gk; [|discriminate].
  injection E as <-. exists e. split; auto. eapply H; eauto.
Qed.

Lemma holding_dropped P p G : (forall anc k, p anc k = true -> P (head k) = true) -> holding P (rewrite_all p G).
Proof.
  intros H. apply holding_rewrite. intros anc k e Pk _ N. apply H in Pk. congruence.
Qed.

Lemma holds_element P q k : P (head (element q [])) = false -> holds P k (element q [k]).
Proof.
  intros N anc b y A I F FA S.
  assert (F2 : freel P (element q [k] :: A)) by (intros z [<-|Hz]; auto).
  assert (S2 : sublist (plabels anc) (plabels (element q [k] :: A))) by (rewrite plabels_new by reflexivity; auto).
  destruct (holds_refl P k anc b y (element q [k] :: A) I F F2 S2) as (b' & y' & I' & R).
  exists b', y'. split; auto. right. simpl. rewrite app_nil_r. auto.
Qed.

Lemma holding_wrap P p w : P (head (element w [])) = false -> holding P (rewrite_all p (wrap w)).
Proof. intro N. apply holding_rewrite. intros anc k e _ E _. injection E as <-. apply holds_element; auto. Qed.

Lemma holding_wrap_renamed P p w q :
  (forall anc k, p anc k = true -> P (head k) = false -> P (set_tag q (head k)) = false) ->
  P (head (element w [])) = false -> holding P (rewrite_all p (wrap_renamed w q)).
Proof.
  intros El N. apply holding_rewrite. intros anc k e Pk E N'. injection E as <-.
  eapply holds_trans; [|apply holds_element; auto]. destruct k as [h ks]. unfold renamed_to. cbn [head kids].
  apply holds_top; auto. intros _. exact (El anc (Node h ks) Pk N').
Qed.

Lemma holding_unwrap P a b c : (forall k, named a k = true -> P (head k) = true) -> holding P (always (unwrap_pass a b c)).
Proof.
  intros Q t e E. injection E as <-. apply holds_subst.
  intros q b0 k l E _ N. exfalso. destruct (inside (q :: b0) && named a k) eqn:Pk; [|discriminate].
  apply andb_true_iff in Pk as [_ Pk]. apply Q in Pk. congruence.
Qed.

Lemma holding_prune P p : (forall q b k, p (q :: b) k = true -> P (head q) = true \/ P (head k) = true) ->
  forall t, holds P t (prune p t).
Proof.
  intros H t. apply holds_subst. intros q b0 k l E N N'. exfalso. destruct (p (q :: b0) k) eqn:Pk; [|discriminate].
  destruct (H _ _ _ Pk); congruence.
Qed.

Lemma holding_optional P p : (forall q b k, p (q :: b) k = true -> P (head k) = true) -> holding P (always (optional_pass p)).
Proof.
  intros H t e E. injection E as <-. apply holding_prune. intros q b k Pk. apply andb_true_iff in Pk as [Pk _]. right. eauto.
Qed.

Lemma holding_ns P drop m : (forall y anc, moves m y = true -> P (head y) = false -> P (rebuilt drop m anc y) = false) ->
  holding P (namespaces_pass drop m).
Proof.
  intros H t e E. apply namespaces_ok in E as ->. generalize (@nil tree) at 1. tree_induction t. intros anc0 anc b y A I Fr FA S.
  assert (F0 : P h = false) by (apply (Fr (Node h ks)); apply (visits_top _ anc b y I)).
  assert (F1 : P (head (ns_pass drop m anc0 (Node h ks))) = false).
  { cbn [ns_pass head]. destruct (moves m (Node h ks)) eqn:M; [|exact F0]. exact (H _ anc0 M F0). }
  assert (F2 : freel P (ns_pass drop m anc0 (Node h ks) :: A)) by (intros z [<-|Hz]; auto).
  assert (T : tid (Node h ks) = tid (ns_pass drop m anc0 (Node h ks))).
  { cbn [ns_pass]. destruct (moves m (Node h ks)); reflexivity. }
  assert (S2 : sublist (plabels (Node h ks :: anc)) (plabels (ns_pass drop m anc0 (Node h ks) :: A))) by (apply plabels_sub; auto).
  destruct I as [E|I].
  - injection E as <- <-. exists A, (ns_pass drop m anc0 (Node h ks)). split; [apply visits_self|]. auto.
  - apply in_flat_map in I as (k & Hk & I). cbn [ns_pass visits].
    destruct (is_elem k) eqn:El.
    + destruct (IH k Hk (Node h ks :: anc0) (Node h ks :: anc) b y (ns_pass drop m anc0 (Node h ks) :: A) I Fr F2 S2) as (b' & y' & I' & R).
      exists b', y'. split; auto. right. rewrite flat_map_map. apply in_flat_map. exists k. split; auto. rewrite El. exact I'.
    + destruct (holds_refl P k _ b y (ns_pass drop m anc0 (Node h ks) :: A) I Fr F2 S2) as (b' & y' & I' & R).
      exists b', y'. split; auto. right. rewrite flat_map_map. apply in_flat_map. exists k. split; auto. rewrite El. exact I'.
Qed.

(** ** Tests of the name and the xsi:type only *)

Definition nominal (P : hdr -> bool) : Prop := forall h h', h_tag h' = h_tag h -> h_kind h' = h_kind h ->
  attr_get TAG_XSI_TYPE (h_attr h') = attr_get TAG_XSI_TYPE (h_attr h) -> P h' = P h.

Lemma nominal_one qs : nominal (one_of qs).
Proof. intros h h' T K _. unfold one_of, named_in, named. cbn [head]. rewrite T, K. reflexivity. Qed.

Lemma nominal_generic : nominal generic_mechanism.
Proof. intros h h' _ _ E. unfold generic_mechanism. rewrite E. reflexivity. Qed.

Lemma nominal_or P Q : nominal P -> nominal Q -> nominal (fun h => P h || Q h).
Proof. intros H H' h h' T K E. rewrite (H h h'), (H' h h'); auto. Qed.

Lemma nominal_and c P : nominal P -> nominal (fun h => c && P h).
Proof. intros H h h' T K E. rewrite (H h h'); auto. Qed.

Lemma nominal_set P k v h : nominal P -> k <> TAG_XSI_TYPE -> P (hset_attr k v h) = P h.
Proof. intros N K. apply N; auto. apply (attr_of_set TAG_XSI_TYPE k v h). congruence. Qed.

Lemma nominal_del P k h : nominal P -> k <> TAG_XSI_TYPE -> P (hdel_attr k h) = P h.
Proof. intros N K. apply N; auto. apply (attr_of_del TAG_XSI_TYPE k h). congruence. Qed.

Lemma nominal_convert P h : nominal P -> P (convert_text h) = P h.
Proof. intro N. apply N; unfold convert_text; destruct (h_text h); auto; destruct (String.eqb s ""); auto. Qed.

Lemma nominal_repeat P n h : nominal P -> P (repeat_edit n h) = P h.
Proof. intro N. induction n; auto. cbn [repeat_edit]. rewrite nominal_convert; auto. Qed.

Lemma nominal_stamp_stix P i w h : nominal P -> P (stamp_stix i w h) = P h.
Proof. intro N. apply nominal_set; auto. discriminate. Qed.

Lemma nominal_stamp_2_0_1 P h : nominal P -> P (stamp_cybox_2_0_1 h) = P h.
Proof. intro N. unfold stamp_cybox_2_0_1. rewrite !nominal_set; auto; discriminate. Qed.

Lemma nominal_stamp_2_1 P h : nominal P -> P (stamp_cybox_2_1 h) = P h.
Proof. intro N. unfold stamp_cybox_2_1. rewrite nominal_del, !nominal_set; auto; discriminate. Qed.

Lemma holding_loc P drop m loc : nominal P -> holding P (always (schemaloc_pass drop m loc)).
Proof.
  intro N. apply holding_on_root; [apply loc_keeps_id|]. intros h H. destruct (attr_get _ _); auto.
  rewrite nominal_set; auto. discriminate.
Qed.

Lemma holding_lists P obj prop : nominal P -> holding P (always (lists_pass obj prop)).
Proof.
  intro N. apply holding_edit.
  - intros b y. destruct (is_elem y); auto. apply repeat_keeps.
  - intros b y. destruct (is_elem y); auto. rewrite nominal_repeat; auto.
Qed.

Lemma holding_vocab P v : (forall b y h, P (head y) = false -> upgraded v (b, y) = Ok h -> P h = false) -> holding P (vocab_pass v).
Proof.
  intros H t e E. unfold vocab_pass in E. destruct (first_err type_of _); [discriminate|].
  destruct (first_err (upgraded v) _); [discriminate|]. injection E as <-.
  refine (holding_edit P _ _ _ t _ eq_refl).
  - intros b y. destruct (outdated v (b, y)) eqn:O; auto.
    destruct (upgraded v (b, y)) as [h|] eqn:U; auto. exact (upgraded_keeps v (b, y) h O U).
  - intros b y Py. destruct (outdated v (b, y)); auto. destruct (upgraded v (b, y)) as [h'|] eqn:U; eauto.
Qed.

Lemma upgraded_shape v b y h : upgraded v (b, y) = Ok h -> exists alias name,
  attr_get TAG_XSI_TYPE (h_attr (head y)) <> None /\
  split_char ":" (match attr_get TAG_XSI_TYPE (h_attr (head y)) with Some s => s | None => "" end) = [alias; name] /\
  upgraded_with v alias (head y) = Ok h.
Proof.
  unfold upgraded. intro U. destruct (type_of (b, y)) as [[[a n] ns]|] eqn:T; [|discriminate]. cbn [rbind fst snd] in U.
  unfold type_of in T. cbn [snd fst] in T. destruct (attr_get TAG_XSI_TYPE _) as [s|]; [|discriminate].
  destruct (split_char ":" s) as [|a' [|n' [|]]] eqn:Sp; try discriminate. destruct (env_get _ _); [|discriminate].
  injection T as -> -> ->. exists a, n. split; [discriminate|]. auto.
Qed.

Lemma upgraded_type v alias h h' : upgraded_with v alias h = Ok h' ->
  attr_get TAG_XSI_TYPE (h_attr h') = Some (alias ++ ":" ++ v_new_type v).
Proof.
  unfold upgraded_with. intro E. destruct (set_if_present _ _ h _) as [h1|] eqn:E1 in E; [|discriminate]. cbn [rbind] in E.
  destruct (set_if_present _ _ h h1) as [h2|] eqn:E2; [|discriminate]. cbn [rbind] in E. injection E as <-.
  assert (A : attr_of TAG_XSI_TYPE h2 = Some (alias ++ ":" ++ v_new_type v)).
  { rewrite (attr_of_set_if _ _ _ _ _ _ E2), (attr_of_set_if _ _ _ _ _ _ E1) by discriminate. apply attr_of_set_same. }
  destruct (h_text h) as [s|]; [destruct (dict_get s (v_terms v))|]; exact A.
Qed.

Lemma upgraded_one qs v b y h : one_of qs (head y) = false -> upgraded v (b, y) = Ok h -> one_of qs h = false.
Proof.
  intros F U. destruct (upgraded_shape _ _ _ _ U) as (a & n & _ & _ & W). apply upgraded_with_same in W as (T & K & _).
  revert F. unfold one_of, named_in, named. cbn [head]. rewrite T, K. auto.
Qed.

Lemma split_char_part c s w : In w (split_char c s) -> split_char c w = [w].
Proof.
  revert w. induction s as [|a s IH]; simpl; intros w H.
  - destruct H as [<-|[]]. reflexivity.
  - destruct (Ascii.eqb a c) eqn:E.
    + destruct H as [<-|H]; [reflexivity|auto].
    + destruct (split_char c s) as [|u us] eqn:S.
      * destruct H as [<-|[]]. simpl. rewrite E. reflexivity.
      * destruct H as [<-|H]; [|apply IH; right; auto]. simpl. rewrite E, (IH u (or_introl eq_refl)). reflexivity.
Qed.

Lemma split_char_app c a b : split_char c a = [a] -> split_char c (a ++ String c b) = a :: split_char c b.
Proof.
  induction a as [|x a IH]; simpl; intro H.
  - rewrite Ascii.eqb_refl. reflexivity.
  - destruct (Ascii.eqb x c) eqn:E; [discriminate|].
    destruct (split_char c a) as [|u us] eqn:S; [injection H as <-; discriminate S|].
    injection H as <- ->. rewrite (IH eq_refl). reflexivity.
Qed.

Lemma upgraded_generic v b y h : split_char ":" (v_new_type v) = [v_new_type v] ->
  v_new_type v <> "GenericTestMechanismType" -> upgraded v (b, y) = Ok h -> generic_mechanism h = false.
Proof.
  intros Sp N U. destruct (upgraded_shape _ _ _ _ U) as (a & n & _ & S & W). apply upgraded_type in W.
  assert (Sa : split_char ":" a = [a]) by (eapply split_char_part; rewrite S; left; reflexivity).
  unfold generic_mechanism. rewrite W. change (":" ++ v_new_type v)%string with (String ":" (v_new_type v)).
  rewrite split_char_app, Sp by exact Sa.
  apply String.eqb_neq. exact N.
Qed.

(** ** Where the labelled nodes of the result are *)

Definition nests (t e : tree) : Prop :=
  forall anc A, sublist (plabels A) (plabels anc) -> forall b' y', In (b', y') (visits A e) -> tid y' <> 0 ->
  exists b y, In (b, y) (visits anc t) /\ tid y = tid y' /\ sublist (plabels b') (plabels b).

Definition nesting (f : tree -> res tree) : Prop := forall t e, f t = Ok e -> nests t e.

Lemma nests_kids t h' ks' : tid t = h_id h' \/ h_id h' = 0 -> 
  (forall k', In k' ks' -> exists k, In k (kids t) /\ nests k k') -> nests t (Node h' ks').
Proof.
  intros T H anc A S b' y' [E|I] N.
  - injection E as <- <-. destruct T as [T|T]; [|contradiction].
    exists anc, t. split; [destruct t; apply visits_self|]. auto.
  - apply in_flat_map in I as (k' & Hk' & I). destruct (H k' Hk') as (k & Hk & Hn).
    destruct (Hn (t :: anc) (Node h' ks' :: A)) with (b' := b') (y' := y') as (b & y & I' & R); auto.
    + destruct T as [T|T]; [apply plabels_sub; auto|]. rewrite plabels_new by exact T. apply plabels_more. exact S.
    + exists b, y. split; auto. destruct t as [h ks]. right. apply in_flat_map. exists k. auto.
Qed.

Lemma nests_refl t : nests t t.
Proof.
  tree_induction t. apply nests_kids; [left; reflexivity|]. intros k Hk. exists k. split; auto.
Qed.

Lemma nests_trans a b c : nests a b -> nests b c -> nests a c.
Proof.
  intros H H' anc A S b' y' I N. destruct (H' A A (sublist_refl _) b' y' I N) as (b1 & y1 & I1 & E1 & S1).
  destruct (H anc A S b1 y1 I1) as (b2 & y2 & I2 & E2 & S2); [congruence|].
  exists b2, y2. split; auto. split; [congruence|]. eapply sublist_trans; eauto.
Qed.

Lemma nests_edit f t : (forall b y, h_id (f b y) = tid y) -> forall anc0, nests t (edit f anc0 t).
Proof.
  intro K. tree_induction t. intro anc0. cbn [edit]. apply nests_kids; [left; rewrite K; reflexivity|].
  intros k' Hk'. apply in_map_iff in Hk' as (k & <- & Hk). exists k. auto.
Qed.

Lemma nests_subst F t : (forall b k l, F b k = Some l -> forall e, In e l -> nests k e) -> forall anc0, nests t (subst_nodes F anc0 t).
Proof.
  intro H. tree_induction t. intro anc0. cbn [subst_nodes]. apply nests_kids; [left; reflexivity|].
  intros k' Hk'. apply in_flat_map in Hk' as (k & Hk & I). exists k. split; auto.
  destruct (F _ k) as [l|] eqn:E; [eapply H; eauto|]. destruct I as [<-|[]]. auto.
Qed.

Lemma nests_blank t e : (forall x, In x (nodes e) -> tid x = 0) -> nests t e.
Proof.
  intros H anc A S b' y' I N. exfalso. apply N. apply H. rewrite <- (nodes_visits e A). apply in_map_iff. exists (b', y'). auto.
Qed.

Lemma nests_child t k e : In k (kids t) -> nests k e -> nests t e.
Proof.
  intros Hk H anc A S b' y' I N. destruct (H (t :: anc) A (plabels_more _ _ _ S) b' y' I N) as (b & y & I' & R).
  exists b, y. split; auto. destruct t as [h ks]. right. apply in_flat_map. exists k. auto.
Qed.

Lemma nests_element t q ks : (forall k, In k ks -> nests t k) -> nests t (element q ks).
Proof.
  intros H anc A S b' y' [E|I] N; [injection E as <- <-; contradiction N; reflexivity|].
  apply in_flat_map in I as (k & Hk & I). apply (H k Hk anc (element q ks :: A)); auto. 
Qed.

Lemma nests_renamed q t : nests t (renamed_to q t).
Proof. destruct t as [h ks]. apply nests_kids; [left; reflexivity|]. intros k Hk. exists k. split; auto. apply nests_refl. Qed.

Lemma nesting_nil : nesting (in_order []).
Proof. intros t e H. rewrite in_order_nil in H. injection H as <-. apply nests_refl. Qed.

Lemma nesting_cons f l : nesting f -> nesting (in_order l) -> nesting (in_order (f :: l)).
Proof.
  intros H H' t e E. apply in_order_ok in E as (m & A & B). eapply nests_trans; [apply (H t m A)|apply (H' m e B)].
Qed.

Lemma nesting_when b f : nesting f -> nesting (when b f).
Proof. intros H t e E. unfold when in E. destruct b; [exact (H t e E)|]. injection E as <-. apply nests_refl. Qed.

Lemma nesting_passes {A} (f : A -> tree -> res tree) l : (forall x, nesting (f x)) -> nesting (passes f l).
Proof.
  intro H. induction l as [|x l IH]; intros t e E.
  - injection E as <-. apply nests_refl.
  - rewrite passes_cons in E. destruct (f x t) as [m|] eqn:E1; [|discriminate].
    eapply nests_trans; [exact (H x t m E1)|exact (IH m e E)].
Qed.

Lemma nesting_edit_where p g : keeps_id g -> nesting (always (edit_where p g)).
Proof. intros K t e E. injection E as <-. apply nests_edit. intros b y. destruct (p b y); auto. apply K. Qed.

Lemma nesting_rename old new : nesting (rename old new).
Proof. apply nesting_edit_where. intro h. reflexivity. Qed.

Lemma nesting_on_root f : keeps_id f -> nesting (always (on_root f)).
Proof.
  intros K t e E. injection E as <-. destruct t as [h ks]. apply nests_kids; [left; symmetry; apply K|].
  intros k Hk. exists k. split; auto. apply nests_refl.
Qed.

Lemma nesting_loc drop m loc : nesting (always (schemaloc_pass drop m loc)).
Proof. apply nesting_on_root, loc_keeps_id. Qed.

Lemma nesting_lists obj prop : nesting (always (lists_pass obj prop)).
Proof. intros t e E. injection E as <-. apply nests_edit. intros b y. destruct (is_elem y); auto. apply repeat_keeps. Qed.

Lemma nesting_vocab v : nesting (vocab_pass v).
Proof.
  intros t e E. unfold vocab_pass in E. destruct (first_err type_of _); [discriminate|].
  destruct (first_err (upgraded v) _); [discriminate|]. injection E as <-. apply nests_edit.
  intros b y. destruct (outdated v (b, y)) eqn:O; auto.
  destruct (upgraded v (b, y)) as [h|] eqn:U; auto. exact (upgraded_keeps v (b, y) h O U).
Qed.

Lemma nests_prune p t : nests t (prune p t).
Proof. apply nests_subst. intros b k l E e I. destruct (p b k); [injection E as <-; destruct I|discriminate]. Qed.

Lemma nesting_optional p : nesting (always (optional_pass p)).
Proof. intros t e E. injection E as <-. apply nests_prune. Qed.

Lemma nesting_optional_in_type name ns : nesting (optional_in_type name ns).
Proof.
  intros t e E. unfold optional_in_type in E. destruct (first_err _ _); [discriminate|]. injection E as <-. apply nests_prune.
Qed.

Lemma nesting_rewrite p G : nesting G -> nesting (rewrite_all p G).
Proof.
  intros H t e E. unfold rewrite_all in E. destruct (first_err _ _); [discriminate|]. injection E as <-.
  apply nests_subst. intros b0 k l E e I. destruct (p b0 k); [|discriminate]. destruct (G k) as [e'|] eqn:Gk; [|discriminate].
  injection E as <-. destruct I as [<-|[]]. apply (H k _ Gk).
Qed.

Lemma nesting_child_value q : nesting (value_of_child q).
Proof.
  intros t e E. unfold value_of_child in E. destruct (filter _ _); [discriminate|]. injection E as <-. apply nests_blank.
  intros x [<-|[]]. reflexivity.
Qed.

Lemma nesting_as_string : nesting as_string.
Proof. intros t e E. injection E as <-. apply nests_blank. intros x [<-|[]]. reflexivity. Qed.

Lemma nodes_erase t x : In x (nodes (erase t)) -> tid x = 0.
Proof.
  revert x. tree_induction t. intros x [<-|I]; [reflexivity|]. cbn [kids erase] in I. 
  apply in_flat_map in I as (k' & Hk' & I). apply in_map_iff in Hk' as (k & <- & Hk). eauto.
Qed.

Lemma nesting_source o b : nesting (structured_source o b).
Proof.
  intros t e E. unfold structured_source in E. destruct (parse_source _ _ _); [|discriminate]. injection E as <-.
  apply nests_blank. apply nodes_erase.
Qed.

Lemma nesting_wrap w : nesting (wrap w).
Proof. intros t e E. injection E as <-. apply nests_element. intros k [<-|[]]. apply nests_refl. Qed.

Lemma nesting_wrap_renamed w q : nesting (wrap_renamed w q).
Proof. intros t e E. injection E as <-. apply nests_element. intros k [<-|[]]. apply nests_renamed. Qed.

Lemma nesting_contributing ns : nesting (contributing_sources ns).
Proof.
  intros t e E. unfold contributing_sources in E. destruct (forallb _ _); [|discriminate]. injection E as <-.
  apply nests_element. intros x Hx. apply in_map_iff in Hx as (k & <- & Hk). apply nests_element.
  intros y [<-|[]]. apply (nests_child t k _ Hk). apply nests_renamed.
Qed.

Lemma nesting_unwrap a b c : nesting (always (unwrap_pass a b c)).
Proof.
  intros t e E. injection E as <-. apply nests_subst. intros b0 k l E e I. destruct (_ && _); [|discriminate].
  destruct (filter (named b) (kids k)) as [|x xs] eqn:Fl; [discriminate|]. injection E as <-. destruct I as [<-|[]].
  apply (nests_child k x); [|apply nests_renamed].
  assert (I : In x (filter (named b) (kids k))) by (rewrite Fl; left; auto). apply filter_In in I as [I _]. exact I.
Qed.

Lemma nesting_ns drop m : nesting (namespaces_pass drop m).
Proof.
  intros t e E. apply namespaces_ok in E as ->. generalize (@nil tree). tree_induction t. intro anc. cbn [ns_pass].
  apply nests_kids; [left; destruct (moves m (Node h ks)); reflexivity|].
  intros k' Hk'. apply in_map_iff in Hk' as (k & <- & Hk). exists k. split; auto.
  destruct (is_elem k); [auto|apply nests_refl].
Qed.

Ltac nestings :=
  repeat first
    [ apply nesting_nil | apply nesting_cons | apply nesting_when | apply nesting_passes; intro | apply nesting_loc
    | apply nesting_rename | apply nesting_lists | apply nesting_vocab | apply nesting_unwrap | apply nesting_ns
    | apply nesting_optional | apply nesting_optional_in_type | apply nesting_rewrite | apply nesting_child_value
    | apply nesting_as_string | apply nesting_wrap | apply nesting_wrap_renamed | apply nesting_contributing
    | apply nesting_source
    | apply nesting_on_root; let h := fresh "h" in intro h; destruct h; reflexivity
    | apply nesting_edit_where; let h := fresh "h" in intro h; destruct h; reflexivity ].

Lemma stix_step_nesting o opts v f : stix_step o opts v = Some f -> nesting f.
Proof.
  intro H. unfold stix_step in H. by_version H.
  - unfold stix_1_0_step. nestings.
  - unfold stix_1_0_1_step. nestings.
  - unfold stix_1_1_step. nestings.
  - unfold stix_1_1_1_step. nestings.
  - unfold stix_1_2_step. nestings.
Qed.

Lemma cybox_step_nesting opts v f : cybox_step opts v = Some f -> nesting f.
Proof.
  intro H. unfold cybox_step in H. by_version H.
  - unfold cybox_2_0_step. nestings.
  - unfold cybox_2_0_1_step. nestings.
Qed.

Lemma sublist_length {A} (a b : list A) : sublist a b -> length a <= length b.
Proof. induction 1; simpl; lia. Qed.

Lemma sublist_same {A} (a b : list A) : sublist a b -> length b <= length a -> a = b.
Proof.
  induction 1; simpl; intro L.
  - destruct l; auto. simpl in L. lia.
  - f_equal. apply IHsublist. lia.
  - apply sublist_length in H. lia.
Qed.

Lemma sublist_antisym {A} (a b : list A) : sublist a b -> sublist b a -> a = b.
Proof. intros H H'. apply sublist_same; auto. apply sublist_length; auto. Qed.

Lemma holds_carried P t e : sublist (labels e) (labels (labelled t)) -> holds P (labelled t) e -> nests (labelled t) e ->
  carried P (labelled t) e.
Proof.
  intros L H N. split; auto. intros anc x I F.
  assert (Z : forall y, In y (nodes (labelled t)) -> tid y <> 0).
  { intros y Hy. assert (Iy : In (tid y) (ids (labelled t))) by (apply nodes_ids; eauto).
    unfold labelled, numbered in Iy. rewrite renum_ids in Iy. apply in_seq in Iy. lia. }
  assert (Zx : tid x <> 0) by (apply Z, nodes_in; eauto).
  destruct (H [] anc x [] I F) as (b' & y' & I' & E & _ & S); [intros z []|constructor|].
  exists b', y'. split; auto. split; auto.
  destruct (N [] [] (sublist_refl _) b' y' I') as (b & y & I2 & E2 & S2); [congruence|].
  assert (U : NoDup (ids (labelled t))) by (unfold labelled, numbered; rewrite renum_ids; apply seq_NoDup).
  destruct (visits_unique (labelled t) [] b y anc x U I2 I) as [-> ->]; [congruence|].
  change (plabels b' = map tid anc). rewrite (sublist_antisym _ _ S2 S). unfold plabels.
  assert (Za : forall z, In z anc -> tid z <> 0).
  { intros z Hz. apply Z. apply nodes_in. destruct (visits_anc_ctx (labelled t) [] anc x z I Hz) as [[]|(a1 & a2 & _ & Ha & _)]. eauto. }
  clear -Za. induction anc as [|a anc IH]; auto. simpl. destruct (Nat.eqb_spec (tid a) 0) as [E|_]; simpl.
  - exfalso. apply (Za a); simpl; auto.
  - f_equal. apply IH. intros z Hz. apply Za. right. auto.
Qed.

(** ** The steps *)

Lemma holding_ext P Q f : (forall h, P h = Q h) -> holding P f -> holding Q f.
Proof.
  intros E H t e F anc b y A I Fr FA S.
  assert (X : forall l, freel P l <-> freel Q l).
  { intro l. unfold freel. split; intros HH z Z; specialize (HH z Z); rewrite <- HH; [symmetry|]; apply E. }
  destruct (H t e F anc b y A I) as (b' & y' & I' & T & Fr' & S'); try apply X; auto.
  exists b', y'. split; auto. split; auto. split; auto. apply X. exact Fr'.
Qed.

Lemma one_of_set qs q h : existsb (fun p => qn_eqb q p) qs = false -> one_of qs (set_tag q h) = false.
Proof.
  unfold one_of, named_in, named. cbn [head set_tag h_kind h_tag]. destruct (h_kind h); auto; intros _; induction qs; auto.
Qed.

Lemma one_of_element qs q ks : existsb (fun p => qn_eqb q p) qs = false -> one_of qs (head (element q ks)) = false.
Proof. auto. Qed.

Lemma one_of_named qs q k : existsb (fun p => qn_eqb q p) qs = true -> named q k = true -> one_of qs (head k) = true.
Proof.
  intros E N. apply named_tag in N as [T K]. unfold one_of, named_in, named. cbn [head]. rewrite T, K. exact E.
Qed.

Lemma one_of_incl qs qs' h : incl qs qs' -> one_of qs h = true -> one_of qs' h = true.
Proof.
  unfold one_of, named_in. rewrite !existsb_exists. intros I (q & Q & N). exists q. auto.
Qed.

Lemma child_in_named ps q anc k : child_in ps q anc k = true -> named q k = true.
Proof. unfold child_in. rewrite andb_true_iff. tauto. Qed.

Lemma any_inside_named q anc k : any_inside [q] anc k = true -> named q k = true.
Proof. unfold any_inside, named_in. simpl. rewrite andb_true_iff, orb_false_r. tauto. Qed.

Lemma free_ns qs ns l : forallb (fun q => negb (ostr_eqb (q_ns q) (Some ns))) qs = true ->
  existsb (fun p => qn_eqb (qn ns l) p) qs = false.
Proof.
  intro H. induction qs as [|q qs IH]; auto. simpl in *.
  apply andb_true_iff in H as [H H']. rewrite (IH H'), orb_false_r. unfold qn_eqb, qn. simpl.
  destruct q as [[n|] lo]; simpl in *; auto. rewrite String.eqb_sym. apply negb_true_iff in H. rewrite H. reflexivity.
Qed.

Lemma driver_free qs y anc :
  forallb (fun q => negb (ostr_eqb (q_ns q) (Some "http://cybox.mitre.org/objects#WinDriverObject-3"))) qs = true ->
  moves driver_ns y = true -> one_of qs (rebuilt [] driver_ns anc y) = false.
Proof.
  intros H M. unfold one_of, named_in, named, rebuilt. cbn [head h_kind h_tag].
  unfold moves in M. destruct (q_ns (h_tag (head y))) as [ns|]; [|discriminate]. simpl in M. rewrite orb_false_r in M. apply String.eqb_eq in M. subst ns.
  exact (free_ns qs _ (q_local (h_tag (head y))) H).
Qed.

Ltac nominals := repeat first [ apply nominal_one | apply nominal_generic | apply nominal_or | apply nominal_and ].

Ltac holdings :=
  repeat first
    [ apply holding_nil | apply holding_cons | apply holding_when; intro
    | apply holding_loc; solve [nominals] | apply holding_lists; solve [nominals]
    | apply holding_passes; intros ? ?
    | apply holding_vocab; intros ? ? ? ? ?; eapply upgraded_one; eassumption
    | apply holding_edit_where;
      [ let h := fresh "h" in intro h; destruct h; reflexivity
      | intros ? ?; rewrite ?nominal_stamp_stix, ?nominal_stamp_2_0_1, ?nominal_stamp_2_1 by nominals; assumption ] ].

Lemma cybox_2_0_holding qs p opts : holding (one_of qs) (cybox_2_0_step p opts).
Proof. unfold cybox_2_0_step. holdings. Qed.

Definition has (qs : list qname) (q : qname) : bool := existsb (fun p => qn_eqb q p) qs.

Lemma cybox_2_0_1_holding qs p opts :
  forallb (has qs) cybox_2_0_1_replaced = true ->
  (remove_optionals opts = true -> incl cybox_2_1_optional qs) ->
  forallb (fun q => negb (ostr_eqb (q_ns q) (Some "http://cybox.mitre.org/objects#WinDriverObject-3"))) qs = true ->
  existsb (has qs) [http_name "X_Forwarded_For"; packet_name "Authentication_Data";
                    packet_name "Encapsulating_Security_Payload"; packet_name "Proto_Addr_Size"] = false ->
  holding (one_of qs) (cybox_2_0_1_step p opts).
Proof.
  intros Q R D A. cbn [forallb cybox_2_0_1_replaced] in Q. rewrite !andb_true_iff in Q. destruct Q as (Q1 & Q2 & Q3 & Q4 & _).
  cbn [existsb] in A. rewrite !orb_false_iff in A. destruct A as (A1 & A2 & A3 & A4 & _).
  unfold cybox_2_0_1_step. holdings.
  - apply holding_ns. intros y anc M _. apply driver_free; auto.
  - apply holding_dropped. intros anc k Pk. eapply one_of_named; [exact Q1|]. eapply any_inside_named; eauto.
  - apply holding_dropped. intros anc k Pk. eapply one_of_named; [exact Q2|]. eapply any_inside_named; eauto.
  - apply holding_dropped. intros anc k Pk. eapply one_of_named; [exact Q3|]. eapply any_inside_named; eauto.
  - apply holding_rename. intros h _ _ _. apply one_of_set; auto.
  - apply holding_rename. intros h _ _ _. apply one_of_set; auto.
  - apply holding_rename. intros h _ _ _. apply one_of_set; auto.
  - apply holding_rename. intros h _ _ _. apply one_of_set; auto.
  - apply holding_unwrap. intros k. apply one_of_named. exact Q4.
  - apply holding_optional. intros q b k Pk. apply andb_true_iff in Pk as [_ Pk].
    eapply one_of_incl; [apply R; auto|]. exact Pk.
Qed.

Lemma one_of_app a b h : one_of (a ++ b) h = one_of a h || one_of b h.
Proof. unfold one_of, named_in. apply existsb_app. Qed.

Lemma one_of_nil h : one_of [] h = false.
Proof. reflexivity. Qed.

Lemma one_of_when b l h : one_of (if b : bool then l else []) h = b && one_of l h.
Proof. destruct b; reflexivity. Qed.

Lemma stix_step_holding o opts v f : stix_step o opts v = Some f -> holding (stix_gone opts v) f.
Proof.
  intros H. unfold stix_step in H. by_version H.
  - apply (holding_ext (one_of [])); [reflexivity|]. unfold stix_1_0_step. apply holding_cons; [apply cybox_2_0_holding|]. holdings.
  - apply (holding_ext (one_of ((common "Contributors" :: cybox_2_0_1_replaced) ++
      (if remove_optionals opts then marking "Controlled_Structure" :: marking "Marking_Structure" :: cybox_2_1_optional else [])))).
    { intro h. rewrite one_of_app, one_of_when. unfold stix_gone. simpl (String.eqb _ _). rewrite andb_true_l, andb_false_l, orb_false_r. reflexivity. }
    unfold stix_1_0_1_step. apply holding_cons.
    + apply cybox_2_0_1_holding.
      * rewrite forallb_forall. intros q Hq. unfold has. rewrite existsb_app. apply orb_true_iff. left.
        destruct Hq as [<-|[<-|[<-|[<-|[]]]]]; reflexivity.
      * intros ->. intros q Hq. apply in_or_app. right. right. right. exact Hq.
      * destruct (remove_optionals opts); reflexivity.
      * destruct (remove_optionals opts); reflexivity.
    + holdings.
      * apply holding_dropped. intros anc k Pk. eapply one_of_named; [|eapply any_inside_named; eauto]. reflexivity.
      * apply holding_wrap. apply one_of_element. destruct (remove_optionals opts); reflexivity.
      * match goal with E : remove_optionals opts = true |- _ => rewrite E end.
        apply holding_optional. intros q b k Pk. apply andb_true_iff in Pk as [_ Pk].
        eapply one_of_incl; [|exact Pk]. intros x Hx. apply in_or_app. right. destruct Hx as [<-|[<-|[]]]; simpl; auto.
  - assert (N : nominal (stix_gone opts "1.1")) by (unfold stix_gone; simpl (String.eqb _ _); nominals).
    unfold stix_1_1_step.
    repeat first [ apply holding_cons | apply holding_nil | apply holding_when; intro | apply holding_loc; exact N
                 | apply holding_edit_where; [let h := fresh "h" in intro h; destruct h; reflexivity
                                             |intros ? ?; rewrite nominal_stamp_stix; assumption] ].
    + apply holding_dropped. intros anc k Pk. apply child_in_named in Pk. unfold stix_gone. simpl (String.eqb _ _).
      rewrite andb_true_l, andb_false_l, orb_false_l. apply orb_true_iff. left. eapply one_of_named; [|exact Pk]. reflexivity.
    + apply holding_dropped. intros anc k Pk. apply child_in_named in Pk. unfold stix_gone. simpl (String.eqb _ _).
      rewrite andb_true_l, andb_false_l, orb_false_l. apply orb_true_iff. left. eapply one_of_named; [|exact Pk]. reflexivity.
    + apply holding_wrap_renamed; [|unfold stix_gone; simpl (String.eqb _ _); destruct (remove_optionals opts); reflexivity].
      intros anc k Pk. unfold stix_gone. simpl (String.eqb _ _). rewrite !andb_true_l, !andb_false_l, !orb_false_l, !orb_false_iff.
      intros [_ G]. split; [apply one_of_set; reflexivity|]. exact G.
    + apply holding_vocab. intros b y h. unfold stix_gone. simpl (String.eqb _ _). rewrite !andb_true_l, !andb_false_l, !orb_false_l, !orb_false_iff.
      intros [F _] U. split; [eapply upgraded_one; eauto|]. erewrite upgraded_generic; [apply andb_false_r| | |exact U]; [reflexivity|discriminate].
    + intros t e E. unfold optional_in_type in E. destruct (first_err _ _); [discriminate|]. injection E as <-.
      apply holding_prune. intros q b k Pk. left. apply andb_true_iff in Pk as [Pk _]. apply andb_true_iff in Pk as [Pk _].
      unfold stix_gone. simpl (String.eqb _ _). rewrite !andb_true_l, !andb_false_l, !orb_false_l. apply orb_true_iff. right.
      apply andb_true_iff. split; auto. unfold of_type in Pk. apply andb_true_iff in Pk as [_ Pk]. unfold type_of in Pk. cbn [snd fst] in Pk.
      unfold generic_mechanism. destruct (attr_get TAG_XSI_TYPE (h_attr (head q))) as [s|]; [|discriminate].
      destruct (split_char ":" s) as [|a' [|n' [|]]]; try discriminate. destruct (env_get _ _); [|discriminate].
      apply andb_true_iff in Pk as [Pk _]. exact Pk.
  - apply (holding_ext (one_of [])); [reflexivity|]. unfold stix_1_1_1_step. holdings.
  - apply (holding_ext (one_of [])); [reflexivity|]. unfold stix_1_2_step. holdings.
    + apply holding_ns. reflexivity.
    + apply holding_on_root; [intro h; reflexivity|]. reflexivity.
Qed.

Lemma cybox_step_holding opts v f : cybox_step opts v = Some f -> holding (cybox_gone opts v) f.
Proof.
  intros H. unfold cybox_step in H. by_version H.
  - apply (holding_ext (one_of [])); [reflexivity|]. apply cybox_2_0_holding.
  - apply (holding_ext (one_of (cybox_2_0_1_replaced ++ (if remove_optionals opts then cybox_2_1_optional else [])))).
    { intro h. rewrite one_of_app, one_of_when. unfold cybox_gone. simpl (String.eqb _ _). rewrite andb_true_l. reflexivity. }
    apply cybox_2_0_1_holding.
    + rewrite forallb_forall. intros q Hq. unfold has. rewrite existsb_app. apply orb_true_iff. left.
      destruct Hq as [<-|[<-|[<-|[<-|[]]]]]; reflexivity.
    + intros ->. intros q Hq. apply in_or_app. right. exact Hq.
    + destruct (remove_optionals opts); reflexivity.
    + destruct (remove_optionals opts); reflexivity.
Qed.

Lemma stix_step_carries o opts v f t e : stix_step o opts v = Some f -> f (labelled t) = Ok e ->
  carried (stix_gone opts v) (labelled t) e.
Proof.
  intros H E. apply holds_carried; [eapply stix_step_orderly|eapply stix_step_holding|eapply stix_step_nesting]; eauto.
Qed.

Lemma cybox_step_carries opts v f t e : cybox_step opts v = Some f -> f (labelled t) = Ok e ->
  carried (cybox_gone opts v) (labelled t) e.
Proof.
  intros H E. apply holds_carried; [eapply cybox_step_orderly|eapply cybox_step_holding|eapply cybox_step_nesting]; eauto.
Qed.
