(** * Removal of empty optional elements. *)

From Coq Require Import String Ascii List Bool Arith Lia.
From Verif Require Import Str Xml XPath Utils Base Tables Spec SpecDoc SpecPass SpecStep
  SpecCheck SpecClean SpecUpdate SpecTrace Lib Refine RefineBase RefineTrans RefineLists RefineSteps Relabel Cybox Stix RefineUpdate Natural Updates Reports UpdateFacts Trace SpecField Fields Carried Follow Vocab Worked Marks SpecLocation SpecName Moved.
Import ListNotations.
Local Open Scope string_scope.

Lemma blank_iff x : blank x = true <-> empty_field x.
Proof.
  unfold blank, empty_field. rewrite forallb_forall. split.
  - intros H y Hy El. apply (nodes_in x) in Hy as (b & Hy). specialize (H (b, y) Hy). cbn [snd] in H. rewrite El in H. simpl in H.
    apply andb_true_iff in H as [A B]. destruct (h_attr (head y)); [auto|discriminate].
  - intros H [b y] I. cbn [snd]. destruct (is_elem y) eqn:El; auto. simpl. destruct (H y) as [A B]; auto; [apply nodes_in; eauto|].
    rewrite A, B. reflexivity.
Qed.

(** ** What pruning leaves *)

(** Neither the first node of the path nor one above it (the root aside)
    satisfies [p]. *)
Fixpoint clear (p : list tree -> tree -> bool) (anc : list tree) (l : list tree) : Prop :=
  match l with
  | z :: (_ :: _) as l' => p (l' ++ anc)%list z = false /\ clear p anc l'
  | _ => True
  end.

Lemma clear_snoc p anc T k l : clear p anc ((l ++ [k]) ++ [T])%list <-> clear p (T :: anc) (l ++ [k])%list /\ p (T :: anc) k = false.
Proof.
  induction l as [|z l IH].
  - simpl. tauto.
  - destruct l as [|y l].
    + cbn [app clear] in *. tauto.
    + change (clear p anc (((z :: y :: l) ++ [k]) ++ [T])%list)
        with (p ((((y :: l) ++ [k]) ++ [T]) ++ anc)%list z = false /\ clear p anc (((y :: l) ++ [k]) ++ [T])%list).
      change (clear p (T :: anc) ((z :: y :: l) ++ [k])%list)
        with (p (((y :: l) ++ [k]) ++ T :: anc)%list z = false /\ clear p (T :: anc) ((y :: l) ++ [k])%list).
      rewrite IH. rewrite <- (app_assoc _ [T] anc). cbn [app]. tauto.
Qed.

Lemma visits_last t : forall b x, In (b, x) (visits [] t) -> exists l, x :: b = (l ++ [t])%list.
Proof.
  tree_induction t. intros b x [I|I].
  - injection I as <- <-. exists []. reflexivity.
  - apply in_flat_map in I as (k & Hk & I). rewrite visits_anc in I. apply in_map_iff in I as ([b0 x0] & E & I). injection E as <- <-.
    exists (x0 :: b0). reflexivity.
Qed.

Definition cut (p : list tree -> tree -> bool) : list tree -> tree -> tree :=
  subst_nodes (fun anc t => if p anc t then Some [] else None).


Lemma cut_node p anc h ks : cut p anc (Node h ks)
  = Node h (flat_map (fun k : tree => if p (Node h ks :: anc) k then [] else [cut p (Node h ks :: anc) k]) ks)%list.
Proof. unfold cut. cbn [subst_nodes]. f_equal. apply flat_map_ext_in. intros k _. destruct (p _ k); reflexivity. Qed.

Lemma cut_kids (p : list tree -> tree -> bool) anc h ks z : In z (flat_map nodes (flat_map (fun k => if p (Node h ks :: anc) k then [] else [cut p (Node h ks :: anc) k]) ks))
  <-> exists k, In k ks /\ p (Node h ks :: anc) k = false /\ In z (nodes (cut p (Node h ks :: anc) k)).
Proof.
  rewrite in_flat_map. split.
  - intros (k' & Hk' & J). apply in_flat_map in Hk' as (k & Hk & Hk'). destruct (p _ k) eqn:P; [destruct Hk'|].
    destruct Hk' as [<-|[]]. eauto.
  - intros (k & Hk & P & J). eexists. split; [|exact J]. apply in_flat_map. exists k. split; auto. rewrite P. left. reflexivity.
Qed.

Lemma cut_from p t : forall anc z, In z (nodes (cut p anc t)) -> exists y, In y (nodes t) /\ head y = head z.
Proof.
  tree_induction t. intros anc z. rewrite cut_node. intros [<-|I].
  - exists (Node h ks). split; [apply nodes_self|reflexivity].
  - apply cut_kids in I as (k & Hk & _ & I). destruct (IH k Hk _ _ I) as (y & Hy & E). exists y. split; auto.
    right. apply in_flat_map. exists k. auto.
Qed.

Lemma cut_exact p t : NoDup (ids t) -> forall anc b x, In (b, x) (visits [] t) ->
  ((exists y, In y (nodes (cut p anc t)) /\ head y = head x) <-> clear p anc (x :: b)).
Proof.
  tree_induction t. intros N anc b x I. rewrite cut_node. cbn [ids] in N. inversion N as [|? ? N1 N2]; subst.
  destruct I as [I|I].
  - injection I as <- <-. split; [intros _; exact Logic.I|]. intros _. eexists. split; [apply nodes_self|reflexivity].
  - apply in_flat_map in I as (k & Hk & I). rewrite visits_anc in I. apply in_map_iff in I as ([b0 x0] & E & I). injection E as <- <-.
    destruct (visits_last k b0 x0 I) as (l & L). change (x0 :: b0 ++ [Node h ks])%list with ((x0 :: b0) ++ [Node h ks])%list.
    rewrite L, clear_snoc, <- L.
    assert (Nk : NoDup (ids k)) by (eapply NoDup_flat_map_in; eauto). rewrite <- (IH k Hk Nk (Node h ks :: anc) b0 x0 I).
    assert (Xk : In (tid x0) (ids k)) by (apply nodes_ids; exists x0; split; auto; apply nodes_in; eauto).
    split.
    + intros (y & [<-|J] & E).
      * exfalso. apply N1. apply in_flat_map. exists k. split; auto. cbn [head] in E. unfold tid in Xk. rewrite <- E in Xk. exact Xk.
      * apply cut_kids in J as (k2 & Hk2 & P & J). destruct (cut_from _ _ _ _ J) as (y2 & Hy2 & E2).
        assert (k2 = k); [|subst; split; eauto].
        eapply (NoDup_flat_map_disjoint ids ks k2 k (tid x0)); eauto. apply nodes_ids. exists y2. split; auto. unfold tid. congruence.
    + intros [(y & J & E) P]. exists y. split; auto. right. apply cut_kids. exists k. auto.
Qed.

Lemma prune_exact p t : NoDup (ids t) -> forall anc x, In (anc, x) (visits [] t) ->
  ((exists y, In y (nodes (prune p t)) /\ head y = head x) <-> spared p (x :: anc)).
Proof.
  intros N anc x I. unfold prune. rewrite (cut_exact p t N [] anc x I : (exists y, In y (nodes (subst_nodes _ [] t)) /\ _) <-> _).
  generalize (x :: anc). clear. intro l. induction l as [|z [|y l] IH]; cbn [clear spared] in *; try tauto. rewrite IH, app_nil_r. tauto.
Qed.

(** ** The option *)

Lemma in_order_snoc l f t : in_order (l ++ [f]) t = rbind (in_order l t) f.
Proof. unfold in_order, passes. rewrite fold_left_app. reflexivity. Qed.

Definition removal (v : string) : list tree -> tree -> bool := fun anc x => listed_optional v anc x && blank x.

Lemma cybox_2_0_1_removes p opts t : cybox_2_0_1_step p (removing true opts) t
  = rbind (cybox_2_0_1_step p (removing false opts) t) (fun e => Ok (prune (removal "2.0.1") e)).
Proof.
  unfold cybox_2_0_1_step, removing. cbn [update_vocabularies remove_optionals].
  match goal with |- in_order ?a t = _ => change a with (firstn 12 a ++ [always (optional_pass (any_inside cybox_2_1_optional))])%list end.
  rewrite in_order_snoc.
  match goal with |- context [rbind (in_order ?a t) (fun e => Ok _)] => change a with (firstn 12 a ++ [Ok])%list end.
  rewrite in_order_snoc. cbn [firstn]. destruct (in_order _ t); reflexivity.
Qed.

Lemma stix_1_1_removes o opts t e : stix_1_1_step o (removing true opts) t = Ok e ->
  exists e0, stix_1_1_step o (removing false opts) t = Ok e0 /\ e = prune (removal "1.1") e0.
Proof.
  unfold stix_1_1_step, removing. cbn [update_vocabularies remove_optionals].
  match goal with |- in_order ?a t = _ -> _ => change a with (firstn 7 a ++ [optional_in_type "GenericTestMechanismType"
           "http://stix.mitre.org/extensions/TestMechanism#Generic-1"])%list end.
  match goal with |- _ -> exists e0, in_order ?a t = _ /\ _ => change a with (firstn 7 a ++ [Ok])%list end.
  rewrite !in_order_snoc. cbn [firstn]. destruct (in_order _ t) as [m|]; [|discriminate]. cbn [rbind]. intro H.
  exists m. split; auto. unfold optional_in_type in H. destruct (first_err _ _); [discriminate|]. injection H as <-.
  unfold prune. apply subst_ext. intros [|q anc] x; reflexivity.
Qed.

Lemma cut_nothing (p : list tree -> tree -> bool) t : (forall anc x, p anc x = false) -> forall anc, cut p anc t = t.
Proof.
  intro H. tree_induction t. intro anc. rewrite cut_node. f_equal.
  transitivity (flat_map (fun k : tree => [k]) ks); [|clear; induction ks; simpl; congruence].
  apply flat_map_ext_in. intros k Hk. rewrite H. f_equal. apply IH. exact Hk.
Qed.

Lemma prune_nothing (p : list tree -> tree -> bool) t : (forall anc x, p anc x = false) -> prune p t = t.
Proof. intro H. exact (cut_nothing p t H []). Qed.

Lemma prune_false v t : dict_get v [("2.0.1", tt); ("1.0.1", tt); ("1.1", tt)] = None -> prune (removal v) t = t.
Proof.
  intro H. apply prune_nothing. intros anc x. unfold removal, listed_optional. cbn [dict_get] in *.
  destruct (String.eqb v "2.0.1"); [discriminate|]. destruct (String.eqb v "1.0.1"); [discriminate|]. destruct (String.eqb v "1.1"); [discriminate|]. reflexivity.
Qed.

Lemma single_optional c D f0 f1 new_id force g t oc p : (forall x e, f1 x = Ok e -> exists e0, f0 x = Ok e0 /\ e = prune p e0) ->
  single c D f1 new_id force g t = Ok oc -> exists oc0, single c D f0 new_id force g t = Ok oc0 /\
    new_document oc = prune p (new_document oc0) /\ removed_subtrees oc = removed_subtrees oc0 /\ replaced oc = replaced oc0.
Proof.
  intro H. unfold single. destruct (c t) as [u|x].
  - destruct (f1 (erase t)) as [e|] eqn:E; [|discriminate]. simpl. intro K. injection K as <-. destruct (H _ _ E) as (e0 & -> & ->). cbn [rbind].
    eexists. split; [reflexivity|]. auto.
  - destruct (force && forceable x); [|discriminate]. destruct (D t) as [dt|]; [|discriminate]. cbn [rbind].
    destruct (f1 (erase (cleaned new_id g dt t))) as [e|] eqn:E; [|discriminate]. simpl. intro K. injection K as <-.
    destruct (H _ _ E) as (e0 & -> & ->). cbn [rbind]. eexists. split; [reflexivity|]. auto.
Qed.

Lemma stix_step_removes o opts v f0 f1 x e : v <> "1.0.1" -> stix_step o (removing false opts) v = Some f0 -> stix_step o (removing true opts) v = Some f1 ->
  f1 x = Ok e -> exists e0, f0 x = Ok e0 /\ e = prune (removal v) e0.
Proof.
  intros N H0 H1 E. unfold stix_step in H0, H1. by_version H0; apply some_inj in H1; subst f1; try contradiction;
    try (exists e; split; [exact E|symmetry; apply prune_false; reflexivity]).
  apply stix_1_1_removes. exact E.
Qed.

Lemma cybox_step_removes opts v f0 f1 x e : cybox_step (removing false opts) v = Some f0 -> cybox_step (removing true opts) v = Some f1 ->
  f1 x = Ok e -> exists e0, f0 x = Ok e0 /\ e = prune (removal v) e0.
Proof.
  intros H0 H1 E. unfold cybox_step in H0, H1. by_version H0; apply some_inj in H1; subst f1.
  - exists e; split; [exact E|symmetry; apply prune_false; reflexivity].
  - rewrite cybox_2_0_1_removes in E. destruct (cybox_2_0_1_step _ _ x) as [e0|]; [|discriminate]. injection E as <-. eauto.
Qed.

Lemma stix_optionals o opts v up d force s t r s' : dict_get v (STIX_UPDATERS o) = Some up -> v <> "1.0.1" -> wf_state s -> denotes s d t ->
  updater_update o up d (Some (removing true opts)) force s = (Ok r, s') ->
  exists r0 s0 old, updater_update o up d (Some (removing false opts)) force s = (Ok r0, s0) /\
    document s0 (r_document r0) old /\ document s' (r_document r) (prune (fun anc x => listed_optional v anc x && blank x) old).
Proof.
  intros U N W Dn E. pose proof (stix_step_performed o (Some (removing true opts)) v up d force s t U W Dn) as P1.
  pose proof (stix_step_performed o (Some (removing false opts)) v up d force s t U W Dn) as P0.
  cbn [or_default] in P0, P1.
  destruct (stix_described o (removing true opts) v up U) as (c1 & D1 & f1 & Ec1 & Ed1 & Ef1 & _).
  destruct (stix_described o (removing false opts) v up U) as (c0 & D0 & f0 & Ec0 & Ed0 & Ef0 & _).
  unfold stix_single in P0, P1. rewrite Ec1, Ed1, Ef1 in P1. rewrite Ec0, Ed0, Ef0 in P0.
  assert (c1 = c0) by (apply some_inj; rewrite <- Ec1, <- Ec0; reflexivity).
  assert (D1 = D0) by (apply some_inj; rewrite <- Ed1, <- Ed0; reflexivity). subst c1 D1. cbn [removing new_id_func] in P0, P1.
  destruct (single c0 D0 f1 _ force (gen s) (numbered (next s) t)) as [oc|x] eqn:S1 in P1; [|destruct P1 as (s2 & P1); rewrite E in P1; discriminate].
  destruct P1 as (r2 & s2 & P1 & _ & Doc & _). rewrite E in P1. injection P1 as <- <-.
  destruct (single_optional c0 D0 f0 f1 (new_id_func opts) force (gen s) _ oc (removal v) (fun x e => stix_step_removes o opts v f0 f1 x e N Ef0 Ef1) S1)
    as (oc0 & S0 & En & _).
  rewrite S0 in P0. destruct P0 as (r0 & s0 & P0 & _ & Doc0 & _). exists r0, s0, (new_document oc0). split; auto. split; auto.
  rewrite En in Doc. exact Doc.
Qed.

Lemma cybox_optionals o opts v up d force s t r s' : dict_get v (CYBOX_UPDATERS o) = Some up -> wf_state s -> denotes s d t ->
  updater_update o up d (Some (removing true opts)) force s = (Ok r, s') ->
  exists r0 s0 old, updater_update o up d (Some (removing false opts)) force s = (Ok r0, s0) /\
    document s0 (r_document r0) old /\ document s' (r_document r) (prune (fun anc x => listed_optional v anc x && blank x) old).
Proof.
  intros U W Dn E. pose proof (cybox_step_performed o (Some (removing true opts)) v up d force s t U W Dn) as P1.
  pose proof (cybox_step_performed o (Some (removing false opts)) v up d force s t U W Dn) as P0.
  cbn [or_default] in P0, P1.
  destruct (cybox_described o (removing true opts) v up U) as (c1 & D1 & f1 & Ec1 & Ed1 & Ef1 & _).
  destruct (cybox_described o (removing false opts) v up U) as (c0 & D0 & f0 & Ec0 & Ed0 & Ef0 & _).
  unfold cybox_single in P0, P1. rewrite Ec1, Ed1, Ef1 in P1. rewrite Ec0, Ed0, Ef0 in P0.
  assert (c1 = c0) by (apply some_inj; rewrite <- Ec1, <- Ec0; reflexivity).
  assert (D1 = D0) by (apply some_inj; rewrite <- Ed1, <- Ed0; reflexivity). subst c1 D1. cbn [removing new_id_func] in P0, P1.
  destruct (single c0 D0 f1 _ force (gen s) (numbered (next s) t)) as [oc|x] eqn:S1 in P1; [|destruct P1 as (s2 & P1); rewrite E in P1; discriminate].
  destruct P1 as (r2 & s2 & P1 & _ & Doc & _). rewrite E in P1. injection P1 as <- <-.
  destruct (single_optional c0 D0 f0 f1 (new_id_func opts) force (gen s) _ oc (removal v) (fun x e => cybox_step_removes opts v f0 f1 x e Ef0 Ef1) S1)
    as (oc0 & S0 & En & _).
  rewrite S0 in P0. destruct P0 as (r0 & s0 & P0 & _ & Doc0 & _). exists r0, s0, (new_document oc0). split; auto. split; auto.
  rewrite En in Doc. exact Doc.
Qed.

Lemma in_order_cons f l t : in_order (f :: l) t = rbind (f t) (in_order l).
Proof.
  unfold in_order, passes. cbn [fold_left rbind]. destruct (f t) as [e|x]; cbn [rbind]; auto.
  induction l as [|g l IH]; cbn [fold_left rbind]; auto.
Qed.

Lemma stix_1_0_1_parts b opts t : stix_1_0_1_step (removing b opts) t
  = rbind (cybox_2_0_1_step (any_inside cybox_in_stix_1_0_1) (removing false opts) t) (fun c =>
    rbind (stix_1_0_1_rest opts (if b then prune (removal "2.0.1") c else c)) (fun e =>
    Ok (if b then prune (removal "1.0.1") e else e))).
Proof.
  unfold stix_1_0_1_step. rewrite in_order_cons.
  transitivity (rbind (rbind (cybox_2_0_1_step (any_inside cybox_in_stix_1_0_1) (removing false opts) t)
                  (fun c => Ok (if b then prune (removal "2.0.1") c else c))) (fun c =>
    rbind (stix_1_0_1_rest opts c) (fun e => Ok (if b then prune (removal "1.0.1") e else e)))).
  2:{ destruct (cybox_2_0_1_step _ _ t); reflexivity. }
  replace (rbind (cybox_2_0_1_step (any_inside cybox_in_stix_1_0_1) (removing false opts) t)
                  (fun c => Ok (if b then prune (removal "2.0.1") c else c)))
    with (cybox_2_0_1_step (any_inside cybox_in_stix_1_0_1) (removing b opts) t).
  2:{ destruct b; [apply cybox_2_0_1_removes|]. destruct (cybox_2_0_1_step _ _ t); reflexivity. }
  destruct (cybox_2_0_1_step _ (removing b opts) t) as [c|]; [|reflexivity]. cbn [rbind].
  unfold stix_1_0_1_rest, removing. cbn [update_vocabularies remove_optionals]. destruct b; cbn [when].
  - match goal with |- in_order ?a c = _ => change a with (firstn 5 a ++ [always (optional_pass (any_inside [marking "Controlled_Structure"; marking "Marking_Structure"]))])%list end.
    rewrite in_order_snoc. cbn [firstn]. destruct (in_order _ c); reflexivity.
  - match goal with |- in_order ?a c = _ => change a with (firstn 5 a ++ [Ok])%list end.
    rewrite in_order_snoc. cbn [firstn]. destruct (in_order _ c); reflexivity.
Qed.

Lemma stix_1_0_1_optionals o b opts up d force s t r s' : dict_get "1.0.1" (STIX_UPDATERS o) = Some up -> wf_state s -> denotes s d t ->
  updater_update o up d (Some (removing b opts)) force s = (Ok r, s') ->
  exists t1 c e, worked_on o up d (Some (removing b opts)) force s t t1 /\
    cybox_2_0_1_step (any_inside cybox_in_stix_1_0_1) (removing false opts) (labelled t1) = Ok c /\
    stix_1_0_1_rest opts (if b then prune (removal "2.0.1") c else c) = Ok e /\
    document s' (r_document r) (erase (if b then prune (removal "1.0.1") e else e)).
Proof.
  intros U W D E. destruct (stix_step_worked o (Some (removing b opts)) "1.0.1" up _ d force s t r s' U eq_refl W D E) as (t1 & e & Wo & _ & F & Doc).
  change (stix_1_0_1_step (removing b opts) (labelled t1) = Ok e) in F. rewrite stix_1_0_1_parts in F.
  destruct (cybox_2_0_1_step _ _ (labelled t1)) as [c|] eqn:C; [|discriminate]. cbn [rbind] in F.
  destruct (stix_1_0_1_rest _ _) as [e1|] eqn:R; [|discriminate]. cbn [rbind] in F. injection F as <-.
  exists t1, c, e1. auto.
Qed.

(** ** Text *)

Lemma piece_blank s : blank_text s = true -> piece s = [].
Proof. destruct s as [s|]; simpl; auto. intros ->. reflexivity. Qed.

Lemma flat_map_nil_in {A B} (f : A -> list B) l : (forall x, In x l -> f x = []) -> flat_map f l = [].
Proof. induction l as [|x l IH]; intro H; auto. cbn [flat_map]. rewrite (H x), IH; auto with datatypes. Qed.

Lemma pieces_blank x : blank x = true -> nothing_follows x -> (pieces x ++ piece (h_tail (head x)))%list = [].
Proof.
  intros B N. rewrite (piece_blank _ (N x (nodes_self x))), app_nil_r. apply blank_iff in B. revert B N. tree_induction x. intros B N. rewrite pieces_node.
  assert (H : (if is_elem (Node h ks) then piece (h_text h) else []) = []).
  { destruct (is_elem (Node h ks)) eqn:El; [|reflexivity]. apply piece_blank. apply (B (Node h ks)); auto. left. reflexivity. }
  rewrite H. cbn [app]. apply flat_map_nil_in. intros k Hk. rewrite (IH k Hk).
  - apply piece_blank, N. right. apply in_flat_map. exists k. split; auto. apply nodes_self.
  - intros y Hy. apply B. right. apply in_flat_map. eauto.
  - intros y Hy. apply N. right. apply in_flat_map. eauto.
Qed.

Lemma head_cut (p : list tree -> tree -> bool) anc t : head (cut p anc t) = head t.
Proof. destruct t. reflexivity. Qed.

Lemma pieces_cut (p : list tree -> tree -> bool) t : forall anc,
  (forall b x, In (b, x) (flat_map (visits (t :: anc)) (kids t)) -> p b x = true -> blank x = true /\ nothing_follows x) ->
  pieces (cut p anc t) = pieces t.
Proof.
  tree_induction t. intros anc H. rewrite cut_node, !pieces_node. unfold is_elem. cbn [head]. f_equal. cbn [kids] in H.
  rewrite flat_map_flat_map. apply flat_map_ext_in. intros k Hk.
  assert (Self : In (Node h ks :: anc, k) (flat_map (visits (Node h ks :: anc)) ks)) by (apply in_flat_map; exists k; split; auto; destruct k; left; reflexivity).
  destruct (p (Node h ks :: anc) k) eqn:P.
  - destruct (H _ _ Self P) as [B N]. symmetry. exact (pieces_blank k B N).
  - cbn [flat_map]. rewrite app_nil_r, head_cut, (IH k Hk); auto. intros b x I. apply H. apply in_flat_map. exists k. split; auto.
    destruct k. right. exact I.
Qed.

Lemma pieces_prune p t : (forall anc x, In (anc, x) (visits [] t) -> p anc x = true -> blank x = true /\ nothing_follows x) ->
  pieces (prune p t) = pieces t.
Proof. intro H. apply (pieces_cut p t []). intros b x I. apply H. destruct t. right. exact I. Qed.

(** ** Exactly when no text is lost *)

Definition textless (x : tree) : Prop := pieces x = [] /\ piece (h_tail (head x)) = [].

Lemma textless_inside t : forall anc, pieces t = [] -> forall b x, In (b, x) (flat_map (visits (t :: anc)) (kids t)) -> textless x.
Proof.
  tree_induction t. intros anc P b x I. cbn [kids] in I. apply in_flat_map in I as (k & Hk & I). rewrite pieces_node in P.
  apply app_eq_nil in P as [_ P].
  assert (K : textless k).
  { apply app_eq_nil. destruct (pieces k ++ piece (h_tail (head k)))%list as [|y l] eqn:Q; auto. exfalso.
    assert (J : In y (flat_map (fun k => pieces k ++ piece (h_tail (head k)))%list ks)) by (apply in_flat_map; exists k; rewrite Q; split; [|left]; auto).
    rewrite P in J. exact J. }
  destruct k as [hk kk]. destruct I as [I|I]; [injection I as <- <-; exact K|].
  exact (IH _ Hk (Node h ks :: anc) (proj1 K) b x I).
Qed.

Lemma cut_length (p : list tree -> tree -> bool) t : forall anc, length (pieces (cut p anc t)) <= length (pieces t).
Proof.
  tree_induction t. intro anc. rewrite cut_node, !pieces_node. unfold is_elem. cbn [head]. rewrite !app_length. apply Nat.add_le_mono_l.
  rewrite flat_map_flat_map. generalize (Node h ks :: anc) as a. intro a. clear anc h. induction ks as [|k l IHl]; auto.
  cbn [flat_map]. rewrite !app_length. apply Nat.add_le_mono.
  - destruct (p a k); [cbn; lia|]. cbn [flat_map]. rewrite app_nil_r, head_cut, !app_length. apply Nat.add_le_mono_r. apply IH. left. reflexivity.
  - apply IHl. intros k' Hk'. apply IH. right. exact Hk'.
Qed.

Lemma cut_all_kept (p : list tree -> tree -> bool) t : forall anc, length (pieces (cut p anc t)) = length (pieces t) ->
  forall b x, In (b, x) (flat_map (visits (t :: anc)) (kids t)) -> p b x = true -> textless x.
Proof.
  tree_induction t. intros anc E b x I P. cbn [kids] in I. apply in_flat_map in I as (k & Hk & I).
  rewrite cut_node, !pieces_node in E. unfold is_elem in E. cbn [head] in E. rewrite !app_length in E. apply Nat.add_cancel_l in E.
  rewrite flat_map_flat_map in E.
  set (a := Node h ks :: anc) in *.
  assert (K : length (flat_map (fun k0 => pieces k0 ++ piece (h_tail (head k0)))%list (if p a k then [] else [cut p a k]))
              = length (pieces k ++ piece (h_tail (head k)))%list).
  { clear b x I P. revert E Hk. generalize ks at 1 2 3. clear IH. intro l. induction l as [|k' l IHl]; intros E [].
    - subst k'. cbn [flat_map] in E. rewrite !app_length in E.
      pose proof (cut_length p k a) as L.
      assert (L2 : length (flat_map (fun y => flat_map (fun k0 => pieces k0 ++ piece (h_tail (head k0)))%list (if p a y then [] else [cut p a y])) l)
                   <= length (flat_map (fun k0 => pieces k0 ++ piece (h_tail (head k0)))%list l)).
      { clear. induction l as [|y l IHl]; auto. cbn [flat_map]. rewrite !app_length. apply Nat.add_le_mono; auto.
        destruct (p a y); [cbn; lia|]. cbn [flat_map]. rewrite app_nil_r, head_cut, !app_length. apply Nat.add_le_mono_r, cut_length. }
      rewrite app_length. destruct (p a k); [cbn in *; lia|]. cbn [flat_map] in *. rewrite app_nil_r, head_cut, !app_length in *. lia.
    - apply IHl; auto. cbn [flat_map] in E. rewrite !app_length in E. pose proof (cut_length p k' a) as L.
      assert (L2 : length (flat_map (fun y => flat_map (fun k0 => pieces k0 ++ piece (h_tail (head k0)))%list (if p a y then [] else [cut p a y])) l)
                   <= length (flat_map (fun k0 => pieces k0 ++ piece (h_tail (head k0)))%list l)).
      { clear. induction l as [|y l IHl]; auto. cbn [flat_map]. rewrite !app_length. apply Nat.add_le_mono; auto.
        destruct (p a y); [cbn; lia|]. cbn [flat_map]. rewrite app_nil_r, head_cut, !app_length. apply Nat.add_le_mono_r, cut_length. }
      destruct (p a k'); [cbn in *; lia|]. cbn [flat_map] in *. rewrite app_nil_r, head_cut, !app_length in *. lia. }
  destruct (p a k) eqn:Pk.
  - cbn in K. symmetry in K. apply length_zero_iff_nil, app_eq_nil in K. destruct k as [hk kk]. destruct I as [I|I].
    + injection I as <- <-. exact K.
    + exact (textless_inside _ a (proj1 K) b x I).
  - cbn [flat_map] in K. rewrite app_nil_r, head_cut, !app_length in K. apply Nat.add_cancel_r in K. destruct k as [hk kk]. destruct I as [I|I].
    + injection I as <- <-. congruence.
    + exact (IH _ Hk a K b x I P).
Qed.

Lemma cut_textless (p : list tree -> tree -> bool) t : forall anc,
  (forall b x, In (b, x) (flat_map (visits (t :: anc)) (kids t)) -> p b x = true -> textless x) ->
  pieces (cut p anc t) = pieces t.
Proof.
  tree_induction t. intros anc H. rewrite cut_node, !pieces_node. unfold is_elem. cbn [head]. f_equal. cbn [kids] in H.
  rewrite flat_map_flat_map. apply flat_map_ext_in. intros k Hk.
  assert (Self : In (Node h ks :: anc, k) (flat_map (visits (Node h ks :: anc)) ks)) by (apply in_flat_map; exists k; split; auto; destruct k; left; reflexivity).
  destruct (p (Node h ks :: anc) k) eqn:P.
  - destruct (H _ _ Self P) as [-> ->]. reflexivity.
  - cbn [flat_map]. rewrite app_nil_r, head_cut, (IH k Hk); auto. intros b x I. apply H. apply in_flat_map. exists k. split; auto.
    destruct k. right. exact I.
Qed.

Lemma pieces_prune_iff p t :
  pieces (prune p t) = pieces t <->
  (forall anc x, In (anc, x) (visits [] t) -> anc <> [] -> p anc x = true -> pieces x = [] /\ piece (h_tail (head x)) = []).
Proof.
  change (prune p t) with (cut p [] t). split.
  - intros E anc x I N P. destruct t as [h ks]. destruct I as [I|I]; [injection I as <- <-; contradiction|].
    exact (cut_all_kept p _ [] (f_equal _ E) anc x I P).
  - intro H. apply cut_textless. intros b x I P. apply (H b x); auto.
    + destruct t as [h ks]. right. exact I.
    + intros ->. apply in_flat_map in I as (k & _ & I). rewrite visits_anc in I. apply in_map_iff in I as ([l y] & I & _).
      injection I as I _. apply app_eq_nil in I as [_ I]. discriminate I.
Qed.
