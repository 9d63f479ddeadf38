(** * What checks and cleaning report. *)

From Coq Require Import String Ascii List Bool Arith NArith Lia.
From Verif Require Import Str Xml XPath Utils Base Tables Cybox Stix Ramrod Spec SpecDoc SpecPass SpecStep
  SpecCheck SpecClean SpecUpdate SpecReport Lib Frame Api Versions NoFail Refine RefineBase RefineTrans RefineLists
  RefineSteps RefineCheck RefineClean Relabel RefineUpdate Updates.
Import ListNotations.
Local Open Scope string_scope.

(** ** Versions *)

Lemma version_is_same v found i : same_version (Some found) v -> version_is v found i = Ok tt.
Proof.
  intros (w & n & p & E & H1 & H2). injection E as <-. unfold version_is.
  assert (Q : is_version_equal v found = Ok true) by (apply version_equality_full; eauto).
  rewrite Q. reflexivity.
Qed.

Lemma version_is_other v found i : other_version found v ->
  version_is v found i = Err (InvalidVersionError (Some i) (Some v) (Some found)).
Proof.
  intros (n & p & m & q & H1 & H2 & N). unfold version_is.
  assert (Q : is_version_equal v found = Ok false).
  { apply version_equality_full. exists m, q, n, p. split; auto. }
  rewrite Q. reflexivity.
Qed.

Lemma stix_version_ok v T : (forall x, first_of (anywhere [stix "STIX_Package"]) T x -> same_version (stix_declared x) v) ->
  stix_version_check v T = Ok tt.
Proof.
  intro H. unfold stix_version_check. destruct (selected _ T) as [|[a x] l] eqn:E; auto.
  specialize (H x (ex_intro _ a (ex_intro _ l E))). unfold stix_declared in H. simpl.
  destruct (given _) as [w|]; [apply version_is_same; auto|]. destruct H as (? & ? & ? & ? & _). discriminate.
Qed.

Lemma stix_version_bad v T x : first_of (anywhere [stix "STIX_Package"]) T x ->
  (stix_declared x = None -> stix_version_check v T = Err UnknownVersionError) /\
  (forall w, stix_declared x = Some w -> other_version w v ->
   stix_version_check v T = Err (InvalidVersionError (Some (tid x)) (Some v) (Some w))).
Proof.
  intros (a & l & E). unfold stix_version_check, stix_declared. rewrite E. simpl. split.
  - intros ->. reflexivity.
  - intros w -> O. apply version_is_other; auto.
Qed.

Lemma cybox_version_ok v p T : every p T (fun x => same_version (cybox_declared x) v) ->
  cybox_version_check v p T = Ok tt.
Proof.
  intro H. unfold cybox_version_check.
  assert (Q : forall l, incl l (selected p T) -> first_err (fun c => cybox_version_of v (snd c)) l = None).
  { induction l as [|[a x] l IH]; intro I; simpl; auto.
    assert (Hx : In (a, x) (selected p T)) by (apply I; left; auto). apply filter_In in Hx as [Hx Px].
    specialize (H a x Hx Px). cbv beta in H. unfold cybox_version_of. destruct (cybox_declared x) as [w|].
    - rewrite version_is_same by auto. apply IH. intros c Hc. apply I. right; auto.
    - destruct H as (? & ? & ? & ? & _). discriminate. }
  rewrite Q by apply incl_refl. reflexivity.
Qed.

Lemma cybox_version_bad v p T l1 a x l2 : selected p T = (l1 ++ (a, x) :: l2)%list ->
  (forall c, In c l1 -> same_version (cybox_declared (snd c)) v) ->
  (cybox_declared x = None -> cybox_version_check v p T = Err UnknownVersionError) /\
  (forall w, cybox_declared x = Some w -> other_version w v ->
   cybox_version_check v p T = Err (InvalidVersionError (Some (tid x)) (Some v) (Some w))).
Proof.
  intros E H. unfold cybox_version_check. rewrite E. clear E.
  assert (Q : first_err (fun c => cybox_version_of v (snd c)) (l1 ++ (a, x) :: l2)
              = first_err (fun c => cybox_version_of v (snd c)) ((a, x) :: l2)).
  { induction l1 as [|[b y] l1 IH]; auto. simpl app. cbn [first_err].
    pose proof (H (b, y) (or_introl eq_refl)) as Hy. simpl in Hy. unfold cybox_version_of at 1. simpl snd.
    destruct (cybox_declared y) as [w|]; [|destruct Hy as (? & ? & ? & ? & _); discriminate].
    rewrite version_is_same by auto. apply IH. intros c Hc. apply H. right; auto. }
  rewrite Q. cbn [first_err]. unfold cybox_version_of. simpl snd. split.
  - intros ->. reflexivity.
  - intros w -> O. rewrite version_is_other; auto.
Qed.

(** *** What remains of a check once versions are in order *)

Definition stix_content_check (o : oracle) (v : string) (T : tree) : res unit :=
  if String.eqb v "1.0" then nothing_untranslatable stix_1_0_rules T
  else if String.eqb v "1.0.1" then nothing_to_clean (stix_1_0_1_rules o) stix_duplicates T
  else Ok tt.

Definition cybox_content_check (v : string) (T : tree) : res unit :=
  if String.eqb v "2.0.1" then nothing_to_clean cybox_2_0_1_rules cybox_duplicates T else Ok tt.

Ltac each_version v H :=
  repeat match type of H with context [String.eqb v ?x] => destruct (String.eqb_spec v x); [subst v|] end;
  try discriminate H.

Lemma stix_check_content o opts v c T : stix_check o opts v = Some c ->
  check_versions opts = false \/ stix_versions_ok v T -> c T = stix_content_check o v T.
Proof.
  intros H V.
  assert (A : if_asked (check_versions opts) (stix_version_check v) T = Ok tt).
  { unfold if_asked. destruct V as [->|[V _]]; auto. destruct (check_versions opts); auto. apply stix_version_ok; auto. }
  assert (B : forall cv p, embedded v = Some (cv, p) ->
            if_asked (check_versions opts) (cybox_version_check cv p) T = Ok tt).
  { intros cv p E. unfold if_asked. destruct V as [->|[_ V]]; auto. destruct (check_versions opts); auto.
    apply cybox_version_ok; auto. }
  unfold stix_check, dict_get in H. each_version v H; injection H as <-.
  - rewrite !in_turn_cons, A. simpl rbind. rewrite (B _ _ eq_refl). simpl rbind.
    change (in_turn [] T) with (Ok tt). cbv beta.
    change (stix_content_check o "1.0" T) with (nothing_untranslatable stix_1_0_rules T).
    destruct (nothing_untranslatable stix_1_0_rules T) as [[]|]; reflexivity.
  - rewrite !in_turn_cons, A. simpl rbind. rewrite (B _ _ eq_refl). simpl rbind.
    change (in_turn [] T) with (Ok tt). cbv beta.
    change (stix_content_check o "1.0.1" T) with (nothing_to_clean (stix_1_0_1_rules o) stix_duplicates T).
    destruct (nothing_to_clean (stix_1_0_1_rules o) stix_duplicates T) as [[]|]; reflexivity.
  - exact A.
  - exact A.
  - exact A.
Qed.

Lemma cybox_check_content opts v c T : cybox_check opts v = Some c ->
  check_versions opts = false \/ cybox_versions_ok v T -> c T = cybox_content_check v T.
Proof.
  intros H V.
  assert (A : if_asked (check_versions opts) (cybox_version_check v (anywhere [cybox "Observables"])) T = Ok tt).
  { unfold if_asked. destruct V as [->|V]; auto. destruct (check_versions opts); auto. apply cybox_version_ok; auto. }
  unfold cybox_check, dict_get in H. each_version v H; injection H as <-.
  - exact A.
  - rewrite !in_turn_cons, A. simpl rbind. change (in_turn [] T) with (Ok tt). cbv beta.
    change (cybox_content_check "2.0.1" T) with (nothing_to_clean cybox_2_0_1_rules cybox_duplicates T).
    destruct (nothing_to_clean cybox_2_0_1_rules cybox_duplicates T) as [[]|]; reflexivity.
Qed.

Lemma stix_check_first_version o opts v c T e : stix_check o opts v = Some c -> check_versions opts = true ->
  stix_version_check v T = Err e -> c T = Err e.
Proof.
  intros H V E. unfold stix_check, dict_get in H. each_version v H; injection H as <-; rewrite ?V.
  - rewrite in_turn_cons. unfold if_asked at 1. rewrite E. reflexivity.
  - rewrite in_turn_cons. unfold if_asked at 1. rewrite E. reflexivity.
  - exact E.
  - exact E.
  - exact E.
Qed.

Lemma stix_check_embedded o opts v c T cv p e : stix_check o opts v = Some c -> check_versions opts = true ->
  embedded v = Some (cv, p) -> stix_version_check v T = Ok tt -> cybox_version_check cv p T = Err e -> c T = Err e.
Proof.
  intros H V Em S E. unfold stix_check, dict_get in H. each_version v H; injection H as <-; rewrite ?V;
    unfold embedded, dict_get in Em; simpl in Em; try discriminate; injection Em as <- <-;
    rewrite !in_turn_cons; unfold if_asked; rewrite S; simpl rbind; rewrite E; reflexivity.
Qed.

Lemma cybox_check_first_version opts v c T e : cybox_check opts v = Some c -> check_versions opts = true ->
  cybox_version_check v (anywhere [cybox "Observables"]) T = Err e -> c T = Err e.
Proof.
  intros H V E. unfold cybox_check, dict_get in H. each_version v H; injection H as <-; rewrite ?V.
  - exact E.
  - rewrite in_turn_cons. unfold if_asked. rewrite E. reflexivity.
Qed.

Definition version_error (e : exn) : Prop :=
  match e with UnknownVersionError | InvalidVersionError _ _ _ => True | _ => False end.

(** ** Untranslatable content *)

Lemma offenders_spec r T l : offenders r T = Ok l -> forall i, In i l <-> offends r T i.
Proof.
  intros H i. unfold offends. destruct r as [p|name ns|p]; simpl in H.
  - injection H as <-. rewrite in_map_iff. split.
    + intros ([a x] & <- & Hx). apply filter_In in Hx as [Hx Px]. exists a, x. auto.
    + intros (a & x & Hx & Px & <-). exists (a, x). split; auto. apply filter_In. auto.
  - destruct (first_err _ _); [discriminate|]. injection H as <-. rewrite in_map_iff. split.
    + intros ([a x] & <- & Hx). apply filter_In in Hx as [Hx Px]. exists a, x. auto.
    + intros (a & x & Hx & Px & <-). exists (a, x). split; auto. apply filter_In. auto.
  - injection H as <-. rewrite in_flat_map. split.
    + intros ([a x] & Hx & Hi). apply filter_In in Hx as [Hx Px]. simpl in *. destruct a as [|q a]; [destruct Hi|].
      destruct Hi as [<-|[]]. exists (q :: a), x. eauto 6.
    + intros (a & x & Hx & Px & q & a' & -> & <-). exists (q :: a', x). split; [apply filter_In; auto|]. left; auto.
Qed.

Lemma untranslatable_spec rules : forall T l, untranslatable rules T = Ok l ->
  forall i, In i l <-> exists r, In r rules /\ offends r T i.
Proof.
  induction rules as [|r rules IH]; simpl; intros T l H i.
  - injection H as <-. split; [intros []|intros (r & [] & _)].
  - destruct (offenders r T) as [a|] eqn:Ea; [|discriminate]. simpl in H.
    destruct (untranslatable rules T) as [b|] eqn:Eb; [|discriminate]. simpl in H. injection H as <-.
    rewrite in_app_iff, (offenders_spec _ _ _ Ea), (IH _ _ Eb). split.
    + intros [Q|(r' & Hr & Q)]; eauto.
    + intros (r' & [<-|Hr] & Q); eauto.
Qed.

Lemma untranslatable_errors rules T e : untranslatable rules T = Err e -> ~ documented e.
Proof.
  revert e. induction rules as [|r rules IH]; simpl; intros e H; [discriminate|].
  destruct (offenders r T) as [a|x] eqn:Ea; simpl in H.
  - destruct (untranslatable rules T) as [b|y]; simpl in H; [discriminate|]. apply IH; auto.
  - injection H as ->. destruct r as [p|name ns|p]; simpl in Ea; try discriminate.
    destruct (first_err _ _) eqn:E; [|discriminate]. injection Ea as ->.
    apply first_err_in in E as (c & Ec). destruct (type_of_err _ _ Ec) as [-> | ->]; intro Q; inversion Q.
Qed.

(** The outcome of a non-forced update once versions are in order. *)
Definition refuses (o : oracle) (up : updater) (d : docarg) (opts : option options) (s : st) (T : tree)
  (untr : res (list nat)) (dups : option (dict (list nat))) : Prop :=
  match untr with
  | Err e => fst (updater_update o up d opts false s) = Err e /\ ~ documented e
  | Ok l =>
      if match l, dups with [], None => true | [], Some [] => true | _, _ => false end
      then forall e, fst (updater_update o up d opts false s) = Err e -> ~ documented e
      else exists s', updater_update o up d opts false s = (Err (UpdateError (Some l) dups), s') /\ In T (heap s')
  end.

Lemma refuses_ok o up opts c D f d s t : describes up (or_default o opts) c D f -> wf_state s -> denotes s d t ->
  c (numbered (next s) t) = Ok tt ->
  forall e, fst (updater_update o up d opts false s) = Err e -> ~ documented e.
Proof.
  intros H W Dn C e E. pose proof (update_accepted o up opts c D f d false s t H W Dn C) as P.
  destruct (f (erase t)) as [y|y].
  - destruct P as (r & s1 & E1 & _). rewrite E1 in E. discriminate.
  - destruct P as (s1 & E1 & N). rewrite E1 in E. injection E as <-. exact N.
Qed.

Lemma refuses_untranslatable o up opts c D f d s t rules : describes up (or_default o opts) c D f ->
  wf_state s -> denotes s d t -> let T := numbered (next s) t in
  c T = nothing_untranslatable rules T -> refuses o up d opts s T (untranslatable rules T) None.
Proof.
  intros H W Dn T C. unfold refuses. pose proof (refuses_ok o up opts c D f d s t H W Dn) as A. fold T in A.
  unfold nothing_untranslatable in C. destruct (untranslatable rules T) as [l|e] eqn:E; simpl in C.
  - destruct l as [|i l]; auto. apply (update_refused o up opts c D f d s t _ H W Dn C).
  - destruct (update_refused o up opts c D f d s t _ H W Dn C) as (s' & E1 & _). rewrite E1. split; auto.
    eapply untranslatable_errors; eauto.
Qed.

Lemma refuses_to_clean o up opts c D f d s t rules dups : describes up (or_default o opts) c D f ->
  wf_state s -> denotes s d t -> let T := numbered (next s) t in
  c T = nothing_to_clean rules dups T -> refuses o up d opts s T (untranslatable rules T) (Some (dups T)).
Proof.
  intros H W Dn T C. unfold refuses. pose proof (refuses_ok o up opts c D f d s t H W Dn) as A. fold T in A.
  unfold nothing_to_clean in C. destruct (untranslatable rules T) as [l|e] eqn:E; simpl in C.
  - destruct l as [|i l]; [destruct (dups T) as [|k dd]; auto|];
      apply (update_refused o up opts c D f d s t _ H W Dn C).
  - destruct (update_refused o up opts c D f d s t _ H W Dn C) as (s' & E1 & _). rewrite E1. split; auto.
    eapply untranslatable_errors; eauto.
Qed.

(** ** Shared ids *)

Lemma in_tl_visits_inside T a x : In (a, x) (tl (visits [] T)) <-> In (a, x) (visits [] T) /\ a <> [].
Proof.
  destruct T as [h ks]. rewrite visits_node. cbn [tl]. split.
  - intro H. split; [right; auto|]. apply in_flat_map in H as (k & Hk & H).
    rewrite visits_anc in H. apply in_map_iff in H as ([b y] & E & _). injection E as <- _.
    destruct b; discriminate.
  - intros [[H|H] N]; auto. injection H as <- _. elim N; auto.
Qed.

Lemma bearers_bears nss name T i : In i (bearers nss name T) <-> bears nss name T i.
Proof.
  unfold bearers, counted, bears. rewrite in_map_iff. split.
  - intros (x & <- & H). apply filter_In in H as [H Q]. apply filter_In in H as [H E].
    apply in_map_iff in H as ([a y] & E' & H). simpl in E'. subst y. apply in_tl_visits_inside in H as [H N].
    apply andb_true_iff in E as [E1 E2]. destruct (q_ns (h_tag (head x))) as [ns|] eqn:En; [|discriminate].
    exists a, x, ns. repeat (split; auto).
    + destruct (id_of x); [|discriminate]. simpl in Q. apply String.eqb_eq in Q. subst; auto.
    + apply mem_str_In; auto.
  - intros (a & x & ns & H & N & E1 & <- & Q & En & Hn). exists x. split; auto. apply filter_In. split.
    + apply filter_In. split.
      * apply in_map_iff. exists (a, x). split; auto. apply in_tl_visits_inside. auto.
      * rewrite E1, En. apply mem_str_In. auto.
    + rewrite Q. simpl. apply String.eqb_refl.
Qed.

Lemma in_with_bearers nss T l i b : In (i, b) (with_bearers nss T l) <-> In i l /\ b = bearers nss i T.
Proof.
  unfold with_bearers. rewrite in_map_iff. split.
  - intros (k & E & H). injection E as <- <-. auto.
  - intros [H ->]. exists i. auto.
Qed.

Lemma cybox_duplicates_spec T i b : In (i, b) (cybox_duplicates T) <->
  b = bearers cybox_namespaces i T /\ 1 < length b.
Proof.
  unfold cybox_duplicates. rewrite in_with_bearers, shared_spec. split; intros [H1 H2]; subst; auto.
Qed.

Lemma bearers_app_le nss nss' i T : length (bearers nss i T) <= length (bearers (nss ++ nss') i T).
Proof.
  unfold bearers, counted. rewrite !map_length. generalize (map snd (tl (visits [] T))).
  induction l as [|x l IH]; simpl; auto.
  assert (Q : is_elem x && match q_ns (h_tag (head x)) with Some ns => mem_str ns nss | None => false end = true ->
    is_elem x && match q_ns (h_tag (head x)) with Some ns => mem_str ns (nss ++ nss') | None => false end = true).
  { destruct (is_elem x); auto. simpl. destruct (q_ns _); auto. rewrite !mem_str_In. intro. apply in_app_iff; auto. }
  destruct (is_elem x && match q_ns (h_tag (head x)) with Some ns => mem_str ns nss | None => false end) eqn:E1.
  - rewrite Q by auto. simpl. destruct (ostr_eqb _ _); simpl; lia.
  - destruct (is_elem x && match q_ns (h_tag (head x)) with Some ns => mem_str ns (nss ++ nss') | None => false end);
      simpl; auto. destruct (ostr_eqb _ _); simpl; lia.
Qed.

Lemma stix_duplicates_spec T i b : In (i, b) (stix_duplicates T) <->
  b = bearers (stix_namespaces ++ cybox_namespaces) i T /\ 1 < length b.
Proof.
  unfold stix_duplicates. rewrite in_with_bearers, in_app_iff, filter_In, !shared_spec.
  pose proof (bearers_app_le stix_namespaces cybox_namespaces i T) as L. split.
  - intros [[H|[H _]] ->]; split; auto; lia.
  - intros [-> H]. split; auto.
    destruct (mem_str i (shared stix_namespaces T)) eqn:E; [left|right; auto].
    apply shared_spec. apply mem_str_In. auto.
Qed.

Lemma duplicates_keys T : NoDup (map fst (stix_duplicates T)) /\ NoDup (map fst (cybox_duplicates T)).
Proof.
  unfold stix_duplicates, cybox_duplicates, with_bearers. rewrite !map_map, !map_id. split.
  - apply shared_keys_NoDup.
  - apply shared_NoDup.
Qed.

Lemma duplicates_nodes T : NoDup (ids T) ->
  NoDup (flat_map snd (stix_duplicates T)) /\ NoDup (flat_map snd (cybox_duplicates T)).
Proof.
  intro N. split; apply with_bearers_NoDup; auto; [apply shared_keys_NoDup|apply shared_NoDup].
Qed.

(** ** Removal *)

Lemma visits_below t : forall anc a x, In (a, x) (visits anc t) -> exists q, x :: a = (q ++ t :: anc)%list.
Proof.
  tree_induction t. intros anc a x H. simpl in H. destruct H as [H|H].
  - injection H as <- <-. exists []. reflexivity.
  - apply in_flat_map in H as (k & Hk & H). destruct (IH k Hk _ _ _ H) as (q & E).
    exists (q ++ [k])%list. rewrite E, <- app_assoc. reflexivity.
Qed.

Lemma filter_flat_map {A B} (p : B -> bool) (f : A -> list B) l :
  filter p (flat_map f l) = flat_map (fun a => filter p (f a)) l.
Proof. induction l; simpl; auto. rewrite filter_app, IHl. reflexivity. Qed.

Section Removal.
  Variable bad : tree -> bool.

  (** No node strictly below an ancestor list of length [n] is bad. *)
  Let clear (n : nat) (c : ctx) : bool :=
    negb (existsb bad (firstn (length (fst c) - n) (snd c :: fst c))).

  Lemma pruned_paths t : forall anc anc', map head anc' = map head anc ->
    map path (visits anc' (subst_nodes (fun _ x => if bad x then Some [] else None) anc t))
    = map path (filter (clear (length anc)) (visits anc t)).
  Proof.
    tree_induction t. intros anc anc' Ea. cbn [subst_nodes]. rewrite !visits_node.
    cbn [filter]. unfold clear at 1. cbn [fst snd]. rewrite Nat.sub_diag. cbn [firstn existsb negb map].
    f_equal; [unfold path; cbn; rewrite Ea; reflexivity|]. fold clear. rewrite filter_flat_map, !map_flat_map.
    set (n' := Node h (flat_map _ ks)).
    assert (Q : forall k, In k ks ->
      flat_map (fun k' => map path (visits (n' :: anc') k'))
        (match (if bad k then Some [] else None) with Some l => l | None =>
              [subst_nodes (fun _ x => if bad x then Some [] else None) (Node h ks :: anc) k] end)
      = map path (filter (clear (length anc)) (visits (Node h ks :: anc) k))).
    { intros k Hk.
      assert (F : filter (clear (length anc)) (visits (Node h ks :: anc) k)
                  = if bad k then [] else filter (clear (length (Node h ks :: anc))) (visits (Node h ks :: anc) k)).
      { assert (G : forall c, In c (visits (Node h ks :: anc) k) ->
          clear (length anc) c = if bad k then false else clear (length (Node h ks :: anc)) c).
        { intros [a x] Hc. destruct (visits_below _ _ _ _ Hc) as (q & E). unfold clear. cbn [fst snd]. rewrite E.
          assert (L : length a = length q + S (length anc)).
          { apply (f_equal (@length tree)) in E. rewrite app_length in E. simpl in E. lia. }
          replace (length a - length anc) with (length (q ++ [k])) by (rewrite app_length, L; simpl; lia).
          replace (length a - length (Node h ks :: anc)) with (length q) by (rewrite L; simpl; lia).
          replace (q ++ k :: Node h ks :: anc)%list with ((q ++ [k]) ++ Node h ks :: anc)%list
            by (rewrite <- app_assoc; reflexivity).
          rewrite firstn_app, firstn_all, Nat.sub_diag. cbn [firstn]. rewrite app_nil_r.
          rewrite <- app_assoc, firstn_app, firstn_all, Nat.sub_diag. cbn [firstn]. rewrite app_nil_r.
          rewrite existsb_app. cbn [existsb]. rewrite orb_false_r.
          destruct (bad k); [rewrite orb_true_r|rewrite orb_false_r]; reflexivity. }
        destruct (bad k).
        - rewrite (filter_ext_in _ (fun _ => false) _ G). clear. induction (visits _ k) as [|c l IHl]; [reflexivity|exact IHl].
        - apply filter_ext_in. exact G. }
      rewrite F. destruct (bad k); [reflexivity|]. cbn [flat_map]. rewrite app_nil_r.
      apply (IH k Hk (Node h ks :: anc)). cbn. rewrite Ea. reflexivity. }
    clear IH. rewrite flat_map_flat_map. apply flat_map_ext_in. exact Q.
  Qed.
End Removal.

Lemma removelast_firstn {A} (x : A) l : removelast (x :: l) = firstn (length l) (x :: l).
Proof.
  revert x. induction l as [|y l IH]; intro x; [reflexivity|].
  change (removelast (x :: y :: l)) with (x :: removelast (y :: l)). rewrite IH. reflexivity.
Qed.

Lemma without_survivors l T : map path (visits [] (without l T)) = map path (survivors l T).
Proof.
  unfold without, prune, survivors.
  etransitivity; [apply (pruned_paths (fun x => existsb (Nat.eqb (tid x)) l) T [] [] eq_refl)|].
  f_equal. apply filter_ext. intros [a x]. cbn [fst snd length]. rewrite Nat.sub_0_r, removelast_firstn. reflexivity.
Qed.

(** ** New ids *)

Lemma attr_set_keys k v l : attr_get k l <> None -> map fst (attr_set k v l) = map fst l.
Proof.
  induction l as [|[k' v'] l IH]; simpl; [congruence|]. destruct (qn_eqb k k') eqn:E; simpl; auto.
  intro H. rewrite IH; auto.
Qed.

Lemma renumber_new f g l i h : 
  with_new_id (match position i l, attr_get (lq "id") (h_attr h) with
               | Some k, Some old => Some (f (g + k) old)
               | _, _ => None
               end) h (renumber f g l i h).
Proof.
  unfold renumber, with_new_id. 
  assert (S : h = set_attrs (h_attr h) h) by (destruct h; reflexivity).
  destruct (position i l) as [k|]; [|exists (h_attr h); auto].
  destruct (attr_get (lq "id") (h_attr h)) as [old|] eqn:E; [|exists (h_attr h); auto].
  exists (attr_set (lq "id") (f (g + k) old) (h_attr h)). split; [reflexivity|]. split; [apply attr_set_keys; congruence|].
  split.
  - intros q N. rewrite attr_get_set. destruct (qn_eqb q (lq "id")) eqn:Eq; auto. apply qn_eqb_eq in Eq. congruence.
  - rewrite attr_get_set. reflexivity.
Qed.

Lemma fresh_ids_nodes f g l T :
  Forall2 (fun c c' => with_new_id (match position (tid (snd c)) l, id_of (snd c) with
                                    | Some k, Some old => Some (f (g + k) old)
                                    | _, _ => None
                                    end) (head (snd c)) (head (snd c')) /\
                       length (fst c') = length (fst c))
    (visits [] T) (visits [] (fresh_ids f g l T)).
Proof.
  rewrite fresh_ids_tmap. pose proof (tmap_visits (renumber f g l) T []) as Q. simpl in Q. rewrite Q. clear Q.
  induction (visits [] T) as [|[a x] L IH]; simpl; constructor; auto. cbn [fst snd]. split.
  - rewrite tmap_head. apply renumber_new.
  - apply map_length.
Qed.
