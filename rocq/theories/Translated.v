(** * The translations of a step replace and rename the fields they are about. *)

From Coq Require Import String Ascii List Bool Arith Lia.
From Verif Require Import Str Xml XPath Utils Base Tables Spec SpecDoc SpecPass SpecStep
  SpecCheck SpecClean SpecUpdate SpecTrace Lib Refine RefineBase RefineTrans RefineLists RefineSteps Relabel Cybox Stix RefineUpdate Natural Updates Reports UpdateFacts Trace SpecField Fields Carried Follow Vocab Worked Scripts Samples SpecTranslate SpecRead Reading.
Import ListNotations.
Local Open Scope string_scope.

(** ** Fields *)

Lemma named_iff q t : named q t = true <-> element_named q t.
Proof.
  unfold named, element_named. destruct (h_kind (head t)); split; try discriminate; try (intros [H _]; discriminate).
  - intro H. apply qn_eqb_eq in H. auto.
  - intros [_ <-]. apply qn_eqb_refl.
Qed.

Lemma not_named q t : named q t = false <-> ~ element_named q t.
Proof. rewrite <- named_iff. destruct (named q t); split; congruence. Qed.

Lemma inside_iff anc : inside anc = true <-> anc <> [].
Proof. destruct anc; simpl; split; congruence. Qed.

Lemma every_field_iff q anc t : any_inside [q] anc t = true <-> every_field q anc t.
Proof.
  unfold any_inside, every_field, named_in. cbn [existsb]. rewrite orb_false_r, andb_true_iff, inside_iff, named_iff. tauto.
Qed.

Lemma field_of_iff ps q anc t : child_in ps q anc t = true <-> field_of ps q anc t.
Proof.
  unfold child_in, field_of. rewrite andb_true_iff, named_iff. split.
  - intros [C N]. split; auto. destruct anc as [|p anc]; [discriminate|]. simpl in C. apply andb_true_iff in C as [A B].
    apply inside_iff in B. unfold named_in in A. apply existsb_exists in A as (n & I & A). apply named_iff in A. eauto 8.
  - intros (N & p & anc' & -> & B & n & I & A). split; auto. simpl. apply andb_true_iff. split; [|apply inside_iff; auto].
    apply existsb_exists. exists n. split; auto. apply named_iff. auto.
Qed.

Lemma first_child_filter q t v l : filter (named q) (kids t) = v :: l -> first_child q t v.
Proof.
  unfold first_child. generalize (kids t). clear t. intro ks. revert v l. induction ks as [|k ks IH]; [discriminate|].
  intros v l. simpl. destruct (named q k) eqn:E.
  - intro H. injection H as <- _. exists [], ks. split; auto. split; [apply named_iff; auto|intros ? []].
  - intro H. destruct (IH v l H) as (l1 & l2 & -> & N & A). exists (k :: l1), l2. split; auto. split; auto.
    intros x [<-|X]; [apply not_named; auto|auto].
Qed.

Lemma list_field_iff q inner anc t :
  inside anc && named q t = true -> filter (named inner) (kids t) <> [] -> list_field q inner anc t.
Proof.
  intros H F. apply andb_true_iff in H as [I N]. split; [split; [apply inside_iff|apply named_iff]; auto|].
  destruct (filter (named inner) (kids t)) as [|k l] eqn:E; [contradiction|]. exists k.
  assert (X : In k (filter (named inner) (kids t))) by (rewrite E; left; auto).
  apply filter_In in X as [X Y]. split; auto. apply named_iff. auto.
Qed.

(** ** Rewriting *)

Lemma subst_replaces (p : list tree -> tree -> bool) (G : list tree -> tree -> tree)
  (field : list tree -> tree -> Prop) (becomes : tree -> tree -> Prop) :
  (forall anc t, p anc t = true <-> field anc t) ->
  forall t anc, (forall b y, In (b, y) (visits anc t) -> field b y -> becomes y (G b y)) -> ~ field anc t ->
    replaced_in field becomes anc t (subst_nodes (fun a x => if p a x then Some [G a x] else None) anc t).
Proof.
  intro P. intro t. tree_induction t. intros anc H N. cbn [subst_nodes]. apply replaced_below; auto.
  set (T := Node h ks) in *.
  assert (K : forall k, In k ks -> forall b y, In (b, y) (visits (T :: anc) k) -> field b y -> becomes y (G b y)).
  { intros k Hk b y V. apply H. unfold T. rewrite visits_node. right. apply in_flat_map. exists k. auto. }
  clear H N. clearbody T. induction ks as [|k ks IHk]; simpl; [constructor|].
  destruct (p (T :: anc) k) eqn:E.
  - simpl. constructor; [|apply IHk; [intros; apply IH; simpl; auto|intros ? ?; apply K; simpl; auto]].
    apply replaced_here; [apply P; auto|]. apply (K k); simpl; auto. apply visits_self. apply P; auto.
  - simpl. constructor; [|apply IHk; [intros; apply IH; simpl; auto|intros ? ?; apply K; simpl; auto]].
    apply IH; simpl; auto. { intros b y. apply (K k); simpl; auto. } intro F. apply P in F. congruence.
Qed.

Lemma subst_ext F F' t : forall anc, (forall a x, In (a, x) (visits anc t) -> F a x = F' a x) ->
  subst_nodes F anc t = subst_nodes F' anc t.
Proof.
  tree_induction t. intros anc H. cbn [subst_nodes]. f_equal.
  assert (K : forall k, In k ks -> forall a x, In (a, x) (visits (Node h ks :: anc) k) -> F a x = F' a x).
  { intros k Hk a x V. apply H. rewrite visits_node. right. apply in_flat_map. exists k. auto. }
  revert K IH. generalize (Node h ks) as T. clear H. intros T K IH. induction ks as [|k ks IHk]; simpl; auto.
  rewrite (K k (or_introl eq_refl) (T :: anc) k) by apply visits_self.
  rewrite (IH k (or_introl eq_refl) (T :: anc)) by (intros a x; apply (K k); simpl; auto).
  rewrite IHk; auto; intros; [apply (K k0)|apply IH]; simpl; auto.
Qed.

Lemma rewrite_replaces p G (field : list tree -> tree -> Prop) (becomes : tree -> tree -> Prop) t e :
  (forall anc x, p anc x = true <-> field anc x) -> (forall x, ~ field [] x) ->
  (forall x x', G x = Ok x' -> becomes x x') ->
  rewrite_all p G t = Ok e -> replaced_in field becomes [] t e.
Proof.
  intros P R B. unfold rewrite_all. destruct (first_err _ _) eqn:E; [discriminate|]. intro H. injection H as <-.
  assert (A : forall b y, In (b, y) (visits [] t) -> p b y = true -> exists y', G y = Ok y').
  { intros b y V Py.
    assert (X : In (b, y) (filter (fun c => p (fst c) (snd c)) (visits [] t))) by (apply filter_In; auto).
    revert E X. generalize (filter (fun c => p (fst c) (snd c)) (visits [] t)). clear. intro l.
    induction l as [|c l IH]; [intros _ []|]. simpl. destruct (G (snd c)) eqn:Gc; [|discriminate].
    intros E [->|X]; eauto. }
  rewrite (subst_ext _ (fun a x => if p a x then Some [match G x with Ok x' => x' | Err _ => x end] else None)).
  - apply (subst_replaces p (fun _ x => match G x with Ok x' => x' | Err _ => x end)); auto.
    intros b y V F. apply P in F. destruct (A b y V F) as (y' & E'). rewrite E'. auto.
  - intros a x V. destruct (p a x) eqn:Px; auto. destruct (A a x V Px) as (x' & ->). reflexivity.
Qed.

Lemma edit_renames p q field t :
  (forall anc x, p anc x = true <-> field anc x) ->
  forall anc, renamed_in field q anc t (edit (fun a x => if p a x then set_tag q (head x) else head x) anc t).
Proof.
  intro P. tree_induction t. intro anc. cbn [edit].
  assert (K : Forall2 (renamed_in field q (Node h ks :: anc)) ks
                (map (edit (fun a x => if p a x then set_tag q (head x) else head x) (Node h ks :: anc)) ks)).
  { generalize (Node h ks :: anc). intro a. clear anc.
    induction ks as [|k ks IHk]; simpl; constructor; [apply IH; simpl; auto|]. apply IHk. intros. apply IH. simpl. auto. }
  destruct (p anc (Node h ks)) eqn:E.
  - eapply renamed_here; [apply P; exact E|reflexivity|exact K].
  - apply renamed_below; [|exact K]. intro F. pose proof (proj2 (P anc (Node h ks)) F) as X. congruence.
Qed.

Lemma unwrap_replaces outer inner new t :
  replaced_in (list_field outer inner) (becomes_child inner new) [] t (unwrap_pass outer inner new t).
Proof.
  unfold unwrap_pass.
  set (p := fun anc x => inside anc && named outer x && match filter (named inner) (kids x) with [] => false | _ => true end).
  set (G := fun (_ : list tree) x => match filter (named inner) (kids x) with k :: _ => renamed_to new k | [] => x end).
  assert (P : forall anc x, p anc x = true <-> list_field outer inner anc x).
  { intros anc x. unfold p. rewrite andb_true_iff. split.
    - intros [A B]. apply list_field_iff; auto. intro E. rewrite E in B. discriminate.
    - intros ([I N] & k & K & Nk). split; [apply andb_true_iff; split; [apply inside_iff|apply named_iff]; auto|].
      destruct (filter (named inner) (kids x)) eqn:E; auto.
      assert (X : In k (filter (named inner) (kids x))) by (apply filter_In; split; auto; apply named_iff; auto).
      rewrite E in X. destruct X. }
  rewrite (subst_ext _ (fun a x => if p a x then Some [G a x] else None)).
  - apply subst_replaces; auto.
    + intros b y _ F. apply P in F. unfold p in F. apply andb_true_iff in F as [_ F]. unfold G.
      destruct (filter (named inner) (kids y)) as [|k l] eqn:E; [discriminate|]. exists k. split; [|reflexivity].
      apply (first_child_filter _ _ _ l). exact E.
    + intros [[N _] _]. apply N. reflexivity.
  - intros a x _. unfold p, G. destruct (inside a && named outer x); auto. destruct (filter _ _); reflexivity.
Qed.

(** ** What becomes of a field *)

Lemma attr_set_new k v l : ~ In k (map fst l) -> attr_set k v l = (l ++ [(k, v)])%list.
Proof.
  induction l as [|[k' v'] l IH]; simpl; auto. intro N. destruct (qn_eqb k k') eqn:E.
  - apply qn_eqb_eq in E. subst. exfalso. auto.
  - rewrite IH; auto.
Qed.

Lemma attr_update_all l : forall acc, NoDup (map fst (acc ++ l)%list) -> attr_update acc l = (acc ++ l)%list.
Proof.
  induction l as [|[k v] l IH]; intros acc N; [rewrite app_nil_r; reflexivity|].
  unfold attr_update. simpl. fold (attr_update (attr_set k v acc) l).
  rewrite attr_set_new.
  - rewrite IH; rewrite <- app_assoc; auto.
  - rewrite map_app in N. simpl in N. apply NoDup_remove_2 in N. intro X. apply N. apply in_or_app. auto.
Qed.

Lemma attr_update_same l : NoDup (map fst l) -> attr_update [] l = l.
Proof. intro N. apply attr_update_all. exact N. Qed.

Lemma attr_set_map k v l : NoDup (map fst l) -> (exists w, attr_get k l = Some w) ->
  attr_set k v l = map (fun kv => if qn_eqb (fst kv) k then (fst kv, v) else kv) l.
Proof.
  intros N [w W]. revert N W. induction l as [|[k' v'] l IH]; simpl; [discriminate|].
  intros N W. inversion N as [|? ? N1 N2]; subst. rewrite (qn_eqb_sym k k'). rewrite (qn_eqb_sym k k') in W. destruct (qn_eqb k' k) eqn:E.
  - apply qn_eqb_eq in E. subst k'. f_equal. symmetry. rewrite <- (map_id l) at 2. apply map_ext_in.
    intros [k2 v2] I. simpl. destruct (qn_eqb k2 k) eqn:E2; auto. apply qn_eqb_eq in E2. subst. exfalso. apply N1.
    apply (in_map fst) in I. exact I.
  - f_equal. auto.
Qed.

Lemma attr_map_absent k (v : string) (l : list (qname * string)) : attr_get k l = None ->
  map (fun kv => if qn_eqb (fst kv) k then (fst kv, v) else kv) l = l.
Proof.
  induction l as [|[k' v'] l IH]; simpl; auto. rewrite (qn_eqb_sym k k'). destruct (qn_eqb k' k); [discriminate|]. intro H. rewrite IH; auto.
Qed.

Lemma value_of_child_takes q x x' : value_of_child q x = Ok x' -> takes_value_of q x x'.
Proof.
  unfold value_of_child. destruct (filter _ _) as [|v l] eqn:E; [discriminate|]. intro H. injection H as <-.
  exists v, (attr_update [] (h_attr (head v))). split; [eapply first_child_filter; eauto|]. split; [reflexivity|].
  apply attr_update_same.
Qed.

Lemma as_string_becomes x x' : as_string x = Ok x' -> becomes_string x x'.
Proof.
  unfold as_string. cbv zeta. intro H. injection H as <-.
  eexists. split; [reflexivity|]. intro N. rewrite attr_update_same by auto. unfold has_attr.
  destruct (attr_get (lq "datatype") (h_attr (head x))) eqn:E.
  - apply attr_set_map; eauto.
  - symmetry. apply attr_map_absent. exact E.
Qed.

Lemma contributing_wraps x x' : contributing_sources NS_COMMON x = Ok x' -> contributors_wrapped x x'.
Proof. unfold contributing_sources. destruct (forallb is_elem (kids x)); [|discriminate]. intro H. injection H as <-. reflexivity. Qed.

Lemma structured_becomes o (b : bool) x x' : structured_source o b x = Ok x' ->
  becomes_source (if b then indicator "Source" else common "Source") x x'.
Proof.
  unfold structured_source. intro H. split.
  - intros s T [L A]. rewrite T in H. destruct (parse_source o b s) eqn:P; [|discriminate].
    destruct (parse_readable o b s t L A P) as (B & n & R). exists n. split; auto.
  - intros name S.
    assert (P : exists s, match h_text (head x) with Some s => s | None => "None" end = s /\ contains "]]>" s = false /\ read_as s name).
    { destruct (h_text (head x)) as [s|]; cbn [source_name] in *; [exists s; tauto|].
      subst name. exists "None". split; [reflexivity|]. split; [reflexivity|]. apply read_plain. repeat split; reflexivity. }
    destruct P as (s & F & B & R). rewrite F, (parse_read o b s name B R) in H. injection H as <-.
    destruct b; unfold source_tree, opt_text; do 2 eexists; repeat split; reflexivity.
Qed.

(** ** The translations of a step *)

Lemma every_field_below q x : ~ every_field q [] x.
Proof. intros [N _]. apply N. reflexivity. Qed.

Lemma field_of_below ps q x : ~ field_of ps q [] x.
Proof. intros (_ & p & a & E & _). discriminate. Qed.

Lemma rewrite_every q G (becomes : tree -> tree -> Prop) t e : (forall x x', G x = Ok x' -> becomes x x') ->
  rewrite_all (any_inside [q]) G t = Ok e -> done (Replace (every_field q) becomes) t e.
Proof. intros B. apply rewrite_replaces; auto using every_field_iff, every_field_below. Qed.

Lemma rewrite_field ps q G (becomes : tree -> tree -> Prop) t e : (forall x x', G x = Ok x' -> becomes x x') ->
  rewrite_all (child_in ps q) G t = Ok e -> done (Replace (field_of ps q) becomes) t e.
Proof. intros B. apply rewrite_replaces; auto using field_of_iff, field_of_below. Qed.

Lemma rename_done old new t e : rename old new t = Ok e -> done (Renaming (every_field old) new) t e.
Proof. unfold rename, always. intro H. injection H as <-. apply edit_renames. apply every_field_iff. Qed.

Lemma in_order_two l l' t e : in_order (l ++ l')%list t = Ok e -> exists m, in_order l t = Ok m /\ in_order l' m = Ok e.
Proof.
  revert t. induction l as [|f l IH]; intro t; [exists t; auto|]. simpl app. intro H. apply in_order_ok in H as (m & F & H).
  destruct (IH m H) as (m' & A & B). exists m'. split; auto. rewrite in_order_cons, F. exact A.
Qed.

Ltac next H := let m := fresh "m" in let F := fresh "F" in apply in_order_ok in H as (m & F & H).

Lemma cybox_2_0_1_translated marked opts t e : cybox_2_0_1_step marked opts t = Ok e ->
  exists a b, in_order [namespaces_pass [] driver_ns; always (schemaloc_pass [] driver_ns cybox_2_0_1_schemaloc_map);
                        always (edit_where marked stamp_cybox_2_1)] t = Ok a /\
    all_done cybox_2_0_1_translations a b /\
    in_order [when (update_vocabularies opts) (passes vocab_pass [object_relationship; tool_type; action_name]);
              when (remove_optionals opts) (always (optional_pass (any_inside cybox_2_1_optional)))] b = Ok e.
Proof.
  unfold cybox_2_0_1_step. intro H. match type of H with in_order (?x :: ?y :: ?z :: ?l) t = _ => change (in_order ([x; y; z] ++ l)%list t = Ok e) in H end.
  apply in_order_two in H as (a & A & H). exists a.
  next H. next H. next H. next H. next H. next H. next H. next H. exists m6. split; [exact A|]. split; [|exact H].
  cbn [all_done cybox_2_0_1_translations].
  exists m. split; [apply (rewrite_every _ _ _ _ _ (value_of_child_takes _) F)|].
  exists m0. split; [apply (rewrite_every _ _ _ _ _ (value_of_child_takes _) F0)|].
  exists m1. split; [apply (rewrite_every _ _ _ _ _ as_string_becomes F1)|].
  exists m2. split; [apply rename_done; auto|]. exists m3. split; [apply rename_done; auto|].
  exists m4. split; [apply rename_done; auto|]. exists m5. split; [apply rename_done; auto|].
  exists m6. split; [|reflexivity]. unfold always in F6. injection F6 as <-. apply unwrap_replaces.
Qed.

Lemma stix_1_0_1_translated opts t e : stix_1_0_1_step opts t = Ok e ->
  exists c a b, cybox_2_0_1_step (any_inside cybox_in_stix_1_0_1) opts t = Ok c /\
    in_order [always (schemaloc_pass ["http://stix.mitre.org/extensions/AP#CAPEC2.6-1";
                        "http://stix.mitre.org/extensions/Malware#MAEC4.0-1"] [] stix_1_0_1_schemaloc_map);
              always (edit_where carries_version (stamp_stix "2.1" "1.1"))] c = Ok a /\
    all_done stix_1_0_1_translations a b /\
    in_order [when (update_vocabularies opts) (passes vocab_pass [motivation_1_1; indicator_type]);
              when (remove_optionals opts) (always (optional_pass (any_inside [marking "Controlled_Structure"; marking "Marking_Structure"])))] b = Ok e.
Proof.
  unfold stix_1_0_1_step. intro H. apply in_order_ok in H as (c & C & H). exists c.
  match type of H with in_order (?x :: ?y :: ?l) _ = _ => change (in_order ([x; y] ++ l)%list c = Ok e) in H end.
  apply in_order_two in H as (a & A & H). exists a. next H. next H. exists m0. split; [exact C|]. split; [exact A|]. split; [|exact H].
  exists m. split; [apply (rewrite_every _ _ _ _ _ contributing_wraps F)|].
  exists m0. split; [|reflexivity]. apply (rewrite_field _ _ _ (wrapped_in (ttp "Exploit_Target")) _ _) in F0; auto.
  intros x x' E. injection E as <-. reflexivity.
Qed.

Lemma stix_1_1_translated o opts t e : stix_1_1_step o opts t = Ok e ->
  exists a b, in_order [always (schemaloc_pass [] driver_ns cybox_2_0_1_schemaloc_map);
                        always (schemaloc_pass [] [] stix_1_1_schemaloc_map);
                        always (edit_where carries_version (stamp_stix "2.1.1" "1.1.1"))] t = Ok a /\
    all_done stix_1_1_translations a b /\
    in_order [when (update_vocabularies opts) (vocab_pass availability_loss);
              when (remove_optionals opts) (optional_in_type "GenericTestMechanismType"
                "http://stix.mitre.org/extensions/TestMechanism#Generic-1")] b = Ok e.
Proof.
  unfold stix_1_1_step. intro H. match type of H with in_order (?x :: ?y :: ?z :: ?l) t = _ => change (in_order ([x; y; z] ++ l)%list t = Ok e) in H end.
  apply in_order_two in H as (a & A & H). exists a. next H. next H. next H. exists m1. split; [exact A|]. split; [|exact H].
  exists m. split; [apply (rewrite_field _ _ _ _ _ _ (structured_becomes o false) F)|].
  exists m0. split; [apply (rewrite_field _ _ _ _ _ _ (structured_becomes o true) F0)|].
  exists m1. split; [|reflexivity]. apply (rewrite_field _ _ _ (wrapped_as (indicator "Related_Campaign") (common "Campaign")) _ _) in F1; auto.
  intros x x' E. injection E as <-. reflexivity.
Qed.

(** ** The relations determine the new document *)

Lemma forall2_unique {A B} (R : A -> B -> Prop) l : (forall a, In a l -> forall b b', R a b -> R a b' -> b = b') ->
  forall m m', Forall2 R l m -> Forall2 R l m' -> m = m'.
Proof.
  induction l as [|a l IH]; intros U m m' F F'; inversion F; inversion F'; subst; auto.
  f_equal; [eapply U; simpl; eauto|]. apply IH; auto. intros. eapply U; simpl; eauto.
Qed.

Lemma replaced_unique (field : list tree -> tree -> Prop) (becomes : tree -> tree -> Prop) :
  (forall x a b, becomes x a -> becomes x b -> a = b) ->
  forall t anc a b, replaced_in field becomes anc t a -> replaced_in field becomes anc t b -> a = b.
Proof.
  intros U t. tree_induction t. intros anc a b A B.
  inversion A; inversion B; subst; try contradiction; [eapply U; eauto|].
  f_equal. match goal with F : Forall2 _ ks ?m, F' : Forall2 _ ks ?m' |- ?m = ?m' => refine (forall2_unique _ _ _ _ _ F F') end.
  intros k K x x' R R'. exact (IH k K _ _ _ R R').
Qed.

Lemma renamed_unique (field : list tree -> tree -> Prop) q :
  forall t anc a b, renamed_in field q anc t a -> renamed_in field q anc t b -> a = b.
Proof.
  intro t. tree_induction t. intros anc a b A B.
  inversion A; inversion B; subst; try contradiction; f_equal;
    (match goal with F : Forall2 _ ks ?m, F' : Forall2 _ ks ?m' |- ?m = ?m' => refine (forall2_unique _ _ _ _ _ F F') end);
    intros k K x x' R R'; exact (IH k K _ _ _ R R').
Qed.

(** ** Documents *)

Definition pkg_1_0_1_fields : tree :=
  package "1.0.1"
    [el (qn STIX_NS "Observables") [] [(lq "cybox_major_version", "2"); (lq "cybox_minor_version", "0");
        (lq "cybox_update_version", "1")] None
       [el (http_name "DNT") [] [] None [comment "c"; el uri_value [] [(lq "condition", "Equals")] (Some "1") []];
        el (http_name "Refresh") [] [(lq "datatype", "integer"); (lq "x", "y")] (Some "5") [];
        el (http_name "X_Requested_For") [] [(lq "x", "y")] (Some "h") [el uri_value [] [] (Some "v") []];
        el mailslot [] [] None [el (object_name "WinHandle" "Handle") [] [(lq "id", "ex:h")] None [comment "in"]]];
     el (qn STIX_NS "TTP") [] [(lq "id", "ex:t1"); (lq "version", "1.0.1")] None
       [el (qn TTP_NS "Exploit_Targets") [] [] None [el (qn COMMON_NS "Exploit_Target") [] [(lq "idref", "ex:e")] None []];
        el (qn COMMON_NS "Contributors") [] [] None [el (qn COMMON_NS "Contributor") [] [(lq "id", "ex:c")] (Some "A") []]]].

Definition sighting_source (text : option string) : tree :=
  package "1.1" [indicator_elem [el (qn INDICATOR_NS "Sighting") [] [] None [el (qn INDICATOR_NS "Source") [] [] text []]]].
