(** * Controlled vocabularies through a whole step. *)

From Coq Require Import String Ascii List Bool Arith Lia.
From Verif Require Import Str Xml XPath Utils Base Tables Spec SpecDoc SpecPass SpecStep
  SpecCheck SpecClean SpecUpdate SpecTrace Lib Refine RefineBase RefineTrans RefineLists RefineSteps Relabel Cybox Stix RefineUpdate Natural Reports UpdateFacts Trace SpecField Fields Carried Follow.
Import ListNotations.
Local Open Scope string_scope.

(** ** The fields a vocabulary works on; the text of the nodes of [D] is not
    looked at. *)

Record fields := Fields { f_elem : bool; f_type : option string; f_ref : option string; f_name : option string;
                          f_text : option (option string); f_storable : bool }.

Definition string_of (p : pystr) : string := match p with PStr s => s | PTuple s => s end.
Definition if_present (old : option string) (new : string) : option string :=
  match old with Some _ => Some new | None => None end.

(** A tuple cannot be stored in an attribute: [f_storable] records that this
    was never needed. *)
Definition storable (old : option string) (new : pystr) : bool :=
  match old, new with Some _, PTuple _ => false | _, _ => true end.

Lemma storable_replaced new before after : storable before new = true -> after = if_present before (string_of new) -> replaced_by new before after.
Proof. destruct before, new; cbn; intros; try discriminate; auto. Qed.

Definition fields_of (D : list nat) (h : hdr) : fields :=
  Fields (match h_kind h with KElem => true | _ => false end) (attr_of TAG_XSI_TYPE h) (attr_of (lq "vocab_reference") h)
    (attr_of (lq "vocab_name") h) (if existsb (Nat.eqb (h_id h)) D then None else Some (h_text h)) true.

Definition hits (v : vocab) (look : string -> bool) (F : fields) : option string :=
  match f_type F with
  | Some s => match split_char ":" s with
              | [a; n] => if f_elem F && look a && mem_str n (v_old_types v) then Some a else None
              | _ => None
              end
  | None => None
  end.

Definition upg (v : vocab) (look : string -> bool) (F : fields) : fields :=
  match hits v look F with
  | Some a => Fields (f_elem F) (Some (a ++ ":" ++ v_new_type v)) (if_present (f_ref F) (string_of (v_reference v)))
                (if_present (f_name F) (string_of (v_name v)))
                (option_map (option_map (fun s => lookup s s (v_terms v))) (f_text F))
                (f_storable F && storable (f_ref F) (v_reference v) && storable (f_name F) (v_name v))
  | None => F
  end.

Definition looks (n : string) (b : list tree) (y : tree) (a : string) : bool := inside b && seen n a (y :: b).

Lemma outdated_hits D v b y : outdated v (b, y) = match hits v (looks (v_namespace v) b y) (fields_of D (head y)) with
                                                   | Some _ => true | None => false end.
Proof.
  unfold outdated, typed, type_of, hits, looks, seen, is_elem. cbn [fst snd f_type fields_of f_elem]. unfold has_attr, attr_of.
  destruct (attr_get TAG_XSI_TYPE (h_attr (head y))) as [s|]; [|rewrite andb_false_r; reflexivity].
  rewrite andb_true_r. destruct (split_char ":" s) as [|a [|n [|]]]; try (rewrite andb_false_r; reflexivity).
  unfold env_of. destruct (inside b); [|rewrite andb_false_r; reflexivity].
  destruct (h_kind (head y)); cbn [andb]; try reflexivity.
  destruct (env_get (Some a) _) as [u|]; [|reflexivity]. cbn [ostr_eqb].
  destruct (String.eqb u (v_namespace v)); cbn [andb]; [|reflexivity].
  destruct (mem_str n (v_old_types v)); reflexivity.
Qed.

Lemma set_if_present_get k s h0 h h' : set_if_present k s h0 h = Ok h' -> attr_of k h = attr_of k h0 ->
  attr_of k h' = if_present (attr_of k h0) (string_of s).
Proof.
  unfold set_if_present, has_attr. fold (attr_of k h0). intros E S. destruct (attr_of k h0) eqn:A.
  - destruct s; [|discriminate]. injection E as <-. rewrite attr_of_set_same. reflexivity.
  - injection E as <-. exact S.
Qed.

Lemma set_if_present_storable k s h0 h h' : set_if_present k s h0 h = Ok h' -> storable (attr_of k h0) s = true.
Proof.
  unfold set_if_present, has_attr. fold (attr_of k h0). destruct (attr_of k h0), s; auto; discriminate.
Qed.

Lemma upgraded_fields D v b y h : outdated v (b, y) = true -> upgraded v (b, y) = Ok h ->
  fields_of D h = upg v (looks (v_namespace v) b y) (fields_of D (head y)).
Proof.
  intros O U. pose proof (upgraded_keeps v (b, y) h O U) as K. cbn [snd] in K.
  rewrite (outdated_hits D) in O. unfold upg. destruct (hits v _ _) as [a|] eqn:Hi; [|discriminate].
  destruct (upgraded_shape _ _ _ _ U) as (al & n & NN & Sp & W).
  assert (a = al) as ->.
  { unfold hits in Hi. cbn [f_type fields_of] in Hi. unfold attr_of in Hi.
    destruct (attr_get TAG_XSI_TYPE (h_attr (head y))) as [s|]; [|contradiction]. rewrite Sp in Hi.
    destruct (_ && _); [|discriminate]. injection Hi as <-. reflexivity. }
  pose proof (upgraded_type _ _ _ _ W) as Ty. pose proof (upgraded_with_same _ _ _ _ W) as (_ & Kd & _ & _).
  unfold fields_of at 1. rewrite Kd, K. unfold attr_of at 1. rewrite Ty. clear K Kd Ty Hi Sp NN U O.
  unfold upgraded_with in W. destruct (set_if_present _ _ (head y) _) as [h1|] eqn:E1 in W; [|discriminate]. cbn [rbind] in W.
  destruct (set_if_present _ _ (head y) h1) as [h2|] eqn:E2; [|discriminate]. cbn [rbind] in W. injection W as <-.
  assert (R1 : attr_of (lq "vocab_reference") h1 = if_present (attr_of (lq "vocab_reference") (head y)) (string_of (v_reference v))).
  { eapply set_if_present_get; eauto. apply attr_of_set. discriminate. }
  assert (R2 : attr_of (lq "vocab_name") h2 = if_present (attr_of (lq "vocab_name") (head y)) (string_of (v_name v))).
  { eapply set_if_present_get; eauto. rewrite (attr_of_set_if _ _ _ _ _ _ E1) by discriminate. apply attr_of_set. discriminate. }
  assert (R3 : attr_of (lq "vocab_reference") h2 = attr_of (lq "vocab_reference") h1) by (eapply attr_of_set_if; eauto; discriminate).
  assert (T1 : h_text h2 = h_text (head y)).
  { apply set_if_present_same in E1 as (_ & _ & _ & _ & A & _), E2 as (_ & _ & _ & _ & B & _). rewrite B, A. reflexivity. }
  unfold fields_of. cbn [f_elem f_ref f_name f_text f_storable]. rewrite (set_if_present_storable _ _ _ _ _ E1), (set_if_present_storable _ _ _ _ _ E2).
  cbn [andb]. rewrite <- R1, <- R2, <- R3. fold (tid y).
  destruct (h_text (head y)) as [s|] eqn:Te.
  - unfold lookup. destruct (dict_get s (v_terms v)) as [w|] eqn:Dg.
    + f_equal. unfold tid. destruct (existsb _ D); auto. cbn [option_map set_text h_text]. rewrite Dg. reflexivity.
    + f_equal. unfold tid. destruct (existsb _ D); auto. cbn [option_map]. rewrite T1, Dg. reflexivity.
  - f_equal. unfold tid. destruct (existsb _ D); auto. cbn [option_map]. rewrite T1. reflexivity.
Qed.

Lemma vocab_traced D ns v t e : vocab_pass v t = Ok e ->
  traced (scopes ns) (fun b y h' => fields_of D h' = upg v (looks (v_namespace v) b y) (fields_of D (head y))) [] t [] e.
Proof.
  intro E. unfold vocab_pass in E. destruct (first_err type_of _); [discriminate|].
  destruct (first_err (upgraded v) (filter (outdated v) (visits [] t))) eqn:Fe; [discriminate|]. injection E as <-.
  apply traced_edit.
  - intros b y. destruct (outdated v (b, y)) eqn:O; auto.
    destruct (upgraded v (b, y)) as [h|] eqn:U; auto. exact (upgraded_keeps v (b, y) h O U).
  - apply scopes_refl.
  - intros b y _. apply scopes_push. destruct (outdated v (b, y)); auto. destruct (upgraded v (b, y)) as [h|] eqn:U; auto.
    unfold upgraded in U. destruct (type_of _) as [i|]; [|discriminate]. cbn [rbind snd head] in U.
    apply upgraded_with_same in U as (_ & _ & A & _). exact A.
  - intros b y I. destruct (outdated v (b, y)) eqn:O.
    + destruct (upgraded v (b, y)) as [h|x] eqn:U; [apply upgraded_fields; auto|].
      exfalso. assert (In (b, y) (filter (outdated v) (visits [] t))) by (apply filter_In; auto).
      clear -Fe U H. induction (filter (outdated v) (visits [] t)) as [|c l IH]; [destruct H|]. simpl in Fe.
      destruct H as [->|H]; [rewrite U in Fe; discriminate|]. destruct (upgraded v c); [auto|discriminate].
    + rewrite (outdated_hits D) in O. unfold upg. destruct (hits v _ _); [discriminate|reflexivity].
Qed.

Lemma upg_ext v l l' F : (forall a, l a = l' a) -> upg v l F = upg v l' F.
Proof. intro H. unfold upg, hits. destruct (f_type F) as [s|]; auto. destruct (split_char ":" s) as [|a [|n [|]]]; auto. rewrite H. reflexivity. Qed.

Lemma looks_scopes ns n b y b' y' : In n ns -> scopes ns b b' -> scopes ns (y :: b) (y' :: b') -> forall a, looks n b y a = looks n b' y' a.
Proof. intros Hn [I _] [_ H] a. unfold looks. rewrite I, (H n a Hn). reflexivity. Qed.

(** [upgs vs b y F]: all vocabularies of [vs] in turn, at the place of [y]. *)
Definition upgs (vs : list vocab) (b : list tree) (y : tree) (F : fields) : fields :=
  fold_left (fun F v => upg v (looks (v_namespace v) b y) F) vs F.

Lemma upgs_scopes ns vs b y b' y' F : (forall v, In v vs -> In (v_namespace v) ns) -> scopes ns b b' -> scopes ns (y :: b) (y' :: b') ->
  upgs vs b y F = upgs vs b' y' F.
Proof.
  intros H S S'. revert F. unfold upgs. induction vs as [|v vs IH]; intro F; auto. simpl.
  rewrite (upg_ext v _ (looks (v_namespace v) b' y')) by (eapply looks_scopes; eauto; apply H; left; auto).
  apply IH. intros w Hw. apply H. right. auto.
Qed.

Definition upgraded_by (D : list nat) (vs : list vocab) : change :=
  fun b y h' => fields_of D h' = upgs vs b y (fields_of D (head y)).

Lemma upgraded_by_trans D ns vs1 vs2 a b c : (forall v, In v (vs1 ++ vs2) -> In (v_namespace v) ns) ->
  traced (scopes ns) (upgraded_by D vs1) [] a [] b -> traced (scopes ns) (upgraded_by D vs2) [] b [] c ->
  traced (scopes ns) (upgraded_by D (vs1 ++ vs2)) [] a [] c.
Proof.
  intros H T1 T2. eapply traced_impl; [|eapply traced_trans; [apply scopes_trans|exact T1|exact T2]].
  intros p y h' _ (q & z & S & S' & E1 & E2). unfold upgraded_by in *. rewrite E2, E1.
  unfold upgs at 3. rewrite fold_left_app. symmetry. apply (upgs_scopes ns); auto. intros v Hv. apply H. apply in_or_app. auto.
Qed.

Lemma follows_upgraded D ns f t e : follows (fields_of D) ns f t -> f t = Ok e -> traced (scopes ns) (upgraded_by D []) [] t [] e.
Proof. intros H E. exact (H e E). Qed.

Lemma vocabs_traced D ns vs t e : (forall v, In v vs -> In (v_namespace v) ns) -> passes vocab_pass vs t = Ok e ->
  traced (scopes ns) (upgraded_by D vs) [] t [] e.
Proof.
  revert t. induction vs as [|v vs IH]; intros t H E.
  - injection E as <-. apply traced_refl; [intro; apply scopes_push; reflexivity|intros; reflexivity|apply scopes_refl].
  - rewrite passes_cons in E. destruct (vocab_pass v t) as [m|] eqn:E1; [|discriminate].
    apply (upgraded_by_trans D ns [v] vs t m e); auto.
    + exact (vocab_traced D ns v t m E1).
    + apply IH; auto. intros w Hw. apply H. right. auto.
Qed.

Lemma vocabs_when D ns b vs t e : (forall v, In v vs -> In (v_namespace v) ns) -> when b (passes vocab_pass vs) t = Ok e ->
  traced (scopes ns) (upgraded_by D (if b then vs else [])) [] t [] e.
Proof.
  intros H E. destruct b; [exact (vocabs_traced D ns vs t e H E)|]. injection E as <-.
  apply traced_refl; [intro; apply scopes_push; reflexivity|intros; reflexivity|apply scopes_refl].
Qed.

Lemma vocab_one v t : vocab_pass v t = passes vocab_pass [v] t.
Proof. rewrite passes_cons. destruct (vocab_pass v t); reflexivity. Qed.

(** ** From [upgs] to the rule *)

(** No vocabulary of the list takes up the new type of an earlier one. *)
Fixpoint independent (vs : list vocab) : bool :=
  match vs with
  | [] => true
  | v :: vs' => forallb (fun w => negb (mem_str (v_new_type v) (v_old_types w)) &&
                          forallb (fun n => negb (mem_str n (v_old_types v))) (v_old_types w)) vs'
                && match split_char ":" (v_new_type v) with [w] => String.eqb w (v_new_type v) | _ => false end && independent vs'
  end.

Lemma upgs_none vs b y F : (forall v, In v vs -> hits v (looks (v_namespace v) b y) F = None) -> upgs vs b y F = F.
Proof.
  intro H. unfold upgs. induction vs as [|v vs IH]; auto. simpl. unfold upg at 2. rewrite (H v (or_introl eq_refl)).
  apply IH. intros w Hw. apply H. right. auto.
Qed.

Lemma hits_name v look F a : hits v look F = Some a -> exists s n, f_type F = Some s /\ split_char ":" s = [a; n] /\ mem_str n (v_old_types v) = true.
Proof.
  unfold hits. destruct (f_type F) as [s|]; [|discriminate]. destruct (split_char ":" s) as [|x [|n [|]]] eqn:S; try discriminate.
  destruct (_ && _) eqn:E; [|discriminate]. intro H. injection H as <-. exists s, n. apply andb_true_iff in E as [_ E]. auto.
Qed.

Lemma hits_not v look F s a n : f_type F = Some s -> split_char ":" s = [a; n] -> mem_str n (v_old_types v) = false -> hits v look F = None.
Proof. intros T S M. unfold hits. rewrite T, S, M, andb_false_r. reflexivity. Qed.

Lemma mem_str_In x l : mem_str x l = true <-> In x l.
Proof.
  unfold mem_str. rewrite existsb_exists. split; [intros (y & Hy & E); apply String.eqb_eq in E; subst; auto|].
  intro H. exists x. rewrite String.eqb_refl. auto.
Qed.

Lemma upgs_hit vs b y F v a : independent vs = true -> In v vs -> hits v (looks (v_namespace v) b y) F = Some a ->
  upgs vs b y F = upg v (looks (v_namespace v) b y) F.
Proof.
  revert F. induction vs as [|w vs IH]; intros F Ind Hv Hi; [destruct Hv|]. cbn [independent] in Ind.
  apply andb_true_iff in Ind as [Ind Iv]. apply andb_true_iff in Ind as [Iw Sw]. rewrite forallb_forall in Iw.
  destruct Hv as [->|Hv].
  - change (upgs (v :: vs) b y F) with (upgs vs b y (upg v (looks (v_namespace v) b y) F)). apply upgs_none.
    intros u Hu. destruct (hits_name _ _ _ _ Hi) as (s & n & T & S & M).
    unfold upg. rewrite Hi. eapply (hits_not u _ _ _ a (v_new_type v)); [reflexivity| |].
    + change (":" ++ v_new_type v) with (String ":" (v_new_type v)). rewrite split_char_app.
      * destruct (split_char ":" (v_new_type v)) as [|x [|]]; try discriminate. apply String.eqb_eq in Sw. subst x. reflexivity.
      * eapply split_char_part. rewrite S. left. reflexivity.
    + specialize (Iw u Hu). apply andb_true_iff in Iw as [Iw _]. apply negb_true_iff in Iw. exact Iw.
  - change (upgs (w :: vs) b y F) with (upgs vs b y (upg w (looks (v_namespace w) b y) F)).
    destruct (hits_name _ _ _ _ Hi) as (s & n & T & S & M).
    assert (E : upg w (looks (v_namespace w) b y) F = F).
    { unfold upg. rewrite (hits_not w _ F s a n); auto. specialize (Iw v Hv). apply andb_true_iff in Iw as [_ Iw].
      rewrite forallb_forall in Iw. apply mem_str_In in M. apply Iw in M. apply negb_true_iff in M. exact M. }
    rewrite E. apply IH; auto.
Qed.

Lemma type_of_hits D v b y a : hits v (looks (v_namespace v) b y) (fields_of D (head y)) = Some a ->
  exists name ns, type_of (b, y) = Ok (a, name, ns).
Proof.
  unfold hits, type_of. cbn [f_type fields_of fst snd]. unfold attr_of. destruct (attr_get TAG_XSI_TYPE _) as [s|]; [|discriminate].
  destruct (split_char ":" s) as [|x [|n [|]]]; try discriminate. destruct (_ && _) eqn:E; [|discriminate].
  intro H. injection H as <-. apply andb_true_iff in E as [E _]. apply andb_true_iff in E as [_ E].
  unfold looks, seen in E. apply andb_true_iff in E as [_ E]. unfold env_of.
  destruct (env_get (Some x) _) as [u|]; [|discriminate]. eauto.
Qed.

Definition with_text (x : option (option string)) (F : fields) : fields := Fields (f_elem F) (f_type F) (f_ref F) (f_name F) x (f_storable F).

Lemma upgraded_retyped D x vs b y h' : independent vs = true ->
  fields_of D h' = upgs vs b y (with_text x (fields_of D (head y))) -> retyped vs b y h'.
Proof.
  intros Ind U. split.
  - intros v Hv O. rewrite (outdated_hits D) in O. destruct (hits v _ _) as [a|] eqn:Hi in O; [|discriminate].
    rewrite (upgs_hit vs b y (with_text x (fields_of D (head y))) v a Ind Hv Hi) in U. unfold upg in U.
    change (hits v (looks (v_namespace v) b y) (with_text x (fields_of D (head y)))) with
      (hits v (looks (v_namespace v) b y) (fields_of D (head y))) in U. rewrite Hi in U.
    pose proof (f_equal f_type U) as U1. pose proof (f_equal f_ref U) as U2. pose proof (f_equal f_name U) as U3.
    pose proof (f_equal f_storable U) as U4. cbn in U1, U2, U3, U4. symmetry in U4. apply andb_true_iff in U4 as [U4 U5].
    destruct (type_of_hits D v b y a Hi) as (n & u & T). split; [exists a, n, u; auto|].
    split; [exact (storable_replaced _ _ _ U4 U2)|exact (storable_replaced _ _ _ U5 U3)].
  - intros O k Hk. rewrite upgs_none in U.
    + pose proof (f_equal f_type U) as U1. pose proof (f_equal f_ref U) as U2. pose proof (f_equal f_name U) as U3. cbn in U1, U2, U3.
      destruct Hk as [<-|[<-|[<-|[]]]]; auto.
    + intros v Hv. specialize (O v Hv). rewrite (outdated_hits D) in O. cbn [with_text]. 
      destruct (hits v _ _) eqn:Hi in O; [discriminate|exact Hi].
Qed.

Lemma upgraded_reworded D x vs b y h' : independent vs = true ->
  fields_of D h' = upgs vs b y (with_text (Some x) (fields_of D (head y))) -> ~ In (h_id h') D -> reworded vs b y x h'.
Proof.
  intros Ind U N.
  assert (X : existsb (Nat.eqb (h_id h')) D = false).
  { destruct (existsb _ D) eqn:E; auto. apply existsb_exists in E as (i & Hi & E). apply Nat.eqb_eq in E. subst i. contradiction. }
  split.
  - intros v Hv O. rewrite (outdated_hits D) in O. destruct (hits v _ _) as [a|] eqn:Hi in O; [|discriminate].
    rewrite (upgs_hit vs b y (with_text (Some x) (fields_of D (head y))) v a Ind Hv Hi) in U. unfold upg in U.
    change (hits v (looks (v_namespace v) b y) (with_text (Some x) (fields_of D (head y)))) with
      (hits v (looks (v_namespace v) b y) (fields_of D (head y))) in U. rewrite Hi in U.
    pose proof (f_equal f_text U) as U1. cbn in U1. rewrite X in U1. injection U1 as U1. exact U1.
  - intros O. rewrite upgs_none in U.
    + pose proof (f_equal f_text U) as U1. cbn in U1. rewrite X in U1. injection U1 as U1. exact U1.
    + intros v Hv. specialize (O v Hv). rewrite (outdated_hits D) in O. destruct (hits v _ _) eqn:Hi in O; [discriminate|exact Hi].
Qed.

Lemma upgraded_by_retyped D vs b y h' : independent vs = true -> upgraded_by D vs b y h' -> retyped vs b y h'.
Proof. intros Ind U. apply (upgraded_retyped D (f_text (fields_of D (head y)))); auto. Qed.

Lemma upgraded_by_reworded D vs b y h' : independent vs = true -> upgraded_by D vs b y h' -> tid y = h_id h' ->
  ~ In (tid y) D -> reworded vs b y (h_text (head y)) h'.
Proof.
  intros Ind U K N. apply (upgraded_reworded D); auto; [|rewrite <- K; auto].
  unfold upgraded_by in U. rewrite U. unfold fields_of, with_text. cbn.
  assert (X : existsb (Nat.eqb (h_id (head y))) D = false).
  { destruct (existsb _ D) eqn:E; auto. apply existsb_exists in E as (i & Hi & E). apply Nat.eqb_eq in E. subst i. contradiction. }
  rewrite X. reflexivity.
Qed.

(** ** The other passes keep the fields *)

Lemma fields_set D k s h : ~ In k vocabulary_attributes -> fields_of D (hset_attr k s h) = fields_of D h.
Proof.
  intro N. unfold fields_of. rewrite !(attr_of_set _ k) by (intros <-; apply N; simpl; auto). reflexivity.
Qed.

Lemma fields_del D k h : ~ In k vocabulary_attributes -> fields_of D (hdel_attr k h) = fields_of D h.
Proof.
  intro N. unfold fields_of. rewrite !(attr_of_del _ k) by (intros <-; apply N; simpl; auto). reflexivity.
Qed.

Ltac not_vocab := let H := fresh in intro H; simpl in H; decompose [or] H; try discriminate; try contradiction.

Lemma fields_stamp_stix D i w h : fields_of D (stamp_stix i w h) = fields_of D h.
Proof. apply fields_set. not_vocab. Qed.

Lemma fields_stamp_2_0_1 D h : fields_of D (stamp_cybox_2_0_1 h) = fields_of D h.
Proof. unfold stamp_cybox_2_0_1. rewrite !fields_set by not_vocab. reflexivity. Qed.

Lemma fields_stamp_2_1 D h : fields_of D (stamp_cybox_2_1 h) = fields_of D h.
Proof. unfold stamp_cybox_2_1. rewrite fields_del, !fields_set by not_vocab. reflexivity. Qed.

Lemma follows_loc_fields D ns drop m loc t : follows (fields_of D) ns (always (schemaloc_pass drop m loc)) t.
Proof. apply follows_loc. intros v h. apply fields_set. not_vocab. Qed.

Lemma follows_stix_stamp D ns p i w t : follows (fields_of D) ns (always (edit_where p (stamp_stix i w))) t.
Proof. apply follows_edit_where; [intro; reflexivity|intro; reflexivity|]. intros b y _. apply fields_stamp_stix. Qed.

Lemma follows_2_0_1_stamp D ns p t : follows (fields_of D) ns (always (edit_where p stamp_cybox_2_0_1)) t.
Proof. apply follows_edit_where; [intro; reflexivity|intro; reflexivity|]. intros b y _. apply fields_stamp_2_0_1. Qed.

Lemma follows_2_1_stamp D ns p t : follows (fields_of D) ns (always (edit_where p stamp_cybox_2_1)) t.
Proof. apply follows_edit_where; [intro; reflexivity|intro; reflexivity|]. intros b y _. apply fields_stamp_2_1. Qed.

Lemma follows_rename_fields D ns old new t : follows (fields_of D) ns (rename old new) t.
Proof. apply follows_rename. reflexivity. Qed.

Ltac followings :=
  repeat first
    [ apply follows_nil | apply follows_loc_fields | apply follows_stix_stamp | apply follows_2_0_1_stamp | apply follows_2_1_stamp
    | apply follows_rename_fields | apply follows_child_value | apply follows_as_string | apply follows_source | apply follows_wrap
    | apply follows_wrap_renamed; reflexivity | apply follows_optional | apply follows_optional_in_type
    | apply follows_when; intro | apply follows_cons; [|intros ? _] ].

Lemma no_vocab D ns f t e : follows (fields_of D) ns f t -> f t = Ok e -> traced (scopes ns) (upgraded_by D []) [] t [] e.
Proof. intros H E. exact (H e E). Qed.

Lemma upgraded_by_pre D ns vs f t m e : (forall v, In v vs -> In (v_namespace v) ns) -> follows (fields_of D) ns f t -> f t = Ok m ->
  traced (scopes ns) (upgraded_by D vs) [] m [] e -> traced (scopes ns) (upgraded_by D vs) [] t [] e.
Proof. intros H F E T. exact (upgraded_by_trans D ns [] vs t m e H (F m E) T). Qed.

Lemma upgraded_by_post D ns vs f t m e : (forall v, In v vs -> In (v_namespace v) ns) -> follows (fields_of D) ns f m -> f m = Ok e ->
  traced (scopes ns) (upgraded_by D vs) [] t [] m -> traced (scopes ns) (upgraded_by D vs) [] t [] e.
Proof.
  intros H F E T. rewrite <- (app_nil_r vs). refine (upgraded_by_trans D ns vs [] t m e _ T (F e E)). rewrite app_nil_r. exact H.
Qed.

(** ** STIX 1.1 and 1.1.1 *)

Definition NSV : list string := ["http://cybox.mitre.org/default_vocabularies-2"; NS_STIX_VOCABS].

Ltac in_nsv := let v := fresh "v" in let H := fresh "H" in intros v H;
  repeat match goal with H : In _ (if ?b then _ else _) |- _ => destruct b end;
  repeat (destruct H as [<-|H]; [simpl; auto|]); destruct H.

Ltac pre E :=
  let m := fresh "m" in let E1 := fresh "E" in
  apply in_order_ok in E as (m & E1 & E); refine (upgraded_by_pre _ _ _ _ _ _ _ _ _ E1 _);
  [solve [in_nsv]|followings|clear E1].

Lemma stix_1_1_vocab o opts t e : stix_1_1_step o opts t = Ok e ->
  traced (scopes NSV) (upgraded_by [] (if update_vocabularies opts then [availability_loss] else [])) [] t [] e.
Proof.
  unfold stix_1_1_step. intro E.
  do 6 (pre E).
  apply in_order_ok in E as (u & E1 & E). apply in_order_ok in E as (u' & E2 & E). rewrite in_order_nil in E. injection E as <-.
  eapply upgraded_by_post; [in_nsv| |exact E2|]; [followings|].
  apply vocabs_when; [in_nsv|]. unfold when in *. destruct (update_vocabularies opts); [rewrite <- vocab_one|]; exact E1.
Qed.

Lemma stix_1_1_1_vocab opts t e : stix_1_1_1_step opts t = Ok e ->
  traced (scopes NSV) (upgraded_by [] (if update_vocabularies opts then [discovery_method] else [])) [] t [] e.
Proof.
  unfold stix_1_1_1_step. intro E.
  do 2 (pre E).
  apply in_order_ok in E as (u & E1 & E). rewrite in_order_nil in E. injection E as <-.
  apply vocabs_when; [in_nsv|]. unfold when in *. destruct (update_vocabularies opts); [rewrite <- vocab_one|]; exact E1.
Qed.

(** ** A property of all headers, through the passes *)

Definition all (Q : hdr -> Prop) (t : tree) : Prop := forall x, In x (nodes t) -> Q (head x).
Definition invariant (Q : hdr -> Prop) (f : tree -> res tree) : Prop := forall t e, f t = Ok e -> all Q t -> all Q e.

Lemma all_sub (Q : hdr -> Prop) t k : all Q t -> In k (nodes t) -> all Q k.
Proof. intros H Hk x Hx. apply H. eapply nodes_sub; eauto. Qed.

Lemma invariant_edit (Q : hdr -> Prop) f : (forall b y, Q (head y) -> Q (f b y)) -> invariant Q (always (edit f [])).
Proof.
  intros H t e E A. injection E as <-. intros x Hx. destruct (nodes_edit f t [] x Hx) as (b & y & I & ->). apply H. apply A.
  apply nodes_in. eauto.
Qed.

Lemma invariant_edit_where (Q : hdr -> Prop) p g : (forall h, Q h -> Q (g h)) -> invariant Q (always (edit_where p g)).
Proof. intros H. apply invariant_edit. intros b y Hy. destruct (p b y); auto. Qed.

Lemma invariant_on_root (Q : hdr -> Prop) g : (forall h, Q h -> Q (g h)) -> invariant Q (always (on_root g)).
Proof.
  intros H t e E A. injection E as <-. intros x [<-|Hx]; [apply H; apply A; apply nodes_self|].
  apply A. destruct t as [h ks]. right. exact Hx.
Qed.

Lemma invariant_rename (Q : hdr -> Prop) old new : (forall h, h_tag h = old -> Q h -> Q (set_tag new h)) -> invariant Q (rename old new).
Proof.
  intros H. apply invariant_edit. intros b y Hy. destruct (any_inside [old] b y) eqn:E; auto.
  apply any_inside_one in E as [T _]. auto.
Qed.

Lemma invariant_subst (Q : hdr -> Prop) F t : (forall b k l z, In (b, k) (visits [] t) -> F b k = Some l -> In z l -> all Q k -> all Q z) ->
  all Q t -> all Q (subst_nodes F [] t).
Proof.
  intros H A x Hx. destruct (nodes_subst F t [] x Hx) as [(y & Hy & ->)|(b & k & l & z & I & E & Hz & Hxz)]; [auto|].
  eapply H; eauto. eapply all_sub; eauto. apply nodes_in. eauto.
Qed.

Lemma invariant_rewrite (Q : hdr -> Prop) p G : (forall b k e, p b k = true -> G k = Ok e -> all Q k -> all Q e) -> invariant Q (rewrite_all p G).
Proof.
  intros H t e E A. unfold rewrite_all in E. destruct (first_err _ _); [discriminate|]. injection E as <-.
  apply invariant_subst; auto. intros b k l z I E Hz Ak. destruct (p b k) eqn:P; [|discriminate].
  destruct (G k) as [e'|] eqn:Gk; [|discriminate]. injection E as <-. destruct Hz as [<-|[]]. eauto.
Qed.

Lemma invariant_ns (Q : hdr -> Prop) drop m : (forall b y, moves m y = true -> Q (head y) -> Q (rebuilt drop m b y)) ->
  invariant Q (namespaces_pass drop m).
Proof.
  intros H t e E A. apply namespaces_ok in E as ->. intros x Hx. destruct (nodes_ns drop m t [] x Hx) as (b & y & I & E).
  assert (Qy : Q (head y)) by (apply A, nodes_in; eauto). destruct E as [->|[M ->]]; auto.
Qed.

Lemma invariant_prune (Q : hdr -> Prop) p t : all Q t -> all Q (prune p t).
Proof. apply invariant_subst. intros b k l z _ E Hz _. destruct (p b k); [injection E as <-; destruct Hz|discriminate]. Qed.

Lemma invariant_cons (Q : hdr -> Prop) f l : invariant Q f -> invariant Q (in_order l) -> invariant Q (in_order (f :: l)).
Proof. intros H H' t e E A. apply in_order_ok in E as (m & E1 & E2). eauto. Qed.

Lemma invariant_nil (Q : hdr -> Prop) : invariant Q (in_order []).
Proof. intros t e E A. rewrite in_order_nil in E. injection E as <-. exact A. Qed.

Lemma invariant_when (Q : hdr -> Prop) b f : invariant Q f -> invariant Q (when b f).
Proof. intros H t e E A. unfold when in E. destruct b; [eauto|]. injection E as <-. exact A. Qed.

Lemma invariant_passes {A} (Q : hdr -> Prop) (f : A -> tree -> res tree) l : (forall x, In x l -> invariant Q (f x)) -> invariant Q (passes f l).
Proof.
  induction l as [|x l IH]; intros H t e E A0.
  - injection E as <-. exact A0.
  - rewrite passes_cons in E. destruct (f x t) as [m|] eqn:E1; [|discriminate]. eapply IH; eauto.
    + intros y Hy. apply H. right. auto.
    + eapply H; eauto. left. auto.
Qed.

Lemma invariant_vocab (Q : hdr -> Prop) v : (forall b y h, Q (head y) -> upgraded v (b, y) = Ok h -> Q h) -> invariant Q (vocab_pass v).
Proof.
  intros H t e E A. unfold vocab_pass in E. destruct (first_err type_of _); [discriminate|].
  destruct (first_err (upgraded v) _); [discriminate|]. injection E as <-.
  refine (invariant_edit Q _ _ t _ eq_refl A). intros b y Hy. destruct (outdated v (b, y)); auto.
  destruct (upgraded v (b, y)) as [h|] eqn:U; eauto.
Qed.

(** *** No declarations *)

Definition plain (qs : list qname) (h : hdr) : Prop := one_of qs h = true -> h_decl h = [].

Lemma plain_same qs h h' : h_tag h' = h_tag h -> h_kind h' = h_kind h -> h_decl h' = h_decl h -> plain qs h -> plain qs h'.
Proof.
  intros T K D H O. rewrite D. apply H. revert O. unfold one_of, named_in, named. cbn [head]. rewrite T, K. auto.
Qed.

Lemma plain_tag qs q h : existsb (fun p => qn_eqb q p) qs = false -> plain qs (set_tag q h).
Proof. intros E O. rewrite one_of_set in O by auto. discriminate. Qed.

Lemma plain_new qs q a s h : plain qs (Hdr 0 KElem q [] a s false h).
Proof. intros _. reflexivity. Qed.

Lemma all_plain qs t : declares_nothing qs t <-> all (plain qs) t.
Proof. split; intros H x Hx; exact (H x Hx). Qed.

Lemma plain_incl qs qs' h : incl qs' qs -> plain qs h -> plain qs' h.
Proof. intros I H O. apply H. eapply one_of_incl; eauto. Qed.

Lemma declares_incl qs qs' t : incl qs' qs -> declares_nothing qs t -> declares_nothing qs' t.
Proof. intros I H. apply all_plain. apply all_plain in H. intros x Hx. exact (plain_incl qs qs' (head x) I (H x Hx)). Qed.

Lemma plain_vocab qs v : invariant (plain qs) (vocab_pass v).
Proof.
  apply invariant_vocab. intros b y h Hy U. destruct (upgraded_shape _ _ _ _ U) as (a & n & _ & _ & W).
  apply upgraded_with_same in W as (T & K & D & _). eapply plain_same; eauto.
Qed.

Lemma plain_loc qs drop m loc : invariant (plain qs) (always (schemaloc_pass drop m loc)).
Proof. apply invariant_on_root. intros h H. destruct (attr_get _ _); auto. Qed.

Lemma plain_child_value qs p q : invariant (plain qs) (rewrite_all p (value_of_child q)).
Proof.
  apply invariant_rewrite. intros b k e _ E A. unfold value_of_child in E. destruct (filter _ _); [discriminate|]. injection E as <-.
  intros x [<-|[]]. apply plain_new.
Qed.

Lemma plain_as_string qs p : invariant (plain qs) (rewrite_all p as_string).
Proof. apply invariant_rewrite. intros b k e _ E A. injection E as <-. intros x [<-|[]]. apply plain_new. Qed.

Lemma plain_driver qs : 
  forallb (fun q => negb (ostr_eqb (q_ns q) (Some "http://cybox.mitre.org/objects#WinDriverObject-3"))) qs = true ->
  invariant (plain qs) (namespaces_pass [] driver_ns).
Proof. intro H. apply invariant_ns. intros b y M _ O. rewrite driver_free in O by auto. discriminate. Qed.

Lemma plain_optional qs p : invariant (plain qs) (always (optional_pass p)).
Proof. intros t e E A. injection E as <-. apply invariant_prune. exact A. Qed.

Ltac plains :=
  first [ apply plain_loc | apply plain_child_value | apply plain_as_string | apply plain_optional
        | apply invariant_rename; intros; apply plain_tag; reflexivity | apply plain_driver; reflexivity | apply plain_vocab
        | apply invariant_edit_where; intros ? ?; eapply plain_same; [..|eassumption]; reflexivity ].

(** One pass that follows the fields and keeps the declarations away. *)
Ltac prep E Dn :=
  let m := fresh "m" in let E1 := fresh "E" in
  apply in_order_ok in E as (m & E1 & E); refine (upgraded_by_pre _ _ _ _ _ _ _ _ _ E1 _);
  [solve [in_nsv]|solve [followings]|];
  match type of Dn with all ?Q ?t => let H := fresh in assert (H : all Q m) by (refine ((_ : invariant Q _) t m E1 Dn); plains); clear Dn; rename H into Dn end;
  clear E1.

(** ** CybOX 2.0.1 and STIX 1.0.1 *)

Definition driver_labels (t : tree) : list nat := map tid (filter (moves driver_ns) (nodes t)).

Lemma away_driver : away driver_ns NSV.
Proof.
  intros n Hn u. unfold new_ns, lookup, driver_ns. cbn [dict_get]. 
  destruct (String.eqb_spec u "http://cybox.mitre.org/objects#WinDriverObject-2") as [->|N]; [|tauto].
  destruct Hn as [<-|[<-|[]]]; split; discriminate.
Qed.

Lemma follows_driver D t : is_elem t = true -> distinct_attributes t -> incl (driver_labels t) D ->
  follows (fields_of D) NSV (namespaces_pass [] driver_ns) t.
Proof.
  intros El DA I. apply follows_ns; [apply away_driver|]. intros b y Iy Ey M.
  assert (Hy : In y (nodes t)) by (apply nodes_in; eauto).
  assert (Ky : is_elem y = true).
  { destruct b as [|p b]; [|apply Ey; reflexivity]. destruct t as [h ks]. destruct Iy as [E|Iy]; [injection E as <-; exact El|].
    apply in_flat_map in Iy as (k & _ & Iy). exfalso. destruct (visits_anc_app k _ _ _ Iy) as (q & E). destruct q; discriminate. }
  unfold fields_of. rewrite !attr_of_rebuilt by (apply DA; exact Hy). unfold rebuilt. cbn [h_kind h_id h_text].
  unfold is_elem in Ky. destruct (h_kind (head y)); try discriminate.
  assert (X : existsb (Nat.eqb (h_id (head y))) D = true).
  { apply existsb_exists. exists (tid y). split; [|apply Nat.eqb_eq; reflexivity]. apply I. unfold driver_labels.
    apply in_map. apply filter_In. auto. }
  rewrite X. reflexivity.
Qed.

Lemma cybox_2_0_1_vocab D p opts t e : is_elem t = true -> distinct_attributes t -> incl (driver_labels t) D ->
  declares_nothing [object_name "WinMailslot" "Handle"] t -> cybox_2_0_1_step p opts t = Ok e ->
  traced (scopes NSV) (upgraded_by D (if update_vocabularies opts then [object_relationship; tool_type; action_name] else [])) [] t [] e.
Proof.
  intros El DA I Dn E. unfold cybox_2_0_1_step in E. apply all_plain in Dn.
  apply in_order_ok in E as (m0 & E0 & E). refine (upgraded_by_pre _ _ _ _ _ _ _ _ _ E0 _); [in_nsv|apply follows_driver; auto|].
  apply (plain_driver [object_name "WinMailslot" "Handle"] eq_refl t m0 E0) in Dn. clear E0.
  do 9 (prep E Dn).
  apply in_order_ok in E as (mu & E1 & E). refine (upgraded_by_pre _ _ _ _ _ _ _ _ _ E1 _); [in_nsv| |].
  { apply follows_unwrap; [reflexivity|]. intros b k Hk Nk. apply Dn; [apply nodes_in; eauto|]. eapply one_of_named; [|exact Nk]. reflexivity. }
  clear E1. apply in_order_ok in E as (u & E1 & E). apply in_order_ok in E as (u' & E2 & E). rewrite in_order_nil in E. injection E as <-.
  eapply upgraded_by_post; [in_nsv| |exact E2|]; [followings|].
  apply vocabs_when; [in_nsv|]. unfold when in *. destruct (update_vocabularies opts); exact E1.
Qed.

Lemma cybox_2_0_1_plain p opts : invariant (plain [common "Contributors"]) (cybox_2_0_1_step p opts).
Proof.
  unfold cybox_2_0_1_step. do 10 (apply invariant_cons; [plains|]). apply invariant_cons.
  { intros t e E A. injection E as <-. apply invariant_subst; auto. intros b k l z _ E Hz Ak.
    destruct (inside b && named _ k); [|discriminate].
    destruct (filter _ (kids k)) as [|x xs] eqn:Fl; [discriminate|]. injection E as <-. destruct Hz as [<-|[]].
    intros y [<-|Hy]; [apply plain_tag; reflexivity|].
    assert (Hx : In x (kids k)).
    { assert (H : In x (filter (named (object_name "WinHandle" "Handle")) (kids k))) by (rewrite Fl; left; auto). apply filter_In in H. tauto. }
    apply Ak. apply (nodes_kid k x); auto. destruct x as [h ks]. right. exact Hy. }
  apply invariant_cons; [apply invariant_when, invariant_passes; intros; apply plain_vocab|].
  apply invariant_cons; [apply invariant_when; plains|]. apply invariant_nil.
Qed.

Lemma stix_1_0_1_vocab D opts t e : is_elem t = true -> distinct_attributes t -> incl (driver_labels t) D ->
  declares_nothing [common "Contributors"; object_name "WinMailslot" "Handle"] t -> stix_1_0_1_step opts t = Ok e ->
  traced (scopes NSV) (upgraded_by D (if update_vocabularies opts then stix_vocabularies "1.0.1" else [])) [] t [] e.
Proof.
  intros El DA I Dn E. unfold stix_1_0_1_step in E. apply in_order_ok in E as (m & E1 & E).
  assert (Dt : declares_nothing [object_name "WinMailslot" "Handle"] t).
  { refine (declares_incl _ _ _ _ Dn). intros q Hq. right. exact Hq. }
  assert (T1 := cybox_2_0_1_vocab D _ opts t m El DA I Dt E1).
  assert (Dm : all (plain [common "Contributors"]) m).
  { refine (cybox_2_0_1_plain _ opts t m E1 _). apply all_plain. refine (declares_incl _ _ _ _ Dn). intros q [<-|[]]. left. auto. }
  assert (T2 : traced (scopes NSV) (upgraded_by D (if update_vocabularies opts then [motivation_1_1; indicator_type] else [])) [] m [] e).
  { clear T1 E1. do 2 (prep E Dm).
    apply in_order_ok in E as (mu & E1 & E). refine (upgraded_by_pre _ _ _ _ _ _ _ _ _ E1 _); [in_nsv| |].
    { apply follows_contributing; [reflexivity|]. intros b k Hk Nk. apply Dm; [apply nodes_in; eauto|].
      apply any_inside_named in Nk. eapply one_of_named; [|exact Nk]. reflexivity. }
    clear E1 Dm. pre E.
    apply in_order_ok in E as (u & E1 & E). apply in_order_ok in E as (u' & E2 & E). rewrite in_order_nil in E. injection E as <-.
    eapply upgraded_by_post; [in_nsv| |exact E2|]; [followings|].
    apply vocabs_when; [in_nsv|]. unfold when in *. destruct (update_vocabularies opts); exact E1. }
  destruct (update_vocabularies opts).
  - apply (upgraded_by_trans D NSV [object_relationship; tool_type; action_name] [motivation_1_1; indicator_type] t m e); auto. in_nsv.
  - apply (upgraded_by_trans D NSV [] [] t m e); auto. in_nsv.
Qed.

(** ** CybOX 2.0 and STIX 1.0: the list values *)

Definition shape (h : hdr) : kind * qname := (h_kind h, h_tag h).
Definition alike (b A : list tree) : Prop := scopes NSV b A /\ map (fun a => shape (head a)) b = map (fun a => shape (head a)) A.

Lemma alike_push h h' : h_decl h' = h_decl h -> shape h' = shape h -> push alike h h'.
Proof.
  intros D Sh b A ks ks' [Sc M]. split; [apply scopes_push; auto|]. cbn [map head]. rewrite Sh, M. reflexivity.
Qed.

Lemma alike_refl b : alike b b.
Proof. split; [apply scopes_refl|reflexivity]. Qed.

Lemma alike_trans x y z : alike x y -> alike y z -> alike x z.
Proof. intros [A B] [A' B']. split; [eapply scopes_trans; eauto|congruence]. Qed.

Lemma shape_named q p g : shape (head p) = shape (head g) -> named q p = named q g.
Proof. unfold shape, named. intro E. injection E as -> ->. reflexivity. Qed.

Lemma alike_above o p b A : map (fun a => shape (head a)) b = map (fun a => shape (head a)) A -> properties_above o p b = properties_above o p A.
Proof.
  revert A. induction b as [|x b IH]; intros [|x' A] M; try discriminate; auto. injection M as Mk Mt M.
  specialize (IH A M). cbn [properties_above]. destruct b as [|y b], A as [|y' A]; try discriminate; auto.
  injection M as Mk' Mt' _. rewrite IH. rewrite (shape_named p x x'), (shape_named o y y') by (unfold shape; congruence). reflexivity.
Qed.

Definition same_but_attributes : change := fun b y h' => shape h' = shape (head y) /\ fields_of [] h' = fields_of [] (head y).

Lemma repeat_text n h h' : h_text h = h_text h' -> h_text (repeat_edit n h) = h_text (repeat_edit n h').
Proof.
  intro E. induction n as [|n IH]; auto. cbn [repeat_edit]. unfold convert_text. rewrite IH.
  destruct (h_text (repeat_edit n h')) as [s|] eqn:T; [|congruence]. destruct (String.eqb s ""); [congruence|reflexivity].
Qed.

Lemma repeat_rest n h : shape (repeat_edit n h) = shape h /\ h_decl (repeat_edit n h) = h_decl h /\ h_attr (repeat_edit n h) = h_attr h /\
  h_id (repeat_edit n h) = h_id h.
Proof.
  induction n as [|n IH]; auto. cbn [repeat_edit]. unfold convert_text. destruct (h_text _) as [s|]; auto. destruct (String.eqb s ""); auto.
Qed.

Lemma relisted_lists t e : always (lists_pass (cybox "Object") (cybox "Properties")) t = Ok e ->
  traced alike (fun b y h' => fields_of [] h' = with_text (Some (list_text b y)) (fields_of [] (head y))) [] t [] e.
Proof.
  intro E. injection E as <-. unfold lists_pass. apply traced_edit.
  - intros b y. destruct (is_elem y); auto. apply repeat_rest.
  - apply alike_refl.
  - intros b y _. destruct (is_elem y); [|apply alike_push; reflexivity].
    destruct (repeat_rest (properties_above (cybox "Object") (cybox "Properties") b) (head y)) as (A & B & _). apply alike_push; auto.
  - intros b y _. unfold list_text. destruct (is_elem y); [|reflexivity].
    destruct (repeat_rest (properties_above (cybox "Object") (cybox "Properties") b) (head y)) as (A & B & C & D).
    unfold fields_of, with_text, attr_of. cbn. injection A as -> _. rewrite C. reflexivity.
Qed.

Lemma cybox_2_0_relisted p t m m' e : always (schemaloc_pass [] [] cybox_2_0_schemaloc_map) t = Ok m ->
  always (edit_where p stamp_cybox_2_0_1) m = Ok m' -> always (lists_pass (cybox "Object") (cybox "Properties")) m' = Ok e ->
  traced (scopes NSV) (fun b y h' => fields_of [] h' = with_text (Some (list_text b y)) (fields_of [] (head y))) [] t [] e.
Proof.
  intros E1 E2 E3.
  assert (T1 : traced alike same_but_attributes [] t [] m).
  { injection E1 as <-. unfold schemaloc_pass, on_root. destruct t as [h ks]. cbn [head kids]. apply traced_top.
    - intro. apply alike_push; reflexivity.
    - intros. split; reflexivity.
    - destruct (attr_get _ _); reflexivity.
    - apply alike_push; destruct (attr_get _ _); reflexivity.
    - split; cbn [head]; destruct (attr_get _ _); auto. apply fields_set. not_vocab.
    - apply alike_refl. }
  assert (T2 : traced alike same_but_attributes [] m [] m').
  { injection E2 as <-. unfold edit_where. apply traced_edit.
    - intros b y. destruct (p b y); reflexivity.
    - apply alike_refl.
    - intros b y _. destruct (p b y); apply alike_push; reflexivity.
    - intros b y _. destruct (p b y); split; auto. apply fields_stamp_2_0_1. }
  assert (T3 := relisted_lists _ _ E3).
  assert (T12 := traced_trans alike _ _ _ _ _ _ _ _ alike_trans T1 T2).
  assert (T := traced_trans alike _ _ _ _ _ _ _ _ alike_trans T12 T3).
  intros b' y' I Nz. destruct (T b' y' I Nz) as (b & y & Iy & Ey & Sb & Sy & (q & z & Sq & Sz & (q0 & z0 & Sq0 & Sz0 & N1 & N2) & N3)).
  exists b, y. split; auto. split; auto. split; [apply Sb|]. split; [apply Sy|]. rewrite N3.
  destruct N1 as [Sh1 F1], N2 as [Sh2 F2]. rewrite F2, F1. f_equal. f_equal. unfold list_text.
  assert (K : is_elem z = is_elem y). { unfold is_elem. rewrite Sh1 in Sh2. injection Sh2 as -> _. reflexivity. }
  assert (Tx : h_text (head z) = h_text (head y)). { rewrite F1 in F2. pose proof (f_equal f_text F2) as X. cbn in X. congruence. }
  rewrite K. destruct Sq as [_ M]. rewrite (alike_above _ _ _ _ M). destruct (is_elem y); auto. apply repeat_text. exact Tx.
Qed.

(** The vocabularies after the list values. *)
Lemma relisted_upgraded vs t m e : (forall v, In v vs -> In (v_namespace v) NSV) ->
  traced (scopes NSV) (fun b y h' => fields_of [] h' = with_text (Some (list_text b y)) (fields_of [] (head y))) [] t [] m ->
  traced (scopes NSV) (upgraded_by [] vs) [] m [] e ->
  traced (scopes NSV) (fun b y h' => fields_of [] h' = upgs vs b y (with_text (Some (list_text b y)) (fields_of [] (head y)))) [] t [] e.
Proof.
  intros H T1 T2. eapply traced_impl; [|eapply traced_trans; [apply scopes_trans|exact T1|exact T2]].
  intros p y h' _ (q & z & S & S' & E1 & E2). unfold upgraded_by in *. rewrite E2, E1. symmetry. apply (upgs_scopes NSV); auto.
Qed.

Lemma cybox_2_0_vocab p opts t e : cybox_2_0_step p opts t = Ok e ->
  traced (scopes NSV) (fun b y h' => fields_of [] h'
    = upgs (if update_vocabularies opts then [event_type] else []) b y (with_text (Some (list_text b y)) (fields_of [] (head y)))) [] t [] e.
Proof.
  unfold cybox_2_0_step. intro E. apply in_order_ok in E as (m1 & E1 & E). apply in_order_ok in E as (m2 & E2 & E).
  apply in_order_ok in E as (m3 & E3 & E). apply in_order_ok in E as (m4 & E4 & E). rewrite in_order_nil in E. injection E as <-.
  eapply relisted_upgraded; [in_nsv|eapply cybox_2_0_relisted; eauto|].
  apply vocabs_when; [in_nsv|]. unfold when in *. destruct (update_vocabularies opts); [rewrite <- vocab_one|]; exact E4.
Qed.

Lemma stix_1_0_vocab opts t e : stix_1_0_step opts t = Ok e ->
  traced (scopes NSV) (fun b y h' => fields_of [] h'
    = upgs (if update_vocabularies opts then stix_vocabularies "1.0" else []) b y (with_text (Some (list_text b y)) (fields_of [] (head y)))) [] t [] e.
Proof.
  unfold stix_1_0_step. intro E. apply in_order_ok in E as (m & E1 & E).
  unfold cybox_2_0_step in E1. apply in_order_ok in E1 as (m1 & F1 & E1). apply in_order_ok in E1 as (m2 & F2 & E1).
  apply in_order_ok in E1 as (m3 & F3 & E1). apply in_order_ok in E1 as (m4 & F4 & E1). rewrite in_order_nil in E1. injection E1 as <-.
  eapply relisted_upgraded; [in_nsv|eapply cybox_2_0_relisted; eauto|].
  assert (T1 : traced (scopes NSV) (upgraded_by [] (if update_vocabularies opts then [event_type] else [])) [] m3 [] m4).
  { apply vocabs_when; [in_nsv|]. unfold when in *. destruct (update_vocabularies opts); [rewrite <- vocab_one|]; exact F4. }
  assert (T2 : traced (scopes NSV) (upgraded_by [] (if update_vocabularies opts then [motivation_1_0_1; operational_support] else [])) [] m4 [] e).
  { do 2 (pre E). apply in_order_ok in E as (u & E2 & E). rewrite in_order_nil in E. injection E as <-.
    apply vocabs_when; [in_nsv|]. unfold when in *. destruct (update_vocabularies opts); exact E2. }
  destruct (update_vocabularies opts).
  - apply (upgraded_by_trans [] NSV [event_type] [motivation_1_0_1; operational_support] m3 m4 e); auto. in_nsv.
  - apply (upgraded_by_trans [] NSV [] [] m3 m4 e); auto. in_nsv.
Qed.

(** ** All steps *)

Lemma traced_stems (S : place) (N : change) t e : traced S N [] t [] e -> stems_at N t e.
Proof.
  intros H x' Hx Nz. apply nodes_in in Hx as (a & Hx). destruct (H a x' Hx Nz) as (b & y & I & E & _ & _ & R). exists b, y. auto.
Qed.

Lemma stems_at_impl (R R' : change) t e : (forall b y h', In (b, y) (visits [] t) -> tid y = h_id h' -> R b y h' -> R' b y h') ->
  stems_at R t e -> stems_at R' t e.
Proof. intros H S x' Hx Nz. destruct (S x' Hx Nz) as (b & y & I & E & Rb). exists b, y. repeat split; auto. Qed.

Lemma moves_driver x : moves driver_ns x = in_driver_namespace x.
Proof.
  unfold moves, in_driver_namespace, driver_ns. destruct (q_ns (h_tag (head x))) as [u|]; auto. cbn [map fst mem_str existsb ostr_eqb].
  rewrite ?orb_false_r. try apply String.eqb_sym. reflexivity.
Qed.

Lemma in_driver_labels t a y : NoDup (ids t) -> In (a, y) (visits [] t) -> In (tid y) (driver_labels t) -> in_driver_namespace y = true.
Proof.
  intros N Hy I. apply in_map_iff in I as (z & Ez & I). apply filter_In in I as [Hz M]. apply nodes_in in Hz as (b & Hz).
  destruct (visits_unique t [] b z a y N Hz Hy Ez) as [_ ->]. rewrite <- moves_driver. exact M.
Qed.

Lemma upgraded_change D v vs T b y h' : NoDup (ids T) -> In (b, y) (visits [] T) -> independent vs = true ->
  existsb (String.eqb v) ["1.0"; "2.0"] = false ->
  D = (if existsb (String.eqb v) ["1.0.1"; "2.0.1"] then driver_labels T else []) ->
  tid y = h_id h' -> upgraded_by D vs b y h' -> vocabulary_value v vs b y h'.
Proof.
  intros N I Ind E0 ED K U. split; [eapply upgraded_by_retyped; eauto|]. intro Dr. unfold text_before. rewrite E0.
  apply (upgraded_by_reworded D); auto. intro J. subst D.
  destruct (existsb _ ["1.0.1"; "2.0.1"]); [|destruct J]. rewrite (in_driver_labels T b y) in Dr by auto. discriminate.
Qed.

Lemma relisted_change v vs b y h' : independent vs = true -> existsb (String.eqb v) ["1.0"; "2.0"] = true ->
  fields_of [] h' = upgs vs b y (with_text (Some (list_text b y)) (fields_of [] (head y))) -> vocabulary_value v vs b y h'.
Proof.
  intros Ind E0 U. split; [eapply upgraded_retyped; eauto|]. intros _. unfold text_before. rewrite E0.
  eapply upgraded_reworded; eauto.
Qed.

Lemma independent_when (b : bool) vs : independent vs = true -> independent (if b then vs else []) = true.
Proof. destruct b; auto. Qed.

Lemma stix_step_vocab o opts v f t e : stix_step o opts v = Some f -> v <> "1.2" -> is_elem t = true -> distinct_attributes t ->
  NoDup (ids t) -> (v = "1.0.1" -> declares_nothing [common "Contributors"; object_name "WinMailslot" "Handle"] t) ->
  f t = Ok e -> stems_at (vocabulary_value v (if update_vocabularies opts then stix_vocabularies v else [])) t e.
Proof.
  intros H V12 El DA N Dn E. unfold stix_step in H. by_version H; try contradiction.
  - eapply stems_at_impl; [|exact (traced_stems _ _ _ _ (stix_1_0_vocab _ _ _ E))]. intros b y h' _ _.
    apply relisted_change; auto. apply independent_when. reflexivity.
  - eapply stems_at_impl; [|exact (traced_stems _ _ _ _ (stix_1_0_1_vocab (driver_labels t) _ _ _ El DA (incl_refl _) (Dn eq_refl) E))].
    intros b y h' I K. eapply upgraded_change; eauto; try reflexivity. apply independent_when. reflexivity.
  - eapply stems_at_impl; [|exact (traced_stems _ _ _ _ (stix_1_1_vocab _ _ _ _ E))].
    intros b y h' I K. eapply upgraded_change; eauto; try reflexivity. apply independent_when. reflexivity.
  - eapply stems_at_impl; [|exact (traced_stems _ _ _ _ (stix_1_1_1_vocab _ _ _ E))].
    intros b y h' I K. eapply upgraded_change; eauto; try reflexivity. apply independent_when. reflexivity.
Qed.

Lemma cybox_step_vocab opts v f t e : cybox_step opts v = Some f -> is_elem t = true -> distinct_attributes t ->
  NoDup (ids t) -> (v = "2.0.1" -> declares_nothing [object_name "WinMailslot" "Handle"] t) ->
  f t = Ok e -> stems_at (vocabulary_value v (if update_vocabularies opts then cybox_vocabularies v else [])) t e.
Proof.
  intros H El DA N Dn E. unfold cybox_step in H. by_version H.
  - eapply stems_at_impl; [|exact (traced_stems _ _ _ _ (cybox_2_0_vocab _ _ _ _ E))]. intros b y h' _ _.
    apply relisted_change; auto. apply independent_when. reflexivity.
  - eapply stems_at_impl; [|exact (traced_stems _ _ _ _ (cybox_2_0_1_vocab (driver_labels t) _ _ _ _ El DA (incl_refl _) (Dn eq_refl) E))].
    intros b y h' I K. eapply upgraded_change; eauto; try reflexivity. apply independent_when. reflexivity.
Qed.

(** ** What is known of a document is known of its labelled form *)

Lemma nodes_erase t : nodes (erase t) = map erase (nodes t).
Proof. tree_induction t. cbn [erase nodes map]. f_equal. rewrite flat_map_map, map_flat_map. apply flat_map_ext_in. exact IH. Qed.

Lemma all_erase (Q : hdr -> Prop) t : (forall h, Q (set_id 0 h) <-> Q h) -> (all Q (erase t) <-> all Q t).
Proof.
  intro B. unfold all. rewrite nodes_erase. split; intros H x Hx.
  - apply B. specialize (H (erase x) (in_map erase _ _ Hx)). destruct x. exact H.
  - apply in_map_iff in Hx as (y & <- & Hy). specialize (H y Hy). destruct y. apply B. exact H.
Qed.

Lemma all_labelled (Q : hdr -> Prop) t : (forall h, Q (set_id 0 h) <-> Q h) -> all Q t -> all Q (labelled t).
Proof. intros B H. apply (all_erase Q _ B). unfold labelled. rewrite numbered_erase. apply all_erase; auto. Qed.

Lemma distinct_labelled t : distinct_attributes t -> distinct_attributes (labelled t).
Proof. apply (all_labelled (fun h => NoDup (map fst (h_attr h)))). intro h. reflexivity. Qed.

Lemma declares_labelled qs t : declares_nothing qs t -> declares_nothing qs (labelled t).
Proof. intro H. apply all_plain. apply all_labelled; [intro h; reflexivity|]. apply all_plain. exact H. Qed.

Lemma elem_labelled t : is_elem t = true -> is_elem (labelled t) = true.
Proof.
  intro H. assert (E : head (erase (labelled t)) = head (erase t)) by (unfold labelled; rewrite numbered_erase; reflexivity).
  destruct (labelled t), t. cbn in E. unfold is_elem in *. cbn [head] in *. injection E as -> _ _ _ _ _ _. exact H.
Qed.

Lemma labelled_NoDup t : NoDup (ids (labelled t)).
Proof. apply numbered_NoDup. Qed.
