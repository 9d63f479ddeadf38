(** * Proofs about the namespace script. *)

From Coq Require Import String Ascii List Bool Arith Lia Permutation.
From Verif Require Import Str Xml XPath Utils Base Tables UpdateNs SpecNs Lib Versions Api.
Import ListNotations.
Local Open Scope string_scope.

(** ** Strings *)

Lemma occurs_cons c a s : ~ occurs (String c "") (String a s) ->
  a <> c /\ ~ occurs (String c "") s.
Proof.
  intro H. split.
  - intros ->. apply H. exists "", s. reflexivity.
  - intros (x & y & E). apply H. exists (String a x), y. simpl. rewrite E. reflexivity.
Qed.

Lemma occurs_dec c s : contains (String c "") s = false -> ~ occurs (String c "") s.
Proof.
  intros H (x & y & E). revert s E H. induction x as [|a x IH]; intros s E H; subst s.
  - simpl in H. unfold starts_with in H. simpl in H. rewrite Ascii.eqb_refl in H. discriminate.
  - simpl in H. apply orb_false_iff in H as [_ H]. eapply IH; eauto.
Qed.

Lemma not_occurs c s : ~ occurs (String c "") s -> contains (String c "") s = false.
Proof.
  induction s as [|a s IH]; intro H; [reflexivity|].
  apply occurs_cons in H as [Ha Hs]. simpl. rewrite (IH Hs).
  unfold starts_with; simpl. destruct (Ascii.eqb_spec c a); [congruence|reflexivity].
Qed.

Lemma rsplit_none l : ~ occurs "}" l -> rsplit_brace l = None.
Proof.
  induction l as [|a l IH]; intro H; auto. apply occurs_cons in H as [Ha Hl].
  simpl. rewrite (IH Hl). destruct (Ascii.eqb_spec a "}"); congruence.
Qed.

Lemma rsplit_app ns l : ~ occurs "}" l -> rsplit_brace (ns ++ "}" ++ l) = Some (ns, l).
Proof.
  intro H. induction ns as [|a ns IH]; simpl.
  - rewrite rsplit_none by auto. reflexivity.
  - simpl in IH. rewrite IH. reflexivity.
Qed.

Lemma rsplit_occurs u v : rsplit_brace (u ++ String "}" v) = None -> False.
Proof.
  induction u as [|b u IH]; simpl; intro E.
  - destruct (rsplit_brace v) as [[? ?]|]; discriminate.
  - apply IH. destruct (rsplit_brace (u ++ String "}" v)) as [[? ?]|]; [discriminate|auto].
Qed.

Lemma rsplit_some s x y : rsplit_brace s = Some (x, y) -> s = x ++ "}" ++ y /\ ~ occurs "}" y.
Proof.
  revert x y. induction s as [|a s IH]; intros x y H; simpl in H; [discriminate|].
  destruct (rsplit_brace s) as [[u v]|] eqn:E.
  - inversion H; subst. destruct (IH _ _ eq_refl) as [-> Hv]. split; auto.
  - destruct (Ascii.eqb_spec a "}"); [|discriminate]. inversion H; subst.
    split; [reflexivity|]. intros (u & v & ->). eapply rsplit_occurs; eauto.
Qed.

Lemma split_qualified ns local : ~ occurs "}" local ->
  split_braced_name ("{" ++ ns ++ "}" ++ local) = Ok (Some ns, local).
Proof. intro H. simpl. pose proof (rsplit_app ns local H) as E. simpl in E. rewrite E. reflexivity. Qed.

Lemma split_unqualified name : name <> "" ->
  (forall r, name <> "{" ++ r) \/ ~ occurs "}" name ->
  split_braced_name name = Ok (None, name).
Proof.
  intros Hn H. destruct name as [|a s]; [congruence|]. simpl.
  destruct (Ascii.eqb_spec a "{"); auto. subst.
  destruct H as [H|H]; [exfalso; apply (H s); reflexivity|].
  apply occurs_cons in H as [_ H]. rewrite rsplit_none by auto. reflexivity.
Qed.

Lemma split_braced_exact name : name <> "" ->
  (exists ns l, name = "{" ++ ns ++ "}" ++ l /\ ~ occurs "}" l /\
     split_braced_name name = Ok (Some ns, l)) \/
  (((forall r, name <> "{" ++ r) \/ ~ occurs "}" name) /\
   split_braced_name name = Ok (None, name)).
Proof.
  intro Hn. destruct name as [|a s]; [congruence|]. simpl.
  destruct (Ascii.eqb_spec a "{") as [->|Ha].
  - destruct (rsplit_brace s) as [[x y]|] eqn:E.
    + left. apply rsplit_some in E as [-> Hy]. exists x, y. auto.
    + right. split; auto. right. intros (u & v & E').
      destruct u as [|b u]; [discriminate|]. inversion E' as [[E1 E2]]. subst s.
      eapply rsplit_occurs; eauto.
  - right. split; auto. left. intros r E. inversion E. congruence.
Qed.

Lemma split_first ns l : ~ occurs "}" ns -> split_brace (ns ++ "}" ++ l) = Some (ns, l).
Proof.
  induction ns as [|a ns IH]; intro H; [reflexivity|].
  apply occurs_cons in H as [Ha H]. specialize (IH H). simpl in *.
  destruct (Ascii.eqb_spec a "}"); [congruence|]. rewrite IH. reflexivity.
Qed.

(** ** Names *)

Definition mget (m : dict string) (ns : string) : string := dict_getd ns ns m.

Lemma valid_local_ok l : l <> "" -> ~ occurs "{" l -> ~ occurs "}" l -> valid_local l = true.
Proof.
  intros A B C. unfold valid_local. apply not_occurs in B, C. rewrite B, C.
  destruct (String.eqb_spec l ""); [congruence|reflexivity].
Qed.

Lemma remap_name_ok m q : proper_name q ->
  (forall ns, q_ns q = Some ns -> mget m ns <> "" /\ ~ occurs "}" (mget m ns)) ->
  remap_name m q = Ok (rename (mget m) q).
Proof.
  intros (Hl & Hb1 & Hb2 & Hn) Hm. unfold remap_name, mapped_name.
  destruct q as [[ns|] l]; simpl in *.
  - pose proof (split_qualified ns l Hb2) as E. unfold clark. simpl in *. rewrite E. simpl.
    specialize (Hm ns eq_refl) as [Hm1 Hm2].
    pose proof (split_first (mget m ns) l Hm2) as E2. simpl in E2. unfold mget in *.
    rewrite E2. rewrite valid_local_ok by auto.
    destruct (String.eqb_spec (dict_getd ns ns m) ""); [congruence|reflexivity].
  - unfold clark; simpl. rewrite split_unqualified; auto.
Qed.

Lemma mapped_inplace m q : proper_name q ->
  (forall ns, q_ns q = Some ns -> mget m ns = ns) ->
  remap_name m q = Ok q /\
  match mapped_name m (clark q) with
  | Ok None => q_ns q = None
  | Ok (Some s) => unclark s = Ok q
  | Err _ => False
  end.
Proof.
  intros Hp Hm. pose proof Hp as (Hl & Hb1 & Hb2 & Hn).
  assert (E : rename (mget m) q = q).
  { destruct q as [[ns|] l]; unfold rename; simpl; auto. rewrite Hm; auto. }
  assert (R : remap_name m q = Ok q).
  { rewrite remap_name_ok, E; auto. intros ns H. rewrite Hm; auto. }
  split; auto. unfold remap_name in R.
  destruct (mapped_name m (clark q)) as [[s|]|e] eqn:M; simpl in R; auto; try discriminate.
  unfold mapped_name in M. destruct (split_braced_name (clark q)) as [[[x|] y]|] eqn:S;
    inversion M. destruct q as [[ns|] l]; simpl in *; auto.
  pose proof (split_qualified ns l Hb2) as E'. unfold clark in S; simpl in *. rewrite E' in S.
  discriminate.
Qed.

(** ** Attributes *)

Lemma attr_set_new k v l : ~ In k (map fst l) -> attr_set k v l = (l ++ [(k, v)])%list.
Proof.
  induction l as [|[k' v'] l IH]; simpl; intro H; auto.
  destruct (qn_eqb k k') eqn:E; [apply qn_eqb_eq in E; subst; tauto|].
  rewrite IH; tauto.
Qed.

Lemma new_attrib_ok m l : forall acc,
  Forall proper_name (map fst l) ->
  (forall q ns, In q (map fst l) -> q_ns q = Some ns -> mget m ns <> "" /\ ~ occurs "}" (mget m ns)) ->
  NoDup (map fst acc ++ map (fun p => rename (mget m) (fst p)) l) ->
  new_attrib m l acc = Ok (acc ++ map (fun p => (rename (mget m) (fst p), snd p)) l)%list.
Proof.
  induction l as [|[k v] l IH]; intros acc Hp Hm Hd; simpl.
  - rewrite app_nil_r. reflexivity.
  - inversion Hp; subst. rewrite remap_name_ok; auto; [|intros ns E; eapply Hm; [left|]; eauto].
    simpl. simpl in Hd. rewrite attr_set_new.
    + rewrite IH; auto.
      * rewrite <- app_assoc. reflexivity.
      * intros q ns Hq; apply Hm; right; auto.
      * rewrite map_app, <- app_assoc. simpl. exact Hd.
    + apply NoDup_remove_2 in Hd. intro H. apply Hd, in_app_iff; auto.
Qed.

Lemma attr_del_perm k v l : NoDup (map fst l) -> In (k, v) l ->
  Permutation ((k, v) :: attr_del k l) l /\ ~ In k (map fst (attr_del k l)).
Proof.
  induction l as [|[k' v'] l IH]; simpl; intros Hd Hi; [tauto|].
  inversion Hd as [|? ? Hk Hl]; subst.
  destruct (qn_eqb k k') eqn:E.
  - apply qn_eqb_eq in E; subst. destruct Hi as [Hi|Hi].
    + inversion Hi; subst. split; auto.
    + exfalso. apply Hk. apply in_map_iff. exists (k', v); auto.
  - apply qn_eqb_neq in E. destruct Hi as [Hi|Hi]; [inversion Hi; congruence|].
    destruct (IH Hl Hi) as [P N]. split.
    + rewrite perm_swap. constructor. exact P.
    + simpl. intros [H|H]; [congruence|auto].
Qed.

Lemma inplace_attrib_ok m l : forall acc,
  Forall proper_name (map fst l) ->
  (forall q ns, In q (map fst l) -> q_ns q = Some ns -> mget m ns = ns) ->
  NoDup (map fst acc) -> incl l acc ->
  exists a, inplace_attrib m l acc = Ok a /\ Permutation acc a.
Proof.
  induction l as [|[k v] l IH]; intros acc Hp Hm Hd Hi; simpl.
  - exists acc; split; auto.
  - inversion Hp; subst.
    destruct (mapped_inplace m k) as [_ M]; auto; [intros ns E; eapply Hm; [left|]; eauto|].
    destruct (mapped_name m (clark k)) as [[s|]|e]; simpl in *; try tauto.
    + rewrite M. simpl.
      destruct (attr_del_perm k v acc) as [P N]; auto; [apply Hi; left; auto|].
      rewrite attr_set_new by exact N.
      assert (P' : Permutation acc (attr_del k acc ++ [(k, v)])).
      { etransitivity; [apply Permutation_sym, P|]. apply Permutation_cons_append. }
      destruct (IH (attr_del k acc ++ [(k, v)])%list) as (a & Ea & Pa); auto.
      * intros q ns Hq; apply Hm; right; auto.
      * eapply Permutation_NoDup; [|exact Hd]. apply Permutation_map. exact P'.
      * intros x Hx. eapply Permutation_in; [exact P'|]. apply Hi; right; auto.
      * exists a; split; auto. etransitivity; eauto.
    + destruct (IH acc) as (a & Ea & Pa); auto.
      * intros q ns Hq; apply Hm; right; auto.
      * intros x Hx; apply Hi; right; auto.
      * eauto.
Qed.

(** ** Trees *)

(** [renamed] before the schema locations are rewritten. *)
Inductive ren (f : string -> string) : tree -> tree -> Prop :=
| ren_elem h ks h' ks' :
    h_kind h = KElem -> h_kind h' = KElem ->
    h_tag h' = rename f (h_tag h) ->
    h_text h' = h_text h -> h_tail h' = h_tail h ->
    Permutation (map (fun p => (rename f (fst p), snd p)) (h_attr h)) (h_attr h') ->
    Forall2 (ren f) ks ks' ->
    ren f (Node h ks) (Node h' ks')
| ren_other h ks :
    h_kind h <> KElem -> ren f (Node h ks) (Node h ks).

Lemma need_replace_false m env t ns :
  need_replace m env t = false -> In ns (name_ns (head t)) -> is_elem t = true -> mget m ns = ns.
Proof.
  unfold need_replace. intros H Hn He. destruct t as [h ks]. simpl in *.
  assert (N : mem_str ns (map fst m) = false).
  { destruct (mem_str ns (map fst m)) eqn:E; auto.
    rewrite <- H. symmetry. apply existsb_exists. exists ns. split; auto.
    apply in_app_iff. right. unfold is_elem in He; simpl in He.
    destruct (h_kind h); try discriminate. apply in_app_iff; auto. }
  unfold mget, dict_getd. destruct (dict_get ns m) as [v|] eqn:E; auto.
  exfalso. assert (mem_str ns (map fst m) = true); [|congruence].
  apply mem_str_In. clear -E. induction m as [|[k' v'] m IH]; simpl in *; [discriminate|].
  destruct (String.eqb_spec ns k'); auto.
Qed.

Lemma name_ns_tag h ns : q_ns (h_tag h) = Some ns -> In ns (name_ns h).
Proof. intro E. unfold name_ns. simpl. rewrite E. left; auto. Qed.

Lemma name_ns_attr h q ns : In q (map fst (h_attr h)) -> q_ns q = Some ns -> In ns (name_ns h).
Proof.
  intros Hq E. unfold name_ns. simpl. apply in_app_iff; right.
  apply in_flat_map. exists q; split; auto. rewrite E; left; auto.
Qed.

Lemma rename_ext f g q : (forall ns, q_ns q = Some ns -> f ns = g ns) -> rename f q = rename g q.
Proof. destruct q as [[ns|] l]; unfold rename; simpl; auto. intro H. rewrite H; auto. Qed.

Lemma rename_id f q : (forall ns, q_ns q = Some ns -> f ns = ns) -> rename f q = q.
Proof. destruct q as [[ns|] l]; unfold rename; simpl; auto. intro H. rewrite H; auto. Qed.

Lemma map_id_in {A} (f : A -> A) l : (forall x, In x l -> f x = x) -> map f l = l.
Proof. intro H. rewrite <- (map_id l) at 2. apply map_ext_in, H. Qed.

Definition target_ok (m : dict string) : Prop :=
  forall ns, ns <> "" /\ ~ occurs "}" ns -> mget m ns <> "" /\ ~ occurs "}" (mget m ns).

Definition upd_list (m : dict string) (env : list (option string * string)) :=
  fix go (l : list tree) : res (list tree) :=
  match l with
  | [] => Ok []
  | k :: l' =>
      rbind (update_ns m env k) (fun k' =>
      rbind (go l') (fun l'' => Ok (k' :: l'')))
  end.

Lemma update_ns_elem m env h ks : h_kind h = KElem ->
  update_ns m env (Node h ks) =
  rbind
    (if need_replace m env (Node h ks) then
       let decl := map (fun p => (fst p, dict_getd (snd p) (snd p) m))
                     (env_items [] (h_decl h ++ env)) in
       rbind (remap_name m (h_tag h)) (fun tag =>
       rbind (new_attrib m (h_attr h) []) (fun attrs =>
       Ok (Hdr (h_id h) KElem tag decl attrs (h_text h) false (h_tail h))))
     else
       rbind (remap_name m (h_tag h)) (fun tag =>
       rbind (inplace_attrib m (h_attr h) (h_attr h)) (fun attrs =>
       Ok (set_attrs attrs (set_tag tag h)))))
    (fun h' => rbind (upd_list m (h_decl h' ++ env) ks) (fun ks' => Ok (Node h' ks'))).
Proof. intro K. cbn [update_ns]. rewrite K. reflexivity. Qed.

Lemma update_ns_ren m t : target_ok m -> parsed t -> no_clash (mget m) t ->
  forall env, exists t', update_ns m env t = Ok t' /\ ren (mget m) t t'.
Proof.
  intro T. tree_induction t. intros P C env.
  inversion P as [? ? K Pt Pa Nd Pk|? K]; subst.
  2:{ exists (Node h []). split; [destruct K as [K|K]; simpl; rewrite K; reflexivity|].
      apply ren_other. destruct K as [K|K]; rewrite K; discriminate. }
  inversion C as [? ? _ Cd Ck|? ? K']; subst; [|congruence].
  assert (G : forall env', exists ks', upd_list m env' ks = Ok ks' /\ Forall2 (ren (mget m)) ks ks').
  { clear -IH Pk Ck. intro env'. induction ks as [|k ks IHk]; simpl; [eauto|].
    inversion Pk; inversion Ck; subst.
    destruct (IH k (or_introl eq_refl)) with (env := env') as (k' & -> & Rk); auto.
    destruct IHk as (ks' & -> & R); auto; [intros; apply IH; auto; right; auto|].
    simpl. eauto. }
  assert (Tt : forall ns, q_ns (h_tag h) = Some ns -> mget m ns <> "" /\ ~ occurs "}" (mget m ns)).
  { intros ns E. apply T. apply (proj2 (proj2 (proj2 Pt)) ns E). }
  assert (Ta : forall q ns, In q (map fst (h_attr h)) -> q_ns q = Some ns ->
             mget m ns <> "" /\ ~ occurs "}" (mget m ns)).
  { intros q ns Hq E. apply T. rewrite Forall_forall in Pa. apply (proj2 (proj2 (proj2 (Pa q Hq))) ns E). }
  rewrite update_ns_elem by auto. destruct (need_replace m env (Node h ks)) eqn:N.
  - cbv zeta. rewrite remap_name_ok by auto. simpl rbind at 3. cbn [rbind].
    rewrite new_attrib_ok by auto. cbn [rbind].
    match goal with |- context [upd_list m ?e ks] => destruct (G e) as (ks' & -> & R) end.
    cbn [rbind]. eexists; split; [reflexivity|]. apply ren_elem; simpl; auto.
  - assert (I : forall ns, In ns (name_ns h) -> mget m ns = ns).
    { intros ns Hn. eapply (need_replace_false m env (Node h ks)); eauto.
      unfold is_elem; simpl; rewrite K; auto. }
    rewrite remap_name_ok by auto. cbn [rbind].
    destruct (inplace_attrib_ok m (h_attr h) (h_attr h)) as (a & -> & Pm); auto.
    { intros q ns Hq E. apply I. eapply name_ns_attr; eauto. }
    { apply incl_refl. }
    cbn [rbind].
    match goal with |- context [upd_list m ?e ks] => destruct (G e) as (ks' & -> & R) end.
    cbn [rbind]. eexists; split; [reflexivity|]. apply ren_elem; simpl; auto.
    rewrite map_id_in; auto. intros [q v] Hp. simpl. f_equal. apply rename_id.
    intros ns E. apply I. eapply name_ns_attr; eauto. apply in_map_iff. exists (q, v); auto.
Qed.

(** ** Schema locations *)

Definition solid (s : string) : bool :=
  negb (String.eqb s "") && forallb (fun c => negb (is_space c)) (list_ascii_of_string s).

Lemma split_ws_solid s : solid s = true -> split_ws s = [s].
Proof.
  unfold solid. intro H. apply andb_true_iff in H as [Hn Hs].
  induction s as [|a s IH]; [discriminate|].
  simpl in Hs. apply andb_true_iff in Hs as [Ha Hs]. apply negb_true_iff in Ha.
  simpl. rewrite Ha. destruct s as [|b s]; auto.
  rewrite IH; auto. simpl in Hs. apply andb_true_iff in Hs as [Hb Hs].
  apply negb_true_iff in Hb. rewrite Hb. reflexivity.
Qed.

Lemma split_ws_app s c r : solid s = true -> is_space c = true ->
  split_ws (s ++ String c r) = s :: split_ws r.
Proof.
  unfold solid. intro H. apply andb_true_iff in H as [Hn Hs].
  induction s as [|a s IH]; [discriminate|]. intro Hc.
  simpl in Hs. apply andb_true_iff in Hs as [Ha Hs]. apply negb_true_iff in Ha.
  cbn [append]. destruct s as [|b s].
  - cbn [append]. simpl split_ws at 1. rewrite Ha, Hc. reflexivity.
  - assert (E : split_ws ((String b s) ++ String c r) = String b s :: split_ws r) by (apply IH; auto).
    simpl in Hs. apply andb_true_iff in Hs as [Hb Hs]. apply negb_true_iff in Hb.
    change (split_ws (String a (String b s ++ String c r))) with
      (if is_space a then split_ws (String b s ++ String c r)
       else if is_space b then String a "" :: split_ws (String b s ++ String c r)
       else match split_ws (String b s ++ String c r) with
            | [] => [String a ""]
            | w :: ws => String a w :: ws
            end).
    rewrite Ha, Hb, E. reflexivity.
Qed.

Lemma split_ws_tokens s : Forall (fun w => solid w = true) (split_ws s).
Proof.
  induction s as [|a s IH]; simpl; [constructor|].
  destruct (is_space a) eqn:Ha; auto.
  assert (S1 : solid (String a "") = true) by (unfold solid; simpl; rewrite Ha; reflexivity).
  destruct s as [|b s]; [constructor; auto|].
  destruct (is_space b) eqn:Hb; [constructor; auto|].
  destruct (split_ws (String b s)) as [|w ws] eqn:E; [constructor; auto|].
  inversion IH as [|? ? Hw Hws]; subst. constructor; auto.
  unfold solid in *. apply andb_true_iff in Hw as [_ Hw]. simpl. rewrite Ha, Hw. reflexivity.
Qed.

Lemma space_space : is_space " " = true. Proof. reflexivity. Qed.

Lemma split_ws_join l : Forall (fun w => solid w = true) l -> split_ws (join " " l) = l.
Proof.
  induction l as [|w l IH]; intro H; auto. inversion H; subst.
  destruct l as [|x l].
  - simpl. apply split_ws_solid; auto.
  - change (join " " (w :: x :: l)) with (w ++ String " " (join " " (x :: l))).
    rewrite (split_ws_app w " " (join " " (x :: l))) by auto. rewrite IH; auto.
Qed.

Lemma map_even_solid f l : Forall (fun w => solid w = true) l ->
  (forall w, solid w = true -> solid (f w) = true) ->
  Forall (fun w => solid w = true) (map_even f l).
Proof.
  intros H Hf. assert (G : forall n l, length l <= n -> Forall (fun w => solid w = true) l ->
    Forall (fun w => solid w = true) (map_even f l)).
  { clear l H. induction n as [|n IH]; intros l Hl H.
    - destruct l; [constructor|simpl in Hl; lia].
    - destruct l as [|a [|b l]]; simpl; [constructor| |].
      + inversion H; subst. constructor; auto.
      + inversion H as [|? ? Ha H']; inversion H' as [|? ? Hb H'']; subst. simpl in Hl.
        constructor; auto. constructor; auto. apply IH; auto. lia. }
  eapply G; eauto.
Qed.

Lemma map_even_entries f l : entries_renamed f l (map_even f l).
Proof.
  assert (G : forall n l, length l <= n -> entries_renamed f l (map_even f l)).
  { clear l. induction n as [|n IH]; intros l Hl.
    - destruct l; [constructor|simpl in Hl; lia].
    - destruct l as [|a [|b l]]; simpl; [constructor|constructor|].
      constructor. apply IH. simpl in Hl. lia. }
  eapply G; eauto.
Qed.

Definition solid_targets (m : dict string) : Prop :=
  forall ns, solid ns = true -> solid (mget m ns) = true.

Lemma remap_schemaloc_entries m v : solid_targets m ->
  entries_renamed (mget m) (split_ws v) (split_ws (remap_schemaloc m v)).
Proof.
  intro T. unfold remap_schemaloc. rewrite split_ws_join.
  - apply map_even_entries.
  - apply map_even_solid; [apply split_ws_tokens|]. exact T.
Qed.

Lemma schemaloc_attr_ok m a : solid_targets m -> NoDup (map fst a) ->
  forall h, h_attr h = a -> h_kind h = KElem ->
  Forall2 (fun p p' => fst p' = fst p /\
    (fst p' = TAG_SCHEMALOCATION -> entries_renamed (mget m) (split_ws (snd p)) (split_ws (snd p'))) /\
    (fst p' <> TAG_SCHEMALOCATION -> snd p' = snd p))
    a (match attr_get TAG_SCHEMALOCATION a with
       | Some v => attr_set TAG_SCHEMALOCATION (remap_schemaloc m v) a
       | None => a
       end).
Proof.
  intros T Nd h _ _. induction a as [|[k v] a IH]; simpl; [constructor|].
  inversion Nd as [|? ? Hk Nd']; subst. destruct (qn_eqb TAG_SCHEMALOCATION k) eqn:E.
  - constructor.
    + cbn [fst snd]. split; auto. split; [intros _; apply remap_schemaloc_entries; auto|].
      apply qn_eqb_eq in E. congruence.
    + apply qn_eqb_eq in E; subst k. cbn [fst] in Hk. clear -Hk.
      induction a as [|[k v] a IH]; constructor.
      * simpl. split; auto. split; auto. intro; subst. exfalso; apply Hk; left; auto.
      * apply IH. intro; apply Hk; right; auto.
  - apply qn_eqb_neq in E. specialize (IH Nd').
    destruct (attr_get TAG_SCHEMALOCATION a); constructor; auto; cbn [fst snd];
      (split; [auto|split; [intro; congruence|auto]]).
Qed.

Lemma Forall2_permutation {A B} (R : A -> B -> Prop) l l' r :
  Permutation l l' -> Forall2 R l r -> exists r', Permutation r r' /\ Forall2 R l' r'.
Proof.
  intro P. revert r. induction P; intros r F.
  - inversion F; subst. exists []; auto.
  - inversion F; subst. destruct (IHP _ H3) as (r' & P' & F'). exists (y :: r'); auto.
  - inversion F as [|? ? ? ? ? F1]; subst. inversion F1; subst. eexists; split; [apply perm_swap|]; auto.
  - destruct (IHP1 _ F) as (r' & P' & F'). destruct (IHP2 _ F') as (r'' & P'' & F'').
    exists r''; split; auto. etransitivity; eauto.
Qed.

Lemma Forall2_map_l {A B C} (R : B -> C -> Prop) (f : A -> B) l r :
  Forall2 R (map f l) r <-> Forall2 (fun x y => R (f x) y) l r.
Proof.
  split; revert r; induction l as [|x l IH]; intros r F; simpl in *; inversion F; subst; constructor; auto.
Qed.

Lemma ren_renamed m t t' : solid_targets m -> parsed t -> no_clash (mget m) t ->
  ren (mget m) t t' -> renamed (mget m) t (update_schemalocations m t').
Proof.
  intro T. revert t'. tree_induction t. intros t' P C R.
  inversion R as [? ? h' ks' K K' Et Ex El Pa Rk|? ? K]; subst.
  2:{ inversion P as [? ? K1|? K1]; subst; [congruence|]. simpl.
      destruct (h_kind h) eqn:Kh; try congruence; apply rn_other; congruence. }
  inversion P as [? ? _ Pt Pn Nd Pk|? K1]; subst; [|destruct K1; congruence].
  inversion C as [? ? _ Cd Ck|? ? K1]; subst; [|congruence].
  simpl. rewrite K'.
  assert (Rk' : Forall2 (renamed (mget m)) ks (map (update_schemalocations m) ks')).
  { clear -IH Rk Pk Ck. revert ks' Rk. induction ks as [|k ks IHk]; intros ks' Rk;
      inversion Rk; subst; simpl; constructor; inversion Pk; inversion Ck; subst.
    - apply IH; simpl; auto.
    - apply IHk; auto. intros; apply IH; auto; right; auto. }
  assert (Nd' : NoDup (map fst (h_attr h'))).
  { eapply Permutation_NoDup; [apply Permutation_map, Pa|]. rewrite map_map. exact Cd. }
  pose proof (schemaloc_attr_ok m (h_attr h') T Nd' h' eq_refl K') as F.
  destruct (Forall2_permutation _ _ _ _ (Permutation_sym Pa) F) as (a & Pa' & Fa).
  rewrite Forall2_map_l in Fa. cbn [fst snd] in Fa.
  assert (H' : exists h'', (match attr_get TAG_SCHEMALOCATION (h_attr h') with
       | Some v => hset_attr TAG_SCHEMALOCATION (remap_schemaloc m v) h'
       | None => h' end) = h'' /\ h_kind h'' = KElem /\ h_tag h'' = h_tag h' /\
       h_text h'' = h_text h' /\ h_tail h'' = h_tail h' /\
       Permutation (h_attr h'') a).
  { destruct (attr_get TAG_SCHEMALOCATION (h_attr h')); eexists; (split; [reflexivity|]); simpl; auto 6. }
  destruct H' as (h'' & -> & E1 & E2 & E3 & E4 & E5).
  apply rn_elem with (a := a); auto; try congruence.
  apply Permutation_sym; auto.
Qed.

(** ** The whole script *)

Lemma dict_update_snoc {A} (d e : dict A) kv :
  dict_update d (e ++ [kv])%list = dict_set (fst kv) (snd kv) (dict_update d e).
Proof. unfold dict_update. rewrite fold_left_app. reflexivity. Qed.

Lemma combine_snoc {A B} (a : list A) (b : list B) y : length b < length a ->
  exists x, nth_error a (length b) = Some x /\
  combine a (b ++ [y])%list = (combine a b ++ [(x, y)])%list.
Proof.
  revert a. induction b as [|z b IH]; intros a L.
  - destruct a as [|x a]; simpl in *; [lia|]. exists x. split; auto.
    destruct a; reflexivity.
  - destruct a as [|x a]; simpl in *; [lia|]. destruct (IH a) as (w & E1 & E2); [lia|].
    exists w; split; auto. rewrite E2. reflexivity.
Qed.

Lemma combine_long {A B} (a : list A) (b c : list B) : length a <= length b ->
  combine a (b ++ c)%list = combine a b.
Proof.
  revert a. induction b as [|z b IH]; intros a L; destruct a as [|x a]; simpl in *; auto; [lia|].
  rewrite IH; auto. lia.
Qed.

Lemma dict_zip_maps A B ns : maps_to A B ns (mget (dict_zip A B) ns).
Proof.
  induction B as [|y B IH] using rev_ind.
  - right. unfold dict_zip. rewrite combine_nil. simpl. split; [reflexivity|lia].
  - unfold maps_to. rewrite app_length. simpl length.
    destruct (Nat.ltb_spec (length B) (length A)) as [L|L].
    + destruct (combine_snoc A B y L) as (x & E1 & E2).
      unfold mget, dict_zip. rewrite E2, dict_update_snoc. simpl fst; simpl snd.
      destruct (String.eqb_spec x ns) as [->|Hx].
      * left. exists (length B). unfold dict_getd. rewrite dict_get_set_same.
        rewrite nth_error_app2, Nat.sub_diag by lia. repeat split; auto. lia.
      * unfold dict_getd. rewrite dict_get_set_other by congruence.
        change (match dict_get ns (dict_update [] (combine A B)) with
                | Some v => v | None => ns end) with (mget (dict_zip A B) ns).
        destruct IH as [(i & I1 & I2 & I3)|[I1 I2]].
        -- left. exists i. split; auto. split.
           ++ rewrite nth_error_app1; auto. apply nth_error_Some. congruence.
           ++ intros j J1 J2. destruct (Nat.eq_dec j (length B)) as [->|]; [congruence|].
              apply I3; auto. lia.
        -- right. split; auto. intros i Hi.
           destruct (Nat.eq_dec i (length B)) as [->|]; [congruence|]. apply I2; lia.
    + unfold mget, dict_zip. rewrite combine_long by auto.
      destruct IH as [(i & I1 & I2 & I3)|[I1 I2]].
      * left. exists i. split; auto. split.
        -- rewrite nth_error_app1; auto. apply nth_error_Some. unfold mget, dict_zip in I2. congruence.
        -- intros j J1 J2. destruct (Nat.eq_dec j (length B)) as [->|].
           ++ assert (nth_error A (length B) = None) by (apply nth_error_None; auto). congruence.
           ++ apply I3; auto. lia.
      * right. split; auto. intros i Hi. destruct (Nat.eq_dec i (length B)) as [->|].
        -- assert (nth_error A (length B) = None) by (apply nth_error_None; auto). congruence.
        -- apply I2; lia.
Qed.

Lemma maps_to_fun A B ns x y : maps_to A B ns x -> maps_to A B ns y -> x = y.
Proof.
  intros [(i & I1 & I2 & I3)|[I1 I2]] [(j & J1 & J2 & J3)|[J1 J2]]; subst; auto.
  - destruct (lt_eq_lt_dec i j) as [[L| ->]|L].
    + exfalso. apply (I3 j L); auto. apply nth_error_Some. congruence.
    + congruence.
    + exfalso. apply (J3 i L); auto. apply nth_error_Some. congruence.
  - exfalso. apply (J2 i); auto. apply nth_error_Some. congruence.
  - exfalso. apply (I2 j); auto. apply nth_error_Some. congruence.
Qed.

Lemma mget_cases A B ns : mget (dict_zip A B) ns = ns \/ In (mget (dict_zip A B) ns) B.
Proof.
  destruct (dict_zip_maps A B ns) as [(i & _ & I2 & _)|[I1 _]]; auto.
  right. eapply nth_error_In; eauto.
Qed.

Lemma usable_solid ns : usable_ns ns -> solid ns = true.
Proof.
  intros (Hn & _ & Hs). unfold solid. apply andb_true_iff. split.
  - destruct (String.eqb_spec ns ""); [congruence|reflexivity].
  - apply forallb_forall. intros c Hc. apply in_split in Hc as (l1 & l2 & E).
    assert (E' : ns = string_of_list_ascii l1 ++ String c (string_of_list_ascii l2)).
    { rewrite <- (string_of_list_ascii_of_string ns), E. clear.
      induction l1 as [|a l1 IH]; simpl; [|rewrite IH]; reflexivity. }
    rewrite (Hs _ _ _ E'). reflexivity.
Qed.

Lemma renamed_ext_in f g t t' : (forall ns, f ns = g ns) -> renamed f t t' -> renamed g t t'.
Proof.
  intro E. revert t'. tree_induction t. intros t' R.
  inversion R as [? ? h' ks' a K K' Et Ex El Fa Pa Rk|? ? K]; subst; [|apply rn_other; auto].
  apply rn_elem with (a := a); auto.
  - rewrite Et. apply rename_ext; auto.
  - clear -Fa E. induction Fa as [|p p' l l' (A1 & A2 & A3)]; constructor; auto.
    split; [rewrite A1; apply rename_ext; auto|]. split; auto. intro H. specialize (A2 H).
    clear -A2 E. induction A2; try rewrite E; constructor; auto.
  - clear -IH Rk. revert ks' Rk. induction ks as [|k ks IHk]; intros ks' Rk;
      inversion Rk; subst; constructor.
    + apply IH; simpl; auto.
    + apply IHk; auto. intros; apply IH; auto; right; auto.
Qed.

Lemma no_clash_ext f g t : (forall ns, f ns = g ns) -> no_clash f t -> no_clash g t.
Proof.
  intro E. tree_induction t. intro C. inversion C as [? ? K Cd Ck|? ? K]; subst; [|apply nc_other; auto].
  apply nc_elem; auto.
  - erewrite map_ext; [exact Cd|]. intro p. apply rename_ext. auto.
  - rewrite Forall_forall in *. auto.
Qed.

Lemma update_from_lists_renames A B f t :
  (forall ns, maps_to A B ns (f ns)) ->
  Forall usable_ns B -> parsed t -> no_clash f t ->
  exists t', update_from_lists A B t = Ok t' /\ renamed f t t'.
Proof.
  intros M U P C. set (m := dict_zip A B).
  assert (E : forall ns, mget m ns = f ns) by (intro ns; eapply maps_to_fun; [apply dict_zip_maps|auto]).
  rewrite Forall_forall in U.
  assert (T1 : target_ok m).
  { intros ns Hn. destruct (mget_cases A B ns) as [H|H]; fold m in H; [rewrite H; auto|].
    destruct (U _ H) as (? & ? & ?). auto. }
  assert (T2 : solid_targets m).
  { intros ns Hn. destruct (mget_cases A B ns) as [H|H]; fold m in H; [rewrite H; auto|].
    apply usable_solid. auto. }
  assert (C' : no_clash (mget m) t) by (eapply no_clash_ext; [|exact C]; auto).
  unfold update_from_lists. fold m. destruct (update_ns_ren m t T1 P C' []) as (t' & -> & R).
  simpl. eexists; split; [reflexivity|].
  eapply renamed_ext_in; [exact E|]. apply ren_renamed; auto.
Qed.

(** ** Undoing *)

Lemma renamed_parsed f t t' : (forall ns, ns <> "" /\ ~ occurs "}" ns -> f ns <> "" /\ ~ occurs "}" (f ns)) ->
  no_clash f t -> parsed t -> renamed f t t' -> parsed t'.
Proof.
  intro T. revert t'. tree_induction t. intros t' C P R.
  inversion R as [? ? h' ks' a K K' Et Ex El Fa Pa Rk|? ? K]; subst; auto.
  inversion P as [? ? _ Pt Pn Nd Pk|? K1]; subst; [|destruct K1; congruence].
  inversion C as [? ? _ Cd Ck|? ? K1]; subst; [|congruence].
  assert (PR : forall q, proper_name q -> proper_name (rename f q)).
  { intros [[ns|] l] (A1 & A2 & A3 & A4); unfold proper_name; simpl in *; repeat split; auto.
    - intros; inversion H; subst. apply T; auto.
    - intros; inversion H; subst. apply T; auto.
    - intros; inversion H; subst.
    - intros; inversion H; subst. }
  assert (Ea : map fst a = map (fun p => rename f (fst p)) (h_attr h)).
  { clear -Fa. induction Fa as [|p p' l l' (A1 & _)]; simpl; auto. rewrite A1, IHFa. reflexivity. }
  apply pd_elem; auto.
  - rewrite Et; auto.
  - apply Forall_forall. intros q Hq.
    assert (Hq' : In q (map fst a)).
    { eapply Permutation_in; [|exact Hq]. apply Permutation_map, Permutation_sym, Pa. }
    rewrite Ea in Hq'. apply in_map_iff in Hq' as (p & <- & Hp). apply PR.
    rewrite Forall_forall in Pn. apply Pn, in_map, Hp.
  - eapply Permutation_NoDup; [apply Permutation_map, Pa|]. rewrite Ea. exact Cd.
  - clear -IH Rk Pk Ck. revert ks' Rk. induction ks as [|k ks IHk]; intros ks' Rk;
      inversion Rk; subst; constructor; inversion Pk; inversion Ck; subst.
    + apply (IH k); simpl; auto.
    + apply IHk; auto. intros; eapply (IH k0); auto; right; auto.
Qed.

Lemma rename_rename f g q : rename g (rename f q) = rename (fun ns => g (f ns)) q.
Proof. destruct q as [[ns|] l]; reflexivity. Qed.

Lemma entries_compose f g l l' l'' : entries_renamed f l l' -> entries_renamed g l' l'' ->
  (forall x, In x l -> g (f x) = x) -> entries_renamed (fun x => x) l l''.
Proof.
  intro H. revert l''. induction H; intros l'' H' E; inversion H'; subst.
  - constructor.
  - rewrite E by (left; auto). constructor.
  - rewrite E by (left; auto). constructor. apply IHentries_renamed; auto.
    intros x Hx. apply E; right; right; auto.
Qed.

Lemma uses_ns_kid h ks k ns : In k ks -> uses_ns k ns -> uses_ns (Node h ks) ns.
Proof.
  intros Hk (anc & h' & ks' & Hv & R). exists (anc ++ [Node h ks])%list, h', ks'. split; auto.
  simpl. right. apply in_flat_map. exists k; split; auto. rewrite visits_anc.
  apply in_map_iff. exists (anc, Node h' ks'); auto.
Qed.

Lemma renamed_compose f g t t1 t2 :
  (forall ns, f ns = NS_XSI -> ns = NS_XSI) -> f NS_XSI = NS_XSI -> g NS_XSI = NS_XSI ->
  (forall ns, uses_ns t ns -> g (f ns) = ns) ->
  renamed f t t1 -> renamed g t1 t2 -> renamed (fun x => x) t t2.
Proof.
  intros X1 X2 X3. revert t1 t2. tree_induction t. intros t1 t2 G R1 R2.
  inversion R1 as [? ? h' ks' a K K' Et Ex El Fa Pa Rk|? ? K]; subst.
  2:{ inversion R2; subst; [congruence|]. apply rn_other; auto. }
  inversion R2 as [? ? h'' ks'' b K2 K2' Et2 Ex2 El2 Fb Pb Rk2|? ? K2]; subst; [|congruence].
  assert (ID : forall q, (forall ns, q_ns q = Some ns -> g (f ns) = ns) ->
            rename g (rename f q) = rename (fun x => x) q).
  { intros q H. rewrite rename_rename. rewrite !rename_id; auto. }
  assert (SELF : forall ns, (q_ns (h_tag h) = Some ns \/
     exists q v, In (q, v) (h_attr h) /\
       (q_ns q = Some ns \/ (q = TAG_SCHEMALOCATION /\ In ns (split_ws v)))) -> g (f ns) = ns).
  { intros ns H. apply G. exists [], h, ks. split; [left; auto|auto]. }
  destruct (Forall2_permutation _ _ _ _ (Permutation_sym Pa) Fb) as (b' & Pb' & Fb').
  apply rn_elem with (a := b'); auto; try congruence.
  - rewrite Et2, Et. apply ID. intros ns E. apply SELF. auto.
  - assert (S2 : forall q v ns, In (q, v) (h_attr h) ->
       (q_ns q = Some ns \/ (q = TAG_SCHEMALOCATION /\ In ns (split_ws v))) -> g (f ns) = ns)
      by (intros; apply SELF; eauto).
    clear -Fa Fb' S2 ID X1 X2 X3. revert b' Fb'.
    induction Fa as [|[q v] [q1 v1] l l' (A1 & A2 & A3)]; intros b' Fb'; inversion Fb'; subst;
      constructor.
    + destruct y as [q2 v2]. destruct H1 as (B1 & B2 & B3). simpl in *.
      assert (Q : q2 = rename (fun x => x) q).
      { rewrite B1, A1. apply ID. intros; eapply S2; eauto. }
      assert (Q' : q2 = q) by (rewrite Q; apply rename_id; auto).
      split; auto. simpl. split; intro H; subst q.
      * assert (q1 = TAG_SCHEMALOCATION).
        { rewrite A1, H. unfold TAG_SCHEMALOCATION, rename, qn; simpl. rewrite X2. reflexivity. }
        eapply entries_compose; [apply A2; auto|apply B2; auto|].
        intros x Hx. eapply S2; [left; reflexivity|]. auto.
      * assert (q1 <> TAG_SCHEMALOCATION).
        { intro E. apply H. rewrite A1 in E. destruct q2 as [[ns|] l0]; [|discriminate].
          unfold TAG_SCHEMALOCATION, rename, qn in *; simpl in *. inversion E as [[E1 E2]].
          rewrite E1. rewrite (X1 ns E1). reflexivity. }
        rewrite B3, A3; auto.
    + apply IHFa; auto. intros; eapply S2; eauto. right; eauto.
  - etransitivity; [apply Permutation_sym, Pb'|]. exact Pb.
  - assert (Gk : forall k ns, In k ks -> uses_ns k ns -> g (f ns) = ns).
    { intros k ns Hk Hu. apply G. eapply uses_ns_kid; eauto. }
    clear -IH Rk Rk2 Gk. revert ks' ks'' Rk Rk2 Gk.
    induction ks as [|k ks IHk]; intros ks' ks'' Rk Rk2 Gk;
      inversion Rk; subst; inversion Rk2; subst; constructor.
    + eapply (IH k); simpl; eauto. intros; eapply Gk; eauto; left; auto.
    + eapply IHk; eauto; [intros; eapply IH; eauto; right; auto|].
      intros; eapply Gk; eauto; right; auto.
Qed.

Lemma no_clash_inj f t :
  (forall a b, uses_ns t a -> uses_ns t b -> f a = f b -> a = b) -> parsed t -> no_clash f t.
Proof.
  tree_induction t. intros I P. inversion P as [? ? K Pt Pn Nd Pk|? K]; subst.
  2:{ apply nc_other. destruct K; congruence. }
  apply nc_elem; auto.
  - assert (S : forall q ns, In q (map fst (h_attr h)) -> q_ns q = Some ns -> uses_ns (Node h ks) ns).
    { intros q ns Hq E. exists [], h, ks. split; [left; auto|]. split; auto. right.
      apply in_map_iff in Hq as ([q' v] & <- & Hp). simpl in E. eauto. }
    rewrite <- map_map with (f := fst) (g := rename f).
    clear -Nd S I. induction (map fst (h_attr h)) as [|q l IH]; simpl; [constructor|].
    inversion Nd as [|? ? Hq Nd']; subst. constructor.
    + intro H. apply in_map_iff in H as (q' & E & Hq'). apply Hq.
      replace q with q'; auto. destruct q as [[n|] l1], q' as [[n'|] l2]; inversion E; subst; auto.
      f_equal. f_equal. apply I; [eapply S; [right; exact Hq'|reflexivity]|
        eapply S; [left; reflexivity|reflexivity]|auto].
    + apply IH; auto. intros; eapply S; eauto; right; auto.
  - apply Forall_forall. intros k Hk. rewrite Forall_forall in Pk. apply IH; auto.
    intros a b Ha Hb. apply I; eapply uses_ns_kid; eauto.
Qed.

Lemma nth_error_maps A B i a b : NoDup A ->
  nth_error A i = Some a -> nth_error B i = Some b -> maps_to A B a b.
Proof.
  intros N Ha Hb. left. exists i. repeat split; auto. intros j J _ E.
  assert (i = j); [|lia]. eapply NoDup_nth_error; eauto; [|congruence].
  apply nth_error_Some. congruence.
Qed.

Lemma undo_maps A B f g : length A = length B -> NoDup A -> NoDup B ->
  (forall ns, maps_to A B ns (f ns)) -> (forall ns, maps_to B A ns (g ns)) ->
  forall ns, ~ In ns B -> g (f ns) = ns.
Proof.
  intros L NA NB F G ns Hn. destruct (F ns) as [(i & I1 & I2 & _)|[I1 I2]].
  - eapply maps_to_fun; [apply G|]. eapply nth_error_maps; eauto.
  - rewrite I1. destruct (G ns) as [(j & J1 & _)|[J1 _]]; auto.
    exfalso. apply Hn. eapply nth_error_In; eauto.
Qed.

Lemma undo_inj A B f : length A = length B -> NoDup A -> NoDup B ->
  (forall ns, maps_to A B ns (f ns)) ->
  forall a b, ~ In a B -> ~ In b B -> f a = f b -> a = b.
Proof.
  intros L NA NB F a b Ha Hb E.
  rewrite <- (undo_maps A B f (mget (dict_zip B A)) L NA NB F (dict_zip_maps B A) a Ha).
  rewrite <- (undo_maps A B f (mget (dict_zip B A)) L NA NB F (dict_zip_maps B A) b Hb).
  rewrite E. reflexivity.
Qed.

(** The names of the renamed document are renamed back to distinct names. *)
Lemma no_clash_back f g t t' :
  (forall ns, uses_ns t ns -> g (f ns) = ns) -> parsed t ->
  renamed f t t' -> no_clash g t'.
Proof.
  revert t'. tree_induction t. intros t' G P R.
  inversion R as [? ? h' ks' a K K' Et Ex El Fa Pa Rk|? ? K]; subst; [|apply nc_other; auto].
  inversion P as [? ? _ Pt Pn Nd Pk|? K1]; subst; [|destruct K1; congruence].
  apply nc_elem; auto.
  - assert (E : map (fun p => rename g (fst p)) a = map fst (h_attr h)).
    { assert (S : forall q v ns, In (q, v) (h_attr h) -> q_ns q = Some ns -> g (f ns) = ns).
      { intros q v ns Hq E. apply G. exists [], h, ks. split; [left; auto|]. split; auto.
        right. eauto. }
      clear -Fa S. induction Fa as [|[q v] [q1 v1] l l' (A1 & _)]; simpl in *; auto. f_equal.
      - rewrite A1, rename_rename. apply rename_id. intros; eapply S; eauto.
      - apply IHFa. intros; eapply S; eauto. }
    eapply Permutation_NoDup; [apply Permutation_map, Pa|]. rewrite E. auto.
  - assert (Gk : forall k ns, In k ks -> uses_ns k ns -> g (f ns) = ns).
    { intros k ns Hk Hu. apply G. eapply uses_ns_kid; eauto. }
    clear -IH Rk Gk Pk. revert ks' Rk Gk.
    induction ks as [|k ks IHk]; intros ks' Rk Gk; inversion Rk; subst; constructor;
      inversion Pk; subst.
    + eapply (IH k); simpl; eauto. intros; eapply Gk; eauto; left; auto.
    + eapply IHk; eauto; [intros; eapply IH; eauto; right; auto|].
      intros; eapply Gk; eauto; right; auto.
Qed.

Lemma update_ns_undo A B t :
  length A = length B -> NoDup A -> NoDup B ->
  Forall usable_ns A -> Forall usable_ns B ->
  ~ In NS_XSI A -> ~ In NS_XSI B ->
  parsed t -> (forall ns, uses_ns t ns -> ~ In ns B) ->
  exists t1 t2, update_from_lists A B t = Ok t1 /\ update_from_lists B A t1 = Ok t2 /\
    renamed (fun ns => ns) t t2.
Proof.
  intros L NA NB UA UB XA XB P U.
  set (f := mget (dict_zip A B)). set (g := mget (dict_zip B A)).
  pose proof (dict_zip_maps A B) as F. pose proof (dict_zip_maps B A) as G. fold f in F. fold g in G.
  assert (GF : forall ns, uses_ns t ns -> g (f ns) = ns) by (intros; eapply undo_maps; eauto).
  assert (C : no_clash f t).
  { apply no_clash_inj; auto. intros a b Ha Hb. eapply (undo_inj A B f); eauto. }
  destruct (update_from_lists_renames A B f t F UB P C) as (t1 & E1 & R1).
  assert (P1 : parsed t1).
  { eapply renamed_parsed; eauto. intros ns Hn. destruct (mget_cases A B ns) as [H|H]; fold f in H.
    - rewrite H; auto.
    - rewrite Forall_forall in UB. destruct (UB _ H) as (? & ? & ?); auto. }
  assert (C1 : no_clash g t1) by (eapply no_clash_back; eauto).
  destruct (update_from_lists_renames B A g t1 G UA P1 C1) as (t2 & E2 & R2).
  assert (FX : f NS_XSI = NS_XSI).
  { destruct (F NS_XSI) as [(i & I & _)|[I _]]; auto. exfalso. apply XA. eapply nth_error_In; eauto. }
  assert (GX : g NS_XSI = NS_XSI).
  { destruct (G NS_XSI) as [(i & I & _)|[I _]]; auto. exfalso. apply XB. eapply nth_error_In; eauto. }
  exists t1, t2. split; auto. split; auto. eapply renamed_compose with (f := f) (g := g); eauto.
  intros ns H. destruct (F ns) as [(i & _ & I & _)|[I _]]; [|congruence].
  exfalso. apply XB. rewrite H in I. eapply nth_error_In; eauto.
Qed.

(** ** The whole script *)

Lemma all_space_nil : all_space "".
Proof. intros [|] b c E; discriminate. Qed.

Lemma all_space_cons c s : is_space c = true -> all_space s -> all_space (String c s).
Proof. intros H F [|a x] b d E; injection E as <- E; auto. eapply F; eauto. Qed.

Lemma lstrip_parts s : exists a, s = a ++ lstrip s /\ all_space a /\ (forall c w, lstrip s = String c w -> is_space c = false).
Proof.
  induction s as [|c s IH]; simpl.
  - exists "". split; auto. split; [apply all_space_nil|discriminate].
  - destruct (is_space c) eqn:E.
    + destruct IH as (a & Q & A & F). exists (String c a). simpl. rewrite <- Q. split; auto. split; auto. apply all_space_cons; auto.
    + exists "". split; auto. split; [apply all_space_nil|]. intros c' w H. injection H as <- _. auto.
Qed.

Lemma rstrip_parts s : exists b, s = rstrip s ++ b /\ all_space b /\ (forall c w, rstrip s = w ++ String c "" -> is_space c = false).
Proof.
  induction s as [|c s IH]; simpl.
  - exists "". split; auto. split; [apply all_space_nil|]. intros d [|] H; discriminate.
  - destruct IH as (b & Q & A & F). destruct (rstrip s) as [|d r] eqn:E.
    + destruct (is_space c) eqn:Ec.
      * exists (String c s). split; auto. split; [apply all_space_cons; auto; rewrite Q; exact A|]. intros e [|] H; discriminate.
      * exists b. simpl. rewrite Q. simpl. split; auto. split; auto. intros e [|x w] H; simpl in H; [injection H as <-; auto|]. destruct w; discriminate.
    + exists b. simpl. rewrite Q at 1. split; auto. split; auto. intros e [|x w] H; simpl in H; [discriminate|]. injection H as _ H. eauto.
Qed.

Lemma rstrip_head s c w : rstrip s = String c w -> exists w', s = String c w'.
Proof. destruct s as [|d s]; simpl; [discriminate|]. destruct (rstrip s); [destruct (is_space d)|]; intro H; try discriminate; injection H as <- _; eauto. Qed.

Lemma strip_trimmed s : trimmed s (strip s).
Proof.
  unfold strip. destruct (lstrip_parts s) as (a & Q & A & F). destruct (rstrip_parts (lstrip s)) as (b & Q' & B & G).
  exists a, b. rewrite <- Q'. split; auto. split; auto. split; auto. split; auto.
  intros c w E. destruct (rstrip_head _ _ _ E) as (w' & E'). eauto.
Qed.

Lemma app_head_space a : all_space a -> forall s c w, (a ++ s) = String c w -> is_space c = false -> a = "".
Proof. intros A s c w E H. destruct a as [|d a]; auto. simpl in E. injection E as -> _. rewrite (A "" a c eq_refl) in H. discriminate. Qed.

Lemma lstrip_space a s : all_space a -> lstrip (a ++ s) = lstrip s.
Proof.
  induction a as [|c a IH]; intro A; auto. simpl. rewrite (A "" a c eq_refl). apply IH. intros x y d E. eapply (A (String c x)). simpl. rewrite E. reflexivity.
Qed.

Lemma rstrip_space b : all_space b -> rstrip b = "".
Proof.
  induction b as [|c b IH]; intro B; auto. simpl. rewrite IH. { rewrite (B "" b c eq_refl). auto. }
  intros x y d E. eapply (B (String c x)). simpl. rewrite E. reflexivity.
Qed.

Lemma rstrip_solid w b : all_space b -> (forall c w', w = w' ++ String c "" -> is_space c = false) -> rstrip (w ++ b) = w.
Proof.
  intros B. induction w as [|c w IH]; intro L; simpl; [apply rstrip_space; auto|].
  rewrite IH. 2: { intros d w' E. apply (L d (String c w')). simpl. rewrite E. reflexivity. }
  destruct w; auto. rewrite (L c ""); auto.
Qed.

Lemma trimmed_strip s w : trimmed s w -> w = strip s.
Proof.
  intros (a & b & -> & A & B & F & L). unfold strip. rewrite lstrip_space by auto. destruct w as [|c w].
  - simpl. destruct (lstrip_parts b) as (x & Q & X & G). symmetry. apply rstrip_space.
    intros y z d E. apply (B (x ++ y) z). rewrite Q. rewrite E. symmetry. apply sapp_assoc.
  - simpl. rewrite (F c w eq_refl). symmetry. apply (rstrip_solid (String c w) b); auto.
Qed.

Lemma starts_hash c w : starts_with "#" (String c w) = Ascii.eqb "#" c.
Proof. unfold starts_with, drop_prefix. destruct (Ascii.eqb "#" c); reflexivity. Qed.

Lemma namespace_line x ls : namespace_lines (x :: ls) =
  if negb (String.eqb (strip x) "") && negb (starts_with "#" (strip x)) then strip x :: namespace_lines ls else namespace_lines ls.
Proof. reflexivity. Qed.

Lemma lists_lines ls l : lists ls l -> namespace_lines ls = l.
Proof.
  induction 1 as [|x ls l T _ IH|x w ls l T _ IH|x c w ls l T N _ IH]; [reflexivity| | |];
    apply trimmed_strip in T; rewrite namespace_line, <- T, ?starts_hash, IH.
  - reflexivity.
  - rewrite Ascii.eqb_refl. reflexivity.
  - destruct (Ascii.eqb_spec "#"%char c); [congruence|]. reflexivity.
Qed.

Lemma lines_list ls : lists ls (namespace_lines ls).
Proof.
  induction ls as [|x ls IH]; [constructor|]. rewrite namespace_line.
  pose proof (strip_trimmed x) as T. destruct (strip x) as [|c w].
  - apply li_blank; auto.
  - rewrite starts_hash. destruct (Ascii.eqb_spec "#"%char c) as [E|E]; simpl; [subst; eapply li_comment; eauto|].
    apply li_entry; auto.
Qed.

Lemma stands_for_is files id l : stands_for files id l <-> l = get_namespace_list files id.
Proof.
  unfold get_namespace_list. split.
  - destruct 1 as [| |name l N1 N2 L]; auto.
    destruct (String.eqb_spec name "stix1.2"); [congruence|]. destruct (String.eqb_spec name "stix1.2.1"); [congruence|]. symmetry. apply lists_lines; auto.
  - intros ->. destruct (String.eqb_spec id "stix1.2"); [subst; constructor|]. destruct (String.eqb_spec id "stix1.2.1"); [subst; constructor|].
    apply sf_file; auto. apply lines_list.
Qed.

Lemma attr_set_pairs q v l w : attr_get q l = Some w ->
  Forall2 (fun p p' : qname * string => fst p' = fst p /\ (fst p <> q -> snd p' = snd p)) l (attr_set q v l) /\
  attr_get q (attr_set q v l) = Some v.
Proof.
  induction l as [|[k x] l IH]; simpl; [discriminate|]. destruct (qn_eqb q k) eqn:E.
  - intros _. apply qn_eqb_eq in E. subst k. split; [|simpl; rewrite (proj2 (qn_eqb_eq q q) eq_refl); auto].
    constructor; [simpl; split; auto; congruence|]. clear. induction l; constructor; auto.
  - intro H. destruct (IH H) as [A B]. split; [constructor; auto|]. simpl. rewrite E. exact B.
Qed.

Lemma version_restamped to_id t : restamped to_id t (special_case_version_update to_id t).
Proof.
  destruct t as [h ks]. unfold restamped, target_version, special_case_version_update. simpl head. simpl kids.
  destruct (String.eqb to_id "stix1.2"); [|destruct (String.eqb to_id "stix1.2.1"); auto].
  all: unfold has_attr; destruct (attr_get (lq "version") (h_attr h)) as [w|] eqn:E; auto.
  all: eexists; split; [reflexivity|]; unfold same_but_version; simpl; repeat (split; [reflexivity|]); eapply attr_set_pairs; eauto.
Qed.

Lemma script_renames files from_id to_id A B f t :
  stands_for files from_id A -> stands_for files to_id B -> (forall ns, maps_to A B ns (f ns)) ->
  Forall usable_ns B -> parsed t -> no_clash f t ->
  exists t1 t', update_ns_main files from_id to_id t = Ok t' /\ renamed f t t1 /\ restamped to_id t1 t'.
Proof.
  intros HA HB M U P N. apply stands_for_is in HA, HB. subst A B.
  destruct (update_from_lists_renames _ _ f t M U P N) as (t1 & E & R).
  exists t1, (special_case_version_update to_id t1). unfold update_ns_main. rewrite E. split; [reflexivity|]. split; auto. apply version_restamped.
Qed.

(** ** Processing instructions *)

Lemma new_attrib_runs m l : target_ok m -> Forall proper_name (map fst l) -> forall acc, exists a, new_attrib m l acc = Ok a.
Proof.
  intro T. induction l as [|[k v] l IH]; intros P acc; simpl; [eauto|]. inversion P; subst.
  rewrite remap_name_ok; auto. { simpl. apply IH. auto. }
  intros ns E. apply T. apply (proj2 (proj2 (proj2 H1)) ns E).
Qed.

Lemma inplace_attrib_runs m l : target_ok m -> Forall proper_name (map fst l) -> forall acc, exists a, inplace_attrib m l acc = Ok a.
Proof.
  intro T. induction l as [|[k v] l IH]; intros P acc; simpl; [eauto|]. inversion P; subst.
  assert (R : remap_name m k = Ok (rename (mget m) k)).
  { apply remap_name_ok; auto. intros ns E. apply T. apply (proj2 (proj2 (proj2 H1)) ns E). }
  unfold remap_name in R. destruct (mapped_name m (clark k)) as [[x|]|e]; simpl in *; try discriminate; auto.
  rewrite R. simpl. auto.
Qed.

Lemma instruction_kid h ks : h_kind h = KElem -> has_instruction (Node h ks) <-> exists k, In k ks /\ has_instruction k.
Proof.
  intro K. split.
  - intros (a & x & Hx & E). simpl in Hx. destruct Hx as [Hx|Hx]; [injection Hx as <- <-; simpl in E; congruence|].
    apply in_flat_map in Hx as (k & Hk & Hx). exists k. split; auto. rewrite visits_anc in Hx.
    apply in_map_iff in Hx as ([a1 y] & Q & Hx). simpl in Q. injection Q as <- <-. exists a1, y. auto.
  - intros (k & Hk & a & x & Hx & E). exists (a ++ [Node h ks])%list, x. split; auto.
    simpl. right. apply in_flat_map. exists k; split; auto. rewrite visits_anc. apply in_map_iff. exists (a, x); auto.
Qed.

Lemma update_ns_instruction m t : target_ok m -> well_named t -> forall env,
  (has_instruction t /\ update_ns m env t = Err TypeError) \/ (~ has_instruction t /\ exists t', update_ns m env t = Ok t').
Proof.
  intro T. tree_induction t. intros P env. inversion P as [? ? K Pt Pa Pk|? K]; subst.
  2: { destruct (h_kind h) eqn:E; [congruence| | |].
       all: simpl; rewrite E.
       all: try (right; split; [|eauto]; intros (a & x & [Hx|[]] & Ex); injection Hx as <- <-; simpl in Ex; congruence).
       left. split; auto. exists [], (Node h []). split; [left; auto|exact E]. }
  assert (G : forall env', ((exists k, In k ks /\ has_instruction k) /\ upd_list m env' ks = Err TypeError) \/
      (~ (exists k, In k ks /\ has_instruction k) /\ exists ks', upd_list m env' ks = Ok ks')).
  { clear -IH Pk. intro env'. induction ks as [|k ks IHk]; simpl.
    - right. split; eauto. intros (k & [] & _).
    - inversion Pk; subst. destruct (IH k (or_introl eq_refl) H1 env') as [[A ->]|[A [k' ->]]]; simpl.
      + left. split; eauto.
      + destruct IHk as [[(x & Hx & A') ->]|[A' [ks' ->]]]; auto; [intros; apply IH; auto; right; auto| |]; simpl.
        * left. split; eauto.
        * right. split; eauto. intros (x & [<-|Hx] & B); eauto. }
  rewrite (instruction_kid h ks K).
  assert (Tt : remap_name m (h_tag h) = Ok (rename (mget m) (h_tag h))).
  { apply remap_name_ok; auto. intros ns E. apply T. apply (proj2 (proj2 (proj2 Pt)) ns E). }
  rewrite update_ns_elem by auto. destruct (need_replace m env (Node h ks)).
  - cbv zeta. rewrite Tt. cbn [rbind]. destruct (new_attrib_runs m (h_attr h) T Pa []) as (a & ->). cbn [rbind].
    match goal with |- context [upd_list m ?e ks] => destruct (G e) as [[A ->]|[A [ks' ->]]] end; cbn [rbind]; eauto.
  - rewrite Tt. cbn [rbind]. destruct (inplace_attrib_runs m (h_attr h) T Pa (h_attr h)) as (a & ->). cbn [rbind].
    match goal with |- context [upd_list m ?e ks] => destruct (G e) as [[A ->]|[A [ks' ->]]] end; cbn [rbind]; eauto.
Qed.

Lemma script_instruction files from_id to_id B t :
  stands_for files to_id B -> Forall usable_ns B -> well_named t ->
  (has_instruction t -> update_ns_main files from_id to_id t = Err TypeError) /\
  (~ has_instruction t -> exists t', update_ns_main files from_id to_id t = Ok t').
Proof.
  intros HB U P. apply stands_for_is in HB. subst B. set (A := get_namespace_list files from_id). set (B := get_namespace_list files to_id) in *.
  rewrite Forall_forall in U. assert (T : target_ok (dict_zip A B)).
  { intros ns Hn. destruct (mget_cases A B ns) as [H|H]; [rewrite H; auto|]. destruct (U _ H) as (? & ? & ?). auto. }
  unfold update_ns_main, update_from_lists. fold A B.
  destruct (update_ns_instruction (dict_zip A B) t T P []) as [[H ->]|[H [t' ->]]]; simpl; split; intro Q; eauto; contradiction.
Qed.
