(** * The XML helpers of utils.py and of the base class on any node of any
    document. *)

From Coq Require Import String Ascii List Bool Arith Lia Permutation.
From Verif Require Import Str Xml XPath Utils Base UpdateNs Offered Spec SpecDoc SpecPass SpecTrace SpecField SpecLocation SpecRead SpecFault
  Lib Refine RefineBase Trace Fields Carried Scripts Codec SpecName SpecHelper Helpers SpecTool.
Import ListNotations.
Local Open Scope string_scope.

(** ** Replacing and removing *)

Lemma changed_steps s T T' s' : steps T s T' s' -> tid T' = tid T -> changed s T T' s'.
Proof. intros [A B C _ _] R. repeat split; auto; apply A. Qed.

Lemma put_in_kid x l h ks k k' : In k ks -> NoDup (flat_map ids ks) -> tid k <> tid x -> In (tid x) (ids k) -> put_in x l k k' -> k' = tsubst (tid x) l k ->
  put_in x l (Node h ks) (Node h (flat_map (fun k => if Nat.eqb (tid k) (tid x) then l else [tsubst (tid x) l k]) ks)).
Proof.
  intros Hk N D I P E. apply in_split in Hk as (b & c & ->). rewrite flat_map_app in N. cbn [flat_map] in N.
  apply NoDup_app in N as (N1 & N2 & N3). apply NoDup_app in N2 as (N4 & N5 & N6).
  rewrite flat_map_app. cbn [flat_map]. destruct (Nat.eqb_spec (tid k) (tid x)) as [Q|_]; [contradiction|].
  rewrite (tsubst_kids_notin (tid x) l b), (tsubst_kids_notin (tid x) l c).
  - rewrite <- E. apply put_deeper. exact P.
  - intro X. exact (N6 _ I X).
  - intro X. apply (N3 _ X). apply in_app_iff. auto.
Qed.

Lemma tsubst_put x l T : forall anc a, NoDup (ids T) -> In (a, x) (tl (visits anc T)) -> put_in x l T (tsubst (tid x) l T).
Proof.
  tree_induction T. intros anc a N H. cbn [ids] in N. inversion N as [|? ? N1 N2]; subst. cbn [visits tl] in H.
  apply in_flat_map in H as (k & Hk & Hx). cbn [tsubst].
  assert (Nk : NoDup (ids k)).
  { apply in_split in Hk as (b & c & ->). rewrite flat_map_app in N2. cbn [flat_map] in N2.
    apply NoDup_app in N2 as (_ & N2 & _). apply NoDup_app in N2 as (N2 & _). exact N2. }
  destruct k as [hk kk] eqn:Ek. rewrite <- Ek in *. assert (V : (a, x) = (Node h ks :: anc, k) \/ In (a, x) (tl (visits (Node h ks :: anc) k))).
  { rewrite Ek in Hx |- *. cbn [visits tl] in *. destruct Hx as [Hx|Hx]; auto. }
  destruct V as [V|V].
  - injection V as -> ->. apply in_split in Hk as (b & c & ->). rewrite flat_map_app in N2. cbn [flat_map] in N2.
    apply NoDup_app in N2 as (A1 & A2 & A3). apply NoDup_app in A2 as (A4 & A5 & A6).
    rewrite flat_map_app. cbn [flat_map]. rewrite Nat.eqb_refl.
    rewrite (tsubst_kids_notin (tid k) l b), (tsubst_kids_notin (tid k) l c).
    + apply put_here.
    + intro X. exact (A6 _ (in_ids_self k) X).
    + intro X. apply (A3 _ X). apply in_app_iff. left. apply in_ids_self.
  - assert (I : In (tid x) (flat_map ids (kids k))).
    { rewrite <- (tl_visits_ids (Node h ks :: anc) k). apply (in_map (fun c : ctx => tid (snd c)) _ _ V). }
    assert (D : tid k <> tid x).
    { intro Q. rewrite <- Q in I. rewrite Ek in Nk, I. cbn [ids] in Nk. inversion Nk; subst. auto. }
    apply (put_in_kid x l h ks k (tsubst (tid x) l k)); auto.
    + rewrite Ek. cbn [ids]. right. rewrite Ek in I. exact I.
    + apply (IH k Hk (Node h ks :: anc) a); auto.
Qed.

Lemma below_tl T a x : In (a, x) (visits [] T) -> a <> [] -> In (a, x) (tl (visits [] T)).
Proof. destruct T as [h ks]. cbn [visits tl]. intros [H|H] N; auto. injection H as <- <-. contradiction. Qed.

Lemma supplant_any s T a x l : wf_state s -> In T (heap s) -> In (a, x) (visits [] T) -> a <> [] -> loose l s ->
  exists T' s', supplant (tid x) l s = (Ok tt, s') /\ put_in x l T T' /\ changed s T T' s' /\ In x (heap s').
Proof.
  intros W HT Hx Na L. pose proof (wf_NoDup s T W HT) as N. destruct a as [|p a]; [contradiction|].
  assert (Lo : located s (p :: a) x) by (exists T; auto).
  assert (Q : forall y, In y (heap s) -> y <> T -> tsubst (tid x) l y = y).
  { intros y Hy Ny. apply tsubst_id_notin. intro Hi. apply Ny. eapply (wf_same s); eauto. eapply visits_tid_in; eauto. }
  exists (tsubst (tid x) l T). eexists. split; [eapply supplant_run; eauto|].
  split; [eapply tsubst_put; eauto; apply below_tl; eauto|].
  destruct (map_replace (tsubst (tid x) l) (heap s) T Q HT) as [M1 M2].
  split; [split; [eapply supplant_wf; eauto|]|].
  - cbn [heap]. split; [apply in_app_iff; auto|]. split; [destruct T; reflexivity|]. intros X HX NX. apply in_app_iff. left. auto.
  - cbn [heap]. apply in_app_iff. right. left. reflexivity.
Qed.

Lemma detached_loose s N : detached s N -> loose [N] s.
Proof. intros [A B]. unfold loose. cbn [flat_map]. unfold hids. cbn [flat_map]. rewrite app_nil_r. auto. Qed.

Lemma replace_any s T a x N : wf_state s -> In T (heap s) -> In (a, x) (visits [] T) -> a <> [] -> detached s N ->
  exists T' s', replace_xml_element (tid x) N s = (Ok tt, s') /\ put_in x [N] T T' /\ changed s T T' s' /\ In x (heap s').
Proof. intros. eapply supplant_any; eauto. apply detached_loose. auto. Qed.

Lemma remove_any s T a x : wf_state s -> In T (heap s) -> In (a, x) (visits [] T) -> a <> [] ->
  exists T' s', remove_xml_element (tid x) s = (Ok tt, s') /\ put_in x [] T T' /\ changed s T T' s' /\ In x (heap s').
Proof. intros. eapply supplant_any; eauto. split; [constructor|]. intros i []. Qed.

Lemma root_stays s T N : wf_state s -> In T (heap s) ->
  replace_xml_element (tid T) N s = (Ok tt, s) /\ remove_xml_element (tid T) s = (Ok tt, s).
Proof.
  intros W HT. assert (L : located s [] T) by (exists T; split; auto; apply visits_self).
  split; apply supplant_noop; auto.
Qed.

Scheme without_mut := Induction for without Sort Prop with without_all_mut := Induction for without_all Sort Prop.

Lemma rwm_without l T : without l T (rwm (mrem l (fun _ => None)) T).
Proof.
  tree_induction T. cbn [rwm]. constructor.
  assert (G : forall r, incl r ks -> without_all l r
     (flat_map (fun k => match mrem l (fun _ => None) (tid k) with Some z => z | None => [rwm (mrem l (fun _ => None)) k] end) r)).
  { induction r as [|k r IHr]; intro I; cbn [flat_map]; [constructor|].
    assert (Ir : incl r ks) by (intros z Hz; apply I; right; auto).
    unfold mrem at 1. destruct (existsb (Nat.eqb (tid k)) l) eqn:E.
    - apply without_gone; auto. apply existsb_exists in E as (j & Hj & Ej). apply Nat.eqb_eq in Ej. subst. auto.
    - cbn [app]. apply without_kept; auto.
      + intro Hj. assert (existsb (Nat.eqb (tid k)) l = true); [|congruence]. apply existsb_exists. exists (tid k). split; auto. apply Nat.eqb_refl.
      + apply IH. apply I. left. auto. }
  apply G. apply incl_refl.
Qed.

Lemma remove_all_any s T l : wf_state s -> In T (heap s) -> (forall i, In i l -> In i (ids T)) ->
  exists T' s', remove_xml_elements l s = (Ok tt, s') /\ without l T T' /\ changed s T T' s'.
Proof.
  intros W HT Hl. pose proof (wf_NoDup s T W HT) as N.
  destruct (remove_loop _ _ _ T l N (fun _ => None) s Hl (tracks_init s T W HT)) as (s' & E & _ & K).
  exists (rwm (mrem l (fun _ => None)) T), s'. split; auto. split; [apply rwm_without|].
  apply changed_steps; [eapply tracks_steps; eauto|apply rwm_tid].
Qed.

(** ** Copying *)

Lemma builds_detached s t s1 : wf_state s -> builds s [t] s1 -> detached s1 t /\ heap s1 = heap s /\ gen s1 = gen s /\ wf_state s1.
Proof.
  intros W B. pose proof (builds_loose s [t] s1 W B) as [L1 L2]. unfold hids in L1, L2. cbn [flat_map] in L1, L2. rewrite app_nil_r in L1, L2.
  destruct B as [Bh Bn Bi Bg]. split; [split; auto|]. split; auto. split; auto.
  destruct W as [W1 W2]. split; rewrite Bh; auto. intros i Hi. specialize (W2 i Hi). lia.
Qed.

Lemma copy_any s T a x tag : wf_state s -> In T (heap s) -> In (a, x) (visits [] T) ->
  if is_elem x
  then exists N s', copy_xml_element (tid x) tag s = (Ok N, s') /\ erase N = with_tag tag (erase x) /\
         detached s' N /\ heap s' = heap s /\ wf_state s'
  else exists s', copy_xml_element (tid x) tag s = (Err AttributeError, s') /\ heap s' = heap s /\ wf_state s'.
Proof.
  intros W HT Hx. destruct (copy_builds x s) as (t' & s1 & E & B & R & _).
  destruct (builds_detached s t' s1 W B) as (D & Hh & _ & W1).
  assert (K : is_elem t' = is_elem x).
  { apply (f_equal (fun t => is_elem t)) in R. rewrite !is_elem_erase in R. exact R. }
  unfold copy_xml_element. rewrite bind_run, (deref_in s T a x) by auto. cbn [snd]. rewrite bind_run, E, K.
  destruct (is_elem x) eqn:Ie.
  - destruct t' as [h1 k1]. eexists. exists s1. split; [reflexivity|]. split.
    + rewrite <- R. destruct tag as [q|]; cbn [with_tag erase]; [reflexivity|]. destruct h1; reflexivity.
    + split; [|split; auto]. destruct D as [D1 D2]. split; [exact D1|exact D2].
  - exists s1. split; [reflexivity|]. auto.
Qed.

(** ** Attributes *)

Lemma modify_only s T i f (R : hdr -> hdr -> Prop) : wf_state s -> In T (heap s) -> In i (ids T) -> keeps_id f ->
  (forall a y, In (a, y) (visits [] T) -> tid y = i -> R (head y) (f (head y))) ->
  exists T' s', modify i f s = (Ok tt, s') /\ only_node i R T T' /\ changed s T T' s' /\ gen s' = gen s.
Proof.
  intros W HT Hi K HR. destruct (modify_steps s T i f W HT Hi K) as (s' & E & S & G).
  exists (tset i f T), s'. split; auto. split; [|split; auto; apply changed_steps; auto; apply tset_tid; auto].
  rewrite tset_tmap, (tmap_edit _ T []). unfold only_node. apply edited. intros a y Hy. split.
  - intro Q. rewrite Q, Nat.eqb_refl. eauto.
  - intro Q. apply Nat.eqb_neq in Q. rewrite Q. reflexivity.
Qed.

Lemma attributes_any s T a x l : wf_state s -> In T (heap s) -> In (a, x) (visits [] T) -> NoDup (map fst (h_attr (head x))) ->
  exists T' s', remove_xml_attributes (tid x) l s = (Ok tt, s') /\ only_node (tid x) (attributes_go l) T T' /\ changed s T T' s'.
Proof.
  intros W HT Hx D. rewrite remove_attributes_run.
  destruct (modify_only s T (tid x) (drop_attrs l) (attributes_go l)) as (T' & s' & E & O & C & _); eauto.
  - eapply visits_tid_in; eauto.
  - apply drop_keeps.
  - intros b y Hy Q. destruct (visits_unique T [] b y a x (wf_NoDup s T W HT) Hy Hx Q) as [_ ->].
    exists (fun k => attr_of k (drop_attrs l (head x))). split; [split; auto; apply drop_same|].
    intro k. rewrite drop_attr_of by auto. destruct (existsb (qn_eqb k) l) eqn:X.
    + apply in_names in X. split; auto. intro; contradiction.
    + split; auto. intro I. apply in_names in I. congruence.
Qed.

Lemma attribute_set k v h : attribute_is k v h (hset_attr k v h).
Proof.
  exists (fun j => attr_of j (hset_attr k v h)). split; [split; [repeat split|auto]|]. split.
  - apply attr_of_set_same.
  - intros j J. apply attr_of_set. congruence.
Qed.

Lemma new_id_any f s T a x : wf_state s -> In T (heap s) -> In (a, x) (visits [] T) ->
  match attr_of (lq "id") (head x) with
  | Some v => exists T' s', apply_new_id f (tid x) s = (Ok tt, s') /\
      only_node (tid x) (attribute_is (lq "id") (f (gen s) v)) T T' /\ changed s T T' s' /\ gen s' = S (gen s)
  | None => apply_new_id f (tid x) s = (Err KeyError, s)
  end.
Proof.
  intros W HT Hx. unfold apply_new_id. rewrite bind_run, (get_hdr_in s T a x) by auto. unfold attr_of.
  destruct (attr_get (lq "id") (h_attr (head x))) as [v|] eqn:E; [|reflexivity].
  set (s0 := St (heap s) (next s) (S (gen s))).
  assert (W0 : wf_state s0) by exact W.
  destruct (modify_only s0 T (tid x) (hset_attr (lq "id") (f (gen s) v)) (attribute_is (lq "id") (f (gen s) v))) as (T' & s' & E' & O & C & G); auto.
  - eapply visits_tid_in; eauto.
  - intro; reflexivity.
  - intros. apply attribute_set.
  - exists T', s'. split; auto.
Qed.

Lemma schemalocations_any s T : wf_state s -> In T (heap s) -> NoDup (map fst (h_attr (head T))) ->
  exists T' s', remove_schemalocations (tid T) s = (Ok tt, s') /\ only_node (tid T) (attributes_go [TAG_SCHEMALOCATION]) T T' /\ changed s T T' s'.
Proof.
  intros W HT D. destruct (attributes_any s T [] T [TAG_SCHEMALOCATION] W HT (visits_self [] T) D) as (T' & s' & E & O & C).
  exists T', s'. split; auto.
Qed.

(** ** xsi:type *)

Lemma split_ne c s : split_char c s <> [].
Proof. destruct s as [|a s]; cbn [split_char]; [discriminate|]. destruct (Ascii.eqb a c); [discriminate|]. destruct (split_char c s); discriminate. Qed.

Lemma split_single c s : split_char c s = [s] <-> forall a b, s <> a ++ String c b.
Proof.
  induction s as [|x s IH]; cbn [split_char].
  - split; auto. intros _ [|? ?] b; discriminate.
  - destruct (Ascii.eqb_spec x c) as [->|N].
    + split; [intro H; injection H as _ H; exfalso; exact (split_ne _ _ H)|]. intro H. exfalso. exact (H "" s eq_refl).
    + destruct (split_char c s) as [|u us] eqn:S; [exfalso; exact (split_ne _ _ S)|]. split.
      * intros H [|y a] b E; injection E as E1 E2; [congruence|]. injection H as H1 H2. subst. apply (proj1 IH eq_refl a b). exact eq_refl.
      * intro H. assert (Q : u :: us = [s]). { apply IH. intros a b E. apply (H (String x a) b). rewrite E. reflexivity. }
        injection Q as -> ->. reflexivity.
Qed.

Lemma split_two c s a b : split_char c s = [a; b] <-> s = a ++ String c b /\ split_char c a = [a] /\ split_char c b = [b].
Proof.
  split.
  - intro H. assert (A : split_char c a = [a]) by (apply (split_char_part c s); rewrite H; left; auto).
    assert (B : split_char c b = [b]) by (apply (split_char_part c s); rewrite H; right; left; auto).
    split; auto. clear A B. revert a b H. induction s as [|x s IH]; intros a b H; cbn [split_char] in H; [discriminate|].
    destruct (Ascii.eqb_spec x c) as [->|N].
    + injection H as <- H. cbn [append]. f_equal. clear - H. revert b H. induction s as [|y s IH]; intros b H; cbn [split_char] in H.
      * injection H as <-. reflexivity.
      * destruct (Ascii.eqb y c); [injection H as _ H; exfalso; exact (split_ne _ _ H)|].
        destruct (split_char c s) as [|u us] eqn:S; [exfalso; exact (split_ne _ _ S)|].
        injection H as <- ->. f_equal. apply IH. reflexivity.
    + destruct (split_char c s) as [|u us] eqn:S; [discriminate|]. injection H as <- ->. cbn [append]. f_equal. apply IH. reflexivity.
  - intros (-> & A & B). rewrite split_char_app, B by exact A. reflexivity.
Qed.

Lemma no_colon_split s : no_colon s <-> split_char ":" s = [s].
Proof. rewrite split_single. unfold no_colon. cbn [append]. reflexivity. Qed.

Lemma type_info_any h :
  match attr_of TAG_XSI_TYPE h with
  | None => type_info h = Err KeyError
  | Some v =>
      (exists a n, v = a ++ ":" ++ n /\ no_colon a /\ no_colon n /\ type_info h = Ok (a, n)) \/
      ((forall a n, v = a ++ ":" ++ n -> ~ (no_colon a /\ no_colon n)) /\ type_info h = Err ValueError)
  end.
Proof.
  unfold type_info, attr_of. destruct (attr_get TAG_XSI_TYPE (h_attr h)) as [v|]; auto.
  assert (X : (exists a n, split_char ":" v = [a; n]) \/ (forall a n, split_char ":" v <> [a; n])).
  { destruct (split_char ":" v) as [|a [|n [|? ?]]]; try (right; intros; discriminate). left. eauto. }
  destruct X as [(a & n & E)|N].
  - left. exists a, n. rewrite E. apply split_two in E as (-> & A & B). repeat split; try (apply no_colon_split; auto).
  - right. split.
    + intros a n -> [A B]. apply no_colon_split in A, B. apply (N a n). apply split_two. auto.
    + destruct (split_char ":" v) as [|a [|n [|? ?]]]; auto. exfalso. exact (N a n eq_refl).
Qed.

Lemma type_info_run s T a x : wf_state s -> In T (heap s) -> In (a, x) (visits [] T) ->
  get_type_info (tid x) s = (type_info (head x), s).
Proof.
  intros W HT Hx. unfold get_type_info. rewrite bind_run, (get_hdr_in s T a x) by auto. unfold liftr. destruct (type_info (head x)); reflexivity.
Qed.

(** The text before the first colon. *)
Lemma split_head c v : exists a, hd "" (split_char c v) = a /\ (forall x y, a <> x ++ String c y) /\ (v = a \/ exists r, v = a ++ String c r).
Proof.
  induction v as [|x v (a & E & N & D)]; cbn [split_char].
  - exists "". split; auto. split; [intros [|? ?] y; discriminate|auto].
  - destruct (Ascii.eqb_spec x c) as [->|Nx].
    + exists "". split; auto. split; [intros [|? ?] y; discriminate|]. right. exists v. reflexivity.
    + destruct (split_char c v) as [|u us] eqn:S; [exfalso; exact (split_ne _ _ S)|]. cbn [hd] in *. subst u.
      exists (String x a). split; auto. split.
      * intros [|z p] q Q; injection Q as Q1 Q2; [congruence|]. exact (N _ _ Q2).
      * destruct D as [->|(r & ->)]; auto. right. exists r. reflexivity.
Qed.

Lemma before_unique a r a' r' : no_colon a -> no_colon a' -> a ++ ":" ++ r = a' ++ ":" ++ r' -> a = a'.
Proof.
  revert a'. induction a as [|x a IH]; intros a' A A' E.
  - destruct a' as [|y a']; auto. cbn [append] in E. injection E as E1 E2. exfalso. apply (A' "" a'). cbn [append]. congruence.
  - destruct a' as [|y a'].
    + cbn [append] in E. injection E as E1 E2. exfalso. apply (A "" a). cbn [append]. congruence.
    + cbn [append] in E. injection E as E1 E2. subst y. f_equal. apply (IH a').
      * intros p q Q. apply (A (String x p) q). rewrite Q. reflexivity.
      * intros p q Q. apply (A' (String x p) q). rewrite Q. reflexivity.
      * exact E2.
Qed.

Lemma ext_namespace_any s T a x : wf_state s -> In T (heap s) -> In (a, x) (visits [] T) ->
  match attr_of TAG_XSI_TYPE (head x) with
  | None => get_ext_namespace (tid x) s = (Err KeyError, s)
  | Some v => exists p, no_colon p /\ (v = p \/ exists r, v = p ++ ":" ++ r) /\
      get_ext_namespace (tid x) s =
        (match env_get (Some p) (env_of a x) with Some ns => Ok ns | None => Err KeyError end, s)
  end.
Proof.
  intros W HT Hx. unfold get_ext_namespace, attr_of. rewrite bind_run, (deref_in s T a x) by auto.
  unfold ext_namespace. cbn [fst snd]. destruct (attr_get TAG_XSI_TYPE (h_attr (head x))) as [v|]; [|reflexivity].
  destruct (split_head ":" v) as (p & E & N & D). exists p. split; [exact N|]. split; [exact D|]. rewrite E.
  unfold liftr. destruct (env_get (Some p) (env_of a x)); reflexivity.
Qed.

(** ** Leaves, prefixes, texts *)

Lemma leaf_any s T a x : wf_state s -> In T (heap s) -> In (a, x) (visits [] T) ->
  exists b, is_leaf (tid x) s = (Ok b, s) /\ (b = true <-> forall k, In k (kids x) -> is_elem k = false).
Proof.
  intros W HT Hx. unfold is_leaf. rewrite bind_run, (deref_in s T a x) by auto. cbn [snd]. eexists. split; [reflexivity|].
  unfold elem_children. split.
  - intros H k Hk. destruct (is_elem k) eqn:E; auto. assert (X : In k (filter is_elem (kids x))) by (apply filter_In; auto).
    destruct (filter is_elem (kids x)); [destruct X|discriminate].
  - intro H. destruct (filter is_elem (kids x)) as [|k l] eqn:E; auto. assert (X : In k (filter is_elem (kids x))) by (rewrite E; left; auto).
    apply filter_In in X as [X1 X2]. rewrite (H k X1) in X2. discriminate.
Qed.

Lemma alias_any s T ns : wf_state s -> In T (heap s) -> get_ns_alias (tid T) ns s = (Ok (env_get (Some ns) (env_of [] T)), s).
Proof. intros W HT. unfold get_ns_alias. rewrite bind_run, (deref_root s T) by auto. reflexivity. Qed.

(** ** _apply_namespace_updates *)

Lemma holds_occurs c s : holds_char c s = false <-> forall a b, s <> a ++ String c b.
Proof.
  induction s as [|x s IH]; cbn [holds_char].
  - split; auto. intros _ [|? ?] ?; discriminate.
  - destruct (Ascii.eqb_spec x c) as [->|N]; cbn [orb].
    + split; [discriminate|]. intro H. exfalso. exact (H "" s eq_refl).
    + split.
      * intros H [|y a] b E; injection E as E1 E2; [congruence|]. exact (proj1 IH H a b E2).
      * intro H. apply IH. intros a b E. apply (H (String x a) b). rewrite E. reflexivity.
Qed.

Lemma updated_ok m ns local : replaceable ns local -> proper (dict_getd ns ns m) local ->
  updated_tag m (QN (Some ns) local) = Ok (QN (Some (dict_getd ns ns m)) local).
Proof.
  intros (N1 & N2 & N3 & N4) (P1 & P2 & P3 & P4 & P5). unfold updated_tag. cbn [q_ns]. set (new := dict_getd ns ns m) in *.
  unfold clark. cbn [q_ns q_local].
  assert (R : replace ns new ("{" ++ ns ++ "}" ++ local) = "{" ++ new ++ "}" ++ local).
  { change ("{" ++ ns ++ "}" ++ local) with ("" ++ String "{" (ns ++ "}" ++ local)). unfold replace at 1.
    assert (S0 : forall c r, (forall b, ns <> String c b) -> replace_from ns new 0 (String c r) = String c (replace_from ns new 0 r)).
    { intros c r H. cbn [replace_from]. destruct (starts_with ns (String c r)) eqn:S; auto. exfalso.
      apply starts_iff in S as (z & S). destruct ns as [|y ns]; [contradiction|]. cbn [append] in S. injection S as S1 S2. subst. exact (H ns eq_refl). }
    cbn [append]. rewrite S0 by (intro b; exact (N2 "" b)). f_equal.
    transitivity (replace ns new (ns ++ String "}" local)); [reflexivity|].
    rewrite replace_hit by auto. f_equal. unfold replace. rewrite S0 by (intro b; exact (N3 "" b)). f_equal.
    transitivity (replace ns new local); [reflexivity|]. apply replace_none. intros (a & b & E). exact (N4 a b E). }
  rewrite R. unfold unclark. cbn [append]. cbn [Ascii.eqb]. change (Ascii.eqb "{" "{") with true. cbn [Bool.eqb].
  change (String "}" local) with ("}" ++ local). rewrite Scripts.split_first by (intros (a & b & E); exact (P2 a b E)).
  rewrite valid_local_ok; auto.
  - destruct (String.eqb_spec new ""); [contradiction|]. reflexivity.
  - intros (a & b & E). exact (P4 a b E).
  - intros (a & b & E). exact (P5 a b E).
Qed.

Definition retagged (m : dict string) (h : hdr) : res hdr :=
  match updated_tag m (h_tag h) with Ok q => Ok (set_tag q h) | Err e => Err e end.

Definition below (a : list tree) (x : tree) : bool := is_elem x && negb (match a with [] => true | _ => false end).

Lemma below_select T : map (fun d : ctx => tid (snd d)) (filter (fun d : ctx => is_elem (snd d)) (tl (visits [] T))) =
  select_ids (fun c => below (fst c) (snd c)) T.
Proof.
  unfold select_ids, select. f_equal. destruct T as [h ks]. cbn [visits tl filter fst snd]. unfold below at 1. rewrite andb_false_r.
  apply filter_ext_in. intros [a x] H. cbn [fst snd]. unfold below. apply in_flat_map in H as (k & Hk & Hx).
  apply visits_anc_app in Hx as (b & ->). destruct (b ++ [Node h ks])%list eqn:E; [destruct b; discriminate|]. rewrite andb_true_r. reflexivity.
Qed.

Lemma applied_run u s T : wf_state s -> In T (heap s) ->
  match first_err (fun c : ctx => retagged (c_ns_map u) (head (snd c))) (filter (fun c => below (fst c) (snd c)) (visits [] (erase T))) with
  | Some e => exists s', apply_namespace_updates u (tid T) s = (Err e, s')
  | None => exists s', apply_namespace_updates u (tid T) s = (Ok tt, s') /\
      becomes s T s' (edit (fun anc x => if below anc x then total (retagged (c_ns_map u)) (head x) else head x) [] (erase T))
  end.
Proof.
  intros W HT. unfold apply_namespace_updates. rewrite bind_run, (deref_root s T) by auto. cbn [fst snd]. rewrite below_select.
  set (body := fun i => h <- get_hdr i ;; q <- liftr (updated_tag (c_ns_map u) (h_tag h)) ;; modify i (set_tag q)).
  assert (SI : same_id (retagged (c_ns_map u))).
  { intros h h' E. unfold retagged in E. destruct (updated_tag _ _); [|discriminate]. injection E as <-. reflexivity. }
  pose proof (hdr_pass s T (fun c => below (fst c) (snd c)) below body (retagged (c_ns_map u)) W HT) as H.
  assert (EB : edits_hdr body (retagged (c_ns_map u))).
  { apply edits_by_modify; auto. intros s0 T0 a x W0 H0 Hx. unfold body. rewrite bind_run, (get_hdr_in s0 T0 a x) by auto.
    rewrite bind_run. unfold retagged. destruct (updated_tag (c_ns_map u) (h_tag (head x))) as [q|e]; cbn [liftr].
    - exists (set_tag q). split; [intro; reflexivity|]. split; auto.
    - exists s0. reflexivity. }
  specialize (H EB SI).
  assert (HN : hnat (retagged (c_ns_map u))).
  { intro h. unfold retagged. cbn. destruct (updated_tag _ _); reflexivity. }
  assert (NP : natural (fun c => below (fst c) (snd c)) below).
  { intros [a x]. cbn [fst snd]. unfold below. rewrite is_elem_erase. destruct a; reflexivity. }
  specialize (H HN NP). destruct (first_err _ _) as [e|]; [exact H|].
  destruct H as (F & s' & E & S & _ & K & _ & X). exists s'. split; [exact E|]. destruct S as [S1 S2 S3 _ _].
  split; auto. split; auto. exists (tmap F T). split; auto. split; [apply tmap_tid; auto|exact X].
Qed.

Lemma first_err_none {B} (f : ctx -> res B) l : (forall c, In c l -> exists y, f c = Ok y) -> first_err f l = None.
Proof.
  induction l as [|c l IH]; intro H; auto. cbn. destruct (H c (or_introl eq_refl)) as (y & ->). apply IH. intros d Hd. apply H. right. auto.
Qed.

Lemma first_err_some {B} (f : ctx -> res B) l c e : In c l -> f c = Err e -> exists e', first_err f l = Some e'.
Proof.
  induction l as [|d l IH]; intros H E; [destruct H|]. cbn. destruct (f d) eqn:D; [|eauto]. destruct H as [->|H]; [congruence|auto].
Qed.

Lemma applied_any u s T : wf_state s -> In T (heap s) ->
  (forall a x, In (a, x) (visits [] (erase T)) -> a <> [] -> is_elem x = true -> exists ns,
     q_ns (h_tag (head x)) = Some ns /\ replaceable ns (q_local (h_tag (head x))) /\
     proper (lookup ns ns (c_ns_map u)) (q_local (h_tag (head x)))) ->
  exists s' e, apply_namespace_updates u (tid T) s = (Ok tt, s') /\ becomes s T s' e /\
    node_by_node (namespaces_applied (c_ns_map u)) [] (erase T) e.
Proof.
  intros W HT H. pose proof (applied_run u s T W HT) as R.
  assert (G : forall a x, In (a, x) (visits [] (erase T)) -> below a x = true -> exists ns, q_ns (h_tag (head x)) = Some ns /\
     retagged (c_ns_map u) (head x) = Ok (set_tag (QN (Some (lookup ns ns (c_ns_map u))) (q_local (h_tag (head x)))) (head x))).
  { intros a x Hx B. unfold below in B. apply andb_true_iff in B as [B1 B2].
    destruct (H a x Hx) as (ns & E1 & E2 & E3); auto; [destruct a; [discriminate|discriminate]|].
    exists ns. split; auto. unfold retagged. destruct (h_tag (head x)) as [q l] eqn:Q. cbn [q_ns q_local] in *. subst q.
    change (lookup ns ns (c_ns_map u)) with (dict_getd ns ns (c_ns_map u)) in *. rewrite updated_ok by auto. reflexivity. }
  rewrite first_err_none in R.
  - destruct R as (s' & E & B). exists s'. eexists. split; [exact E|]. split; [exact B|]. apply edited. intros a x Hx.
    unfold namespaces_applied. destruct (below a x) eqn:Bx.
    + destruct (G a x Hx Bx) as (ns & E1 & E2). rewrite E1. fold (below a x). rewrite Bx. unfold total. rewrite E2. reflexivity.
    + fold (below a x). rewrite Bx. destruct (q_ns (h_tag (head x))); reflexivity.
  - intros [a x] Hc. apply filter_In in Hc as [Hc B]. cbn [fst snd] in *. destruct (G a x Hc B) as (ns & _ & E). eauto.
Qed.

Lemma applied_fails u s T a x : wf_state s -> In T (heap s) -> In (a, x) (visits [] (erase T)) -> a <> [] -> is_elem x = true ->
  q_ns (h_tag (head x)) = None -> exists e s', apply_namespace_updates u (tid T) s = (Err e, s').
Proof.
  intros W HT Hx Na Ex Q. pose proof (applied_run u s T W HT) as R.
  destruct (first_err_some (fun c : ctx => retagged (c_ns_map u) (head (snd c))) (filter (fun c : ctx => below (fst c) (snd c)) (visits [] (erase T))) (a, x) TypeError) as (e & E).
  - apply filter_In. split; auto. cbn [fst snd]. unfold below. rewrite Ex. destruct a; auto.
  - cbn [snd]. unfold retagged, updated_tag. rewrite Q. reflexivity.
  - unfold ctx in *. rewrite E in R. exists e. exact R.
Qed.

(** ** Texts *)

Lemma node_text_any b t :
  (kids t <> [] -> get_node_text b t = Ok (Plain None)) /\
  (kids t = [] -> h_cdata (head t) = false -> b = false -> get_node_text b t = Ok (Plain (h_text (head t)))) /\
  (kids t = [] -> h_cdata (head t) = true \/ b = true ->
     match h_text (head t) with
     | None => get_node_text b t = Err TypeError
     | Some v => (get_node_text b t = Ok (Section v) /\ forall x y, v <> x ++ "]]>" ++ y) \/
                 (get_node_text b t = Err ValueError /\ exists x y, v = x ++ "]]>" ++ y)
     end).
Proof.
  unfold get_node_text. split; [|split].
  - destruct (kids t); [contradiction|reflexivity].
  - intros -> -> ->. reflexivity.
  - intros -> C. assert (X : h_cdata (head t) || b = true) by (destruct C as [->| ->]; [reflexivity|apply orb_true_r]). rewrite X.
    destruct (h_text (head t)) as [v|]; auto. destruct (contains "]]>" v) eqn:E.
    + right. split; auto. exact (contains_some _ _ E).
    + left. split; auto. intros x y Q. assert (contains "]]>" v = true); [|congruence]. apply occurs_contains. exists x, y. exact Q.
Qed.
