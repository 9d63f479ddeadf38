(** * Node identities do not matter. *)

From Coq Require Import String Ascii List Bool Arith Lia.
From Verif Require Import Str Xml XPath Utils Base Tables Spec SpecDoc SpecPass SpecStep
  SpecCheck SpecClean SpecUpdate Lib Refine RefineBase RefineCheck RefineClean.
Import ListNotations.
Local Open Scope string_scope.

Fixpoint relabel (r : nat -> nat) (t : tree) : tree :=
  match t with Node h ks => Node (set_id (r (h_id h)) h) (map (relabel r) ks) end.

Lemma relabel_head r t : head (relabel r t) = set_id (r (tid t)) (head t).
Proof. destruct t; reflexivity. Qed.

Lemma relabel_kids r t : kids (relabel r t) = map (relabel r) (kids t).
Proof. destruct t; reflexivity. Qed.

Lemma relabel_tid r t : tid (relabel r t) = r (tid t).
Proof. destruct t; reflexivity. Qed.

Lemma relabel_erase r t : erase (relabel r t) = erase t.
Proof.
  tree_induction t. simpl. f_equal.
  rewrite map_map. apply map_ext_in. intros k Hk. apply IH; auto.
Qed.

Lemma relabel_ids r t : ids (relabel r t) = map r (ids t).
Proof.
  tree_induction t. simpl. f_equal.
  rewrite flat_map_map. rewrite map_flat_map. apply flat_map_ext_in. intros k Hk. apply IH; auto.
Qed.

Definition rctx (r : nat -> nat) (c : ctx) : ctx := (map (relabel r) (fst c), relabel r (snd c)).

Lemma relabel_visits r t : forall anc,
  visits (map (relabel r) anc) (relabel r t) = map (rctx r) (visits anc t).
Proof.
  tree_induction t. intro anc. simpl. f_equal.
  rewrite flat_map_map, map_flat_map. apply flat_map_ext_in. intros k Hk.
  apply (IH k Hk (Node h ks :: anc)).
Qed.

Lemma relabel_visits_root r t : visits [] (relabel r t) = map (rctx r) (visits [] t).
Proof. exact (relabel_visits r t []). Qed.

Lemma set_id_id h : set_id (h_id h) h = h.
Proof. destruct h; reflexivity. Qed.

Lemma size_erase t : length (ids (erase t)) = length (ids t).
Proof.
  tree_induction t. simpl. f_equal. rewrite flat_map_map.
  induction ks as [|k ks IHk]; simpl; auto. rewrite !app_length, IH by (left; auto).
  f_equal. apply IHk. intros x Hx. apply IH. right; auto.
Qed.

Lemma erase_ids_eq a : forall b, erase a = erase b -> ids a = ids b -> a = b.
Proof.
  tree_induction a. intros [h' ks'] E I. pose proof (f_equal head E) as E1. pose proof (f_equal kids E) as E2.
  pose proof (f_equal (hd 0) I) as I1. pose proof (f_equal (@tl nat) I) as I2. cbn in E1, E2, I1, I2.
  assert (h = h').
  { destruct h, h'. unfold set_id in E1. simpl in *. congruence. }
  subst h'. f_equal. clear E I E1 I1. revert ks' E2 I2.
  induction ks as [|k ks IHk]; intros [|k' ks'] E2 I2; simpl in *; try discriminate; auto.
  injection E2 as Ek Eks.
  assert (L : length (ids k) = length (ids k')) by (rewrite <- size_erase, Ek; apply size_erase).
  assert (Q : ids k = ids k' /\ flat_map ids ks = flat_map ids ks').
  { clear -I2 L. revert I2 L. generalize (ids k), (ids k').
    induction l as [|x l IH]; intros [|y l'] E L; simpl in *; try discriminate; auto.
    injection E as -> E. destruct (IH l' E) as [-> ->]; auto. }
  destruct Q as [Q1 Q2]. f_equal.
  - apply IH; auto.
  - apply IHk; auto.
Qed.

Lemma seq_shift_map n k : seq n k = map (fun i => n + i) (seq 0 k).
Proof.
  revert n. induction k as [|k IH]; intro n; simpl; auto. f_equal; [lia|].
  rewrite (IH (S n)), (IH 1), map_map. apply map_ext. intro; lia.
Qed.

Lemma size_erase_eq t : size (erase t) = size t.
Proof. tree_induction t. simpl. rewrite map_map. f_equal. f_equal. apply map_ext_in; auto. Qed.

Lemma numbered_shift n t : numbered n t = relabel (fun i => n + i) (numbered 0 (erase t)).
Proof.
  apply erase_ids_eq; unfold numbered.
  - rewrite relabel_erase, !erase_renum. symmetry. apply erase_idem.
  - rewrite relabel_ids, !renum_ids. rewrite (seq_shift_map n). f_equal.
    rewrite size_erase_eq. reflexivity.
Qed.

(** ** Predicates on nodes *)

Definition insensitive (p : list tree -> tree -> bool) : Prop :=
  forall r anc t, p (map (relabel r) anc) (relabel r t) = p anc t.

Lemma selected_relabel p r t : insensitive p ->
  selected p (relabel r t) = map (rctx r) (selected p t).
Proof.
  intro N. unfold selected. rewrite relabel_visits_root, filter_map_comm. f_equal.
  apply filter_ext. intros [a x]. simpl. apply N.
Qed.

Lemma named_relabel q r t : named q (relabel r t) = named q t.
Proof. unfold named. rewrite relabel_head. destruct (head t); reflexivity. Qed.

Lemma named_in_relabel qs r t : named_in qs (relabel r t) = named_in qs t.
Proof. unfold named_in. apply existsb_ext. intros q _. apply named_relabel. Qed.

Lemma inside_relabel r anc : inside (map (relabel r) anc) = inside anc.
Proof. destruct anc; reflexivity. Qed.

Lemma is_elem_relabel r t : is_elem (relabel r t) = is_elem t.
Proof. unfold is_elem. rewrite relabel_head. destruct (head t); reflexivity. Qed.

Lemma any_inside_ins qs : insensitive (any_inside qs).
Proof. intros r anc t. unfold any_inside. rewrite inside_relabel, named_in_relabel. reflexivity. Qed.

Lemma anywhere_ins qs : insensitive (anywhere qs).
Proof. intros r anc t. apply named_in_relabel. Qed.

Lemma child_in_ins ps q : insensitive (child_in ps q).
Proof.
  intros r anc t. unfold child_in. rewrite named_relabel. f_equal. unfold child_of.
  destruct anc as [|p anc]; simpl; auto. rewrite named_in_relabel, inside_relabel. reflexivity.
Qed.

Lemma attr_relabel r t : h_attr (head (relabel r t)) = h_attr (head t).
Proof. rewrite relabel_head. reflexivity. Qed.

Lemma env_relabel r anc t : env_of (map (relabel r) anc) (relabel r t) = env_of anc t.
Proof.
  unfold env_of. rewrite <- (map_cons (relabel r)), flat_map_map. apply flat_map_ext.
  intro x. rewrite relabel_head. reflexivity.
Qed.

Lemma type_of_relabel r c : type_of (rctx r c) = type_of c.
Proof.
  destruct c as [a x]. unfold type_of, rctx. cbn [fst snd]. rewrite attr_relabel, env_relabel. reflexivity.
Qed.

Lemma typed_relabel r c : typed (rctx r c) = typed c.
Proof.
  destruct c as [a x]. unfold typed, rctx. cbn [fst snd].
  rewrite inside_relabel, is_elem_relabel. unfold has_attr. rewrite attr_relabel. reflexivity.
Qed.

Lemma of_type_relabel name ns r c : of_type name ns (rctx r c) = of_type name ns c.
Proof. unfold of_type. rewrite typed_relabel, type_of_relabel. reflexivity. Qed.

Lemma only_holds_ins q ns : insensitive (only_holds q ns).
Proof.
  intros r anc t. unfold only_holds. rewrite any_inside_ins. f_equal. rewrite relabel_kids.
  rewrite forallb_map. apply forallb_ext. intros k _. rewrite is_elem_relabel. f_equal.
  unfold type_in. rewrite attr_relabel. destruct (attr_get _ _); auto.
  change (relabel r t :: map (relabel r) anc) with (map (relabel r) (t :: anc)). rewrite env_relabel. reflexivity.
Qed.

(** ** Reports *)

Definition relab_dict (r : nat -> nat) (d : dict (list nat)) : dict (list nat) :=
  map (fun kv => (fst kv, map r (snd kv))) d.

Definition relab_exn (r : nat -> nat) (e : exn) : exn :=
  match e with
  | UpdateError l d => UpdateError (option_map (map r) l) (option_map (relab_dict r) d)
  | InvalidVersionError i a b => InvalidVersionError (option_map r i) a b
  | _ => e
  end.

Definition relab {A} (h : A -> A) (r : nat -> nat) (x : res A) : res A :=
  match x with Ok a => Ok (h a) | Err e => Err (relab_exn r e) end.

Lemma first_err_relab {A} (F : ctx -> res A) (h : A -> A) r l :
  (forall c, In c l -> F (rctx r c) = relab h r (F c)) ->
  first_err F (map (rctx r) l) = option_map (relab_exn r) (first_err F l).
Proof.
  induction l as [|c l IH]; intro H; simpl; auto. rewrite H by (left; auto).
  destruct (F c) as [a|e]; simpl; auto. apply IH. intros x Hx. apply H. right; auto.
Qed.

Definition rule_ins (x : rule) : Prop :=
  match x with Elements p | Parents p => insensitive p | Instances _ _ => True end.

Lemma type_of_err c e : type_of c = Err e -> e = KeyError \/ e = ValueError.
Proof.
  unfold type_of. destruct (attr_get _ _); [|intro H; injection H; auto].
  destruct (split_char ":" s) as [|? [|? [|]]]; try (intro H; injection H; auto; fail).
  destruct (env_get _ _); intro H; [discriminate|]. injection H; auto.
Qed.

Lemma first_err_type_of r l : first_err type_of (map (rctx r) l) = first_err type_of l.
Proof.
  induction l as [|c l IH]; simpl; auto. rewrite type_of_relabel, IH. reflexivity.
Qed.

Lemma first_err_in {B} (F : ctx -> res B) l e : first_err F l = Some e -> exists c, F c = Err e.
Proof.
  induction l as [|c l IH]; simpl; [discriminate|]. destruct (F c) eqn:E; auto. intro H; injection H as <-. eauto.
Qed.

Lemma offenders_relabel x r t : rule_ins x ->
  offenders x (relabel r t) = relab (map r) r (offenders x t).
Proof.
  intro N. destruct x as [p|name ns|p]; simpl in *.
  - rewrite selected_relabel by auto. rewrite !map_map. f_equal. apply map_ext. intros [a x]. apply relabel_tid.
  - rewrite relabel_visits_root, !filter_map_comm.
    rewrite (filter_ext _ typed) by (intro; apply typed_relabel). rewrite first_err_type_of.
    destruct (first_err type_of (filter typed (visits [] t))) as [e|] eqn:E; simpl.
    + apply first_err_in in E as (c & E). apply type_of_err in E as [->| ->]; reflexivity.
    + f_equal. rewrite (filter_ext _ (of_type name ns)) by (intro; apply of_type_relabel).
      rewrite !map_map. apply map_ext. intros [a x]. apply relabel_tid.
  - rewrite selected_relabel by auto. simpl. f_equal. rewrite flat_map_map, map_flat_map.
    apply flat_map_ext. intros [[|q a] x]; simpl; auto. rewrite relabel_tid. reflexivity.
Qed.

Lemma untranslatable_relabel l r t : Forall rule_ins l ->
  untranslatable l (relabel r t) = relab (map r) r (untranslatable l t).
Proof.
  intro F. induction F as [|x l N F IH]; simpl; auto. rewrite (offenders_relabel x r t N).
  destruct (offenders x t) as [a|e]; simpl; auto. rewrite IH.
  destruct (untranslatable l t) as [b|e]; simpl; auto. rewrite map_app. reflexivity.
Qed.

Lemma stix_1_0_rules_ins : Forall rule_ins stix_1_0_rules.
Proof. repeat constructor; simpl; apply only_holds_ins. Qed.

Lemma cybox_2_0_1_rules_ins : Forall rule_ins cybox_2_0_1_rules.
Proof.
  repeat constructor; simpl.
  - apply any_inside_ins.
  - apply any_inside_ins.
  - apply child_in_ins.
  - intros r anc t. rewrite any_inside_ins, relabel_kids, map_length. f_equal. f_equal.
    rewrite existsb_map. apply existsb_ext. intros k _. apply named_relabel.
Qed.

Lemma stix_1_0_1_rules_ins o : Forall rule_ins (stix_1_0_1_rules o).
Proof.
  apply Forall_app. split; [|apply cybox_2_0_1_rules_ins].
  repeat constructor; simpl; try apply only_holds_ins.
  intros r anc t. rewrite child_in_ins. f_equal. f_equal. unfold date_time. rewrite relabel_erase, relabel_head.
  reflexivity.
Qed.

(** ** Shared ids *)

Lemma id_of_relabel r t : id_of (relabel r t) = id_of t.
Proof. unfold id_of. rewrite attr_relabel. reflexivity. Qed.

Lemma counted_relabel nss r t : counted nss (relabel r t) = map (relabel r) (counted nss t).
Proof.
  unfold counted. rewrite relabel_visits_root.
  assert (E : map snd (tl (map (rctx r) (visits [] t))) = map (relabel r) (map snd (tl (visits [] t)))).
  { destruct (visits [] t); simpl; auto. rewrite !map_map. apply map_ext. intros [a x]; reflexivity. }
  rewrite E, filter_map_comm. f_equal. apply filter_ext. intro x.
  rewrite is_elem_relabel, relabel_head. reflexivity.
Qed.

Lemma bearers_relabel nss i r t : bearers nss i (relabel r t) = map r (bearers nss i t).
Proof.
  unfold bearers. rewrite counted_relabel, filter_map_comm, !map_map.
  rewrite (filter_ext _ (fun x => ostr_eqb (id_of x) (Some i))) by (intro; rewrite id_of_relabel; auto).
  apply map_ext. intro; apply relabel_tid.
Qed.

Lemma ids_in_use_relabel nss r t : ids_in_use nss (relabel r t) = ids_in_use nss t.
Proof.
  unfold ids_in_use. rewrite counted_relabel, flat_map_map. f_equal. apply flat_map_ext.
  intro x. rewrite id_of_relabel. reflexivity.
Qed.

Lemma shared_relabel nss r t : shared nss (relabel r t) = shared nss t.
Proof.
  unfold shared. rewrite ids_in_use_relabel. apply filter_ext. intro i.
  rewrite bearers_relabel, map_length. reflexivity.
Qed.

Lemma with_bearers_relabel nss r t l :
  with_bearers nss (relabel r t) l = relab_dict r (with_bearers nss t l).
Proof.
  unfold with_bearers, relab_dict. rewrite map_map. apply map_ext. intro i. rewrite bearers_relabel. reflexivity.
Qed.

Lemma cybox_duplicates_relabel r t : cybox_duplicates (relabel r t) = relab_dict r (cybox_duplicates t).
Proof. unfold cybox_duplicates. rewrite shared_relabel. apply with_bearers_relabel. Qed.

Lemma stix_duplicates_relabel r t : stix_duplicates (relabel r t) = relab_dict r (stix_duplicates t).
Proof. unfold stix_duplicates. rewrite !shared_relabel. apply with_bearers_relabel. Qed.

(** ** Checks *)

Definition stable (f : tree -> res unit) : Prop :=
  forall r t, f (relabel r t) = relab (fun u => u) r (f t).

Lemma in_turn_stable l : Forall stable l -> stable (in_turn l).
Proof.
  intro F. induction F as [|f l N F IH]; intros r t; [reflexivity|].
  rewrite !in_turn_cons. rewrite (N r t). destruct (f t) as [u|e]; simpl; auto.
Qed.

Lemma if_asked_stable b f : stable f -> stable (if_asked b f).
Proof. intros H r t. destruct b; simpl; auto. Qed.

Lemma version_is_stable expected found i r :
  version_is expected found (r i) = relab (fun u => u) r (version_is expected found i).
Proof.
  unfold version_is. destruct (is_version_equal expected found) as [[|]|e] eqn:E; simpl; auto.
  unfold is_version_equal in E. destruct (strict_version expected), (strict_version found);
    try discriminate; injection E as <-; reflexivity.
Qed.

Lemma stix_version_stable v : stable (stix_version_check v).
Proof.
  intros r t. unfold stix_version_check. rewrite selected_relabel by apply anywhere_ins.
  destruct (selected _ t) as [|[a x] l]; simpl; auto. rewrite attr_relabel, relabel_tid.
  destruct (given _); auto. apply version_is_stable.
Qed.

Lemma cybox_declared_relabel r t : cybox_declared (relabel r t) = cybox_declared t.
Proof. unfold cybox_declared. rewrite attr_relabel. reflexivity. Qed.

Lemma cybox_version_stable v p : insensitive p -> stable (cybox_version_check v p).
Proof.
  intros N r t. unfold cybox_version_check. rewrite selected_relabel by auto.
  rewrite (first_err_relab (fun c => cybox_version_of v (snd c)) (fun u => u)).
  - destruct (first_err _ _); reflexivity.
  - intros [a x] _. simpl. unfold cybox_version_of. rewrite cybox_declared_relabel, relabel_tid.
    destruct (cybox_declared x); auto. apply version_is_stable.
Qed.

Lemma nothing_untranslatable_stable l : Forall rule_ins l -> stable (nothing_untranslatable l).
Proof.
  intros F r t. unfold nothing_untranslatable. rewrite untranslatable_relabel by auto.
  destruct (untranslatable l t) as [[|x k]|e]; reflexivity.
Qed.

Lemma nothing_to_clean_stable l d : Forall rule_ins l ->
  (forall r t, d (relabel r t) = relab_dict r (d t)) -> stable (nothing_to_clean l d).
Proof.
  intros F N r t. unfold nothing_to_clean. rewrite untranslatable_relabel by auto. rewrite N.
  destruct (untranslatable l t) as [[|x k]|e]; simpl; auto. destruct (d t); reflexivity.
Qed.

Ltac stables :=
  repeat first [ apply stix_1_0_rules_ins | apply stix_1_0_1_rules_ins | apply cybox_2_0_1_rules_ins
    | apply in_turn_stable | apply Forall_cons | apply Forall_nil | apply if_asked_stable
    | apply stix_version_stable | apply cybox_version_stable | apply anywhere_ins | apply any_inside_ins
    | apply nothing_untranslatable_stable | apply nothing_to_clean_stable | apply stix_duplicates_relabel
    | apply cybox_duplicates_relabel ].

Lemma stix_check_stable o opts v c : stix_check o opts v = Some c -> stable c.
Proof.
  unfold stix_check, dict_get.
  repeat match goal with |- context [String.eqb v ?x] => destruct (String.eqb v x) end;
    intro H; try discriminate; injection H as <-; stables.
Qed.

Lemma cybox_check_stable opts v c : cybox_check opts v = Some c -> stable c.
Proof.
  unfold cybox_check, dict_get.
  repeat match goal with |- context [String.eqb v ?x] => destruct (String.eqb v x) end;
    intro H; try discriminate; injection H as <-; stables.
Qed.

(** ** Cleaning *)

Definition relab_dirt (r : nat -> nat) (d : dirt) : dirt := (map r (fst d), relab_dict r (snd d)).

Lemma some_inj {A} (a b : A) : Some a = Some b -> a = b.
Proof. congruence. Qed.

Lemma stix_dirt_relabel o v D r t : stix_dirt o v = Some D -> D (relabel r t) = relab (relab_dirt r) r (D t).
Proof.
  unfold stix_dirt, dict_get.
  repeat match goal with |- context [String.eqb v ?x] => destruct (String.eqb v x) end;
    intro H; try discriminate; apply some_inj in H; subst D; cbv beta; try reflexivity.
  - rewrite untranslatable_relabel by apply stix_1_0_rules_ins. destruct (untranslatable _ t); reflexivity.
  - rewrite untranslatable_relabel by apply stix_1_0_1_rules_ins. rewrite stix_duplicates_relabel.
    destruct (untranslatable _ t); reflexivity.
Qed.

Lemma cybox_dirt_relabel v D r t : cybox_dirt v = Some D -> D (relabel r t) = relab (relab_dirt r) r (D t).
Proof.
  unfold cybox_dirt, dict_get.
  repeat match goal with |- context [String.eqb v ?x] => destruct (String.eqb v x) end;
    intro H; try discriminate; apply some_inj in H; subst D; cbv beta; try reflexivity.
  rewrite untranslatable_relabel by apply cybox_2_0_1_rules_ins. rewrite cybox_duplicates_relabel.
  destruct (untranslatable _ t); reflexivity.
Qed.

Definition injective (r : nat -> nat) : Prop := forall i j, r i = r j -> i = j.

Lemma position_relabel r i l : injective r -> position (r i) (map r l) = position i l.
Proof.
  intro J. induction l as [|j l IH]; simpl; auto. rewrite IH.
  destruct (Nat.eqb_spec (r i) (r j)) as [E|E], (Nat.eqb_spec i j) as [E'|E']; auto.
  all: try apply J in E; congruence.
Qed.

Lemma existsb_relabel r i l : injective r -> existsb (Nat.eqb (r i)) (map r l) = existsb (Nat.eqb i) l.
Proof.
  intro J. induction l as [|j l IH]; simpl; auto. rewrite IH. f_equal.
  destruct (Nat.eqb_spec (r i) (r j)) as [E|E], (Nat.eqb_spec i j) as [E'|E']; auto.
  all: try apply J in E; congruence.
Qed.

Lemma renumbered_relabel r d : renumbered (relab_dirt r d) = map r (renumbered d).
Proof.
  unfold renumbered, relab_dirt, relab_dict. cbn [snd]. rewrite flat_map_map, map_flat_map. reflexivity.
Qed.

Lemma fresh_ids_relabel f g l r t : injective r ->
  fresh_ids f g (map r l) (relabel r t) = relabel r (fresh_ids f g l t).
Proof.
  intro J. rewrite !fresh_ids_tmap. tree_induction t. simpl. f_equal.
  - unfold renumber. cbn [h_id set_id h_attr]. rewrite position_relabel by auto.
    destruct (position (h_id h) l); auto. destruct (attr_get _ _); auto.
  - rewrite !map_map. apply map_ext_in. auto.
Qed.

Lemma without_relabel l r t : injective r -> without (map r l) (relabel r t) = relabel r (without l t).
Proof.
  intro J. rewrite !without_rwm. tree_induction t. simpl. f_equal.
  rewrite flat_map_map, map_flat_map. apply flat_map_ext_in. intros k Hk.
  unfold mrem. rewrite relabel_tid, existsb_relabel by auto.
  destruct (existsb _ l); simpl; auto. f_equal. apply IH; auto.
Qed.

Lemma taken_relabel r t : injective r -> forall l before,
  taken (map r before) (map r l) (relabel r t) = map (relabel r) (taken before l t).
Proof.
  intro J. induction l as [|i l IH]; intros bef; simpl; auto. rewrite map_app. f_equal.
  - assert (E : map snd (visits [] (relabel r t)) = map (relabel r) (map snd (visits [] t))).
    { rewrite relabel_visits_root, !map_map. apply map_ext. intros [a x]; reflexivity. }
    rewrite E, filter_map_comm, !map_map.
    rewrite (filter_ext _ (fun x => Nat.eqb (tid x) i)).
    + apply map_ext. intro x. apply without_relabel; auto.
    + intro x. rewrite relabel_tid. destruct (Nat.eqb_spec (r (tid x)) (r i)) as [e|e], (Nat.eqb_spec (tid x) i); auto.
      all: try apply J in e; congruence.
  - rewrite <- IH, map_app. reflexivity.
Qed.

Lemma cleaned_relabel f g d r t : injective r ->
  cleaned f g (relab_dirt r d) (relabel r t) = relabel r (cleaned f g d t).
Proof.
  intro J. unfold cleaned. rewrite renumbered_relabel, fresh_ids_relabel by auto.
  apply without_relabel; auto.
Qed.

Lemma removed_relabel f g d r t : injective r ->
  map erase (removed_content f g (relab_dirt r d) (relabel r t)) = map erase (removed_content f g d t).
Proof.
  intro J. unfold removed_content. rewrite renumbered_relabel, fresh_ids_relabel by auto.
  rewrite (taken_relabel r _ J (fst d) []), map_map. apply map_ext. intro. apply relabel_erase.
Qed.

(** ** Whole steps *)

Definition relab_outcome (r : nat -> nat) (x : outcome) : outcome :=
  Outcome (new_document x) (removed_subtrees x) (relab_dict r (replaced x)).

Lemma forceable_relab r e : forceable (relab_exn r e) = forceable e.
Proof. destruct e; reflexivity. Qed.

Lemma single_relabel c D f nf force g r t : injective r -> stable c ->
  (forall t, D (relabel r t) = relab (relab_dirt r) r (D t)) ->
  (forall e y, f (erase e) = Err y -> forceable y = false) ->
  single c D f nf force g (relabel r t) = relab (relab_outcome r) r (single c D f nf force g t).
Proof.
  intros J HC HD HF. unfold single. rewrite HC, relabel_erase.
  assert (X : forall y, forceable y = false -> relab_exn r y = y) by (intros []; simpl; auto; discriminate).
  destruct (c t) as [u|x]; cbn [relab].
  - destruct (f (erase t)) as [e|y] eqn:E; simpl; auto. rewrite X; eauto.
  - rewrite forceable_relab. destruct (force && forceable x); auto. rewrite HD.
    destruct (D t) as [d|y]; cbn [relab rbind]; auto.
    rewrite cleaned_relabel, relabel_erase by auto.
    destruct (f (erase (cleaned nf g d t))) as [e|y] eqn:E; simpl; [|rewrite X; eauto].
    rewrite removed_relabel by auto. reflexivity.
Qed.

Lemma shift_injective n : injective (fun i => n + i).
Proof. intros i j. lia. Qed.

Lemma relab_shift n e : relab_exn (fun i => n + i) e = shift_exn n e.
Proof. destruct e; reflexivity. Qed.

Lemma replacements_relab r x : replacements (relab_outcome r x) = replacements x.
Proof.
  unfold replacements. simpl. unfold relab_dict. rewrite flat_map_map.
  induction (replaced x) as [|kv l IH]; simpl; auto. rewrite !app_length, map_length. f_equal. exact IH.
Qed.
