(** * The order of the dictionary of duplicated ids does not matter. *)

From Coq Require Import String Ascii List Bool Arith Lia Permutation.
From Verif Require Import Str Xml XPath Utils Base Tables Cybox Stix Ramrod Spec SpecDoc SpecPass SpecStep
  SpecCheck SpecClean SpecUpdate SpecOptions SpecOrder Lib Frame Api Versions NoFail Refine RefineBase RefineTrans RefineLists RefineSteps
  RefineCheck RefineClean RefineUpdate Relabel Reports Kept.
Import ListNotations.
Local Open Scope string_scope.

(** ** Replacing ids, exactly *)

Lemma ids_apart s T X i : wf_state s -> In T (heap s) -> In X (heap s) -> In i (ids T) -> In i (ids X) -> X = T.
Proof.
  intros [N _] HT HX I J. revert N HT HX. induction (heap s) as [|Y l IH]; simpl; [tauto|].
  intro N. apply NoDup_app in N as (N1 & N2 & N3). intros [<-|HT] [<-|HX]; auto.
  - exfalso. apply (N3 i I). apply in_flat_map. eauto.
  - exfalso. apply (N3 i J). apply in_flat_map. eauto.
Qed.

Lemma new_ids_exactly f l : forall s, wf_state s -> NoDup l ->
  (forall i, In i l -> exists T a x old, In T (heap s) /\ In (a, x) (visits [] T) /\ tid x = i /\ id_of x = Some old) ->
  for_each l (apply_new_id f) s = (Ok tt, St (map (fresh_ids f (gen s) l) (heap s)) (next s) (gen s + List.length l)).
Proof.
  induction l as [|i l IH]; intros s W N H.
  - simpl. rewrite Nat.add_0_r, (map_ext_in _ (fun t => t)), map_id by (intros; apply fresh_ids_nil). destruct s; reflexivity.
  - inversion N as [|? ? N1 N2]; subst. destruct (H i (or_introl eq_refl)) as (T & a & x & old & HT & Hx & Ex & Ho). subst i.
    destruct (apply_new_id_steps f s T a x old W HT Hx Ho) as (s1 & E1 & S1 & G1).
    assert (E1' : s1 = St (map (tset (tid x) (hset_attr (lq "id") (f (gen s) old))) (heap s)) (next s) (S (gen s))).
    { revert E1. unfold apply_new_id. rewrite bind_run, (get_hdr_in s T a x) by auto. unfold id_of in Ho. rewrite Ho.
      unfold modify. cbn [heap next gen]. intro Q. injection Q as <-. reflexivity. }
    cbn [for_each]. rewrite bind_run, E1. rewrite IH; auto.
    + rewrite E1'. cbn [heap next gen]. rewrite map_map. f_equal. f_equal; [|simpl; lia].
      apply map_ext_in. intros X HX. symmetry. apply fresh_ids_cons; auto.
      intros b y Hy Ey. assert (X = T).
      { apply (ids_apart s T X (tid x)); auto; [|rewrite <- Ey]; eapply visits_tid_in; eauto. }
      subst X. destruct (visits_unique T [] b y a x (wf_NoDup s T W HT) Hy Hx Ey). subst; auto.
    + apply (st_wf _ _ _ _ S1).
    + intros j Hj. destruct (H j (or_intror Hj)) as (X & b & y & o2 & HX & Hy & Ey & Hoy).
      destruct (visits_tset (tid x) (hset_attr (lq "id") (f (gen s) old)) X [] b y Hy) as (b' & Hy').
      exists (tset (tid x) (hset_attr (lq "id") (f (gen s) old)) X), b', (tset (tid x) (hset_attr (lq "id") (f (gen s) old)) y), o2.
      split; [rewrite E1'; cbn [heap]; apply in_map; auto|]. split; auto.
      assert (Ne : tid y <> tid x) by (intro E; apply N1; rewrite <- E, Ey; auto).
      destruct y as [hy ky]. unfold id_of in *. cbn [tset head kids tid] in *.
      destruct (Nat.eqb_spec (h_id hy) (tid x)) as [E|E]; [elim Ne; exact E|]. split; auto.
Qed.

(** ** Rearranging the calls *)

(** The [k]-th call of a run over [l] has the number of the call for the same
    node in a run over [l']; both runs start at [g]. *)
Definition deal (g : nat) (l l' : list nat) (k : nat) : nat :=
  if Nat.ltb k g then k else
  match nth_error l (k - g) with
  | Some i => match position i l' with Some j => g + j | None => k end
  | None => k
  end.

Lemma position_nth i l k : position i l = Some k -> nth_error l k = Some i.
Proof.
  revert k. induction l as [|j l IH]; simpl; intros k H; [discriminate|].
  destruct (Nat.eqb_spec i j) as [->|]; [injection H as <-; reflexivity|].
  destruct (position i l) as [m|]; [|discriminate]. injection H as <-. simpl. auto.
Qed.

Lemma nth_position i l k : NoDup l -> nth_error l k = Some i -> position i l = Some k.
Proof.
  revert k. induction l as [|j l IH]; intros k N H; [destruct k; discriminate|]. inversion N as [|? ? N1 N2]; subst.
  destruct k as [|k]; simpl in *.
  - injection H as ->. rewrite Nat.eqb_refl. reflexivity.
  - destruct (Nat.eqb_spec i j) as [->|]; [elim N1; eapply nth_error_In; eauto|]. rewrite (IH k); auto.
Qed.

Lemma deal_back g l l' k : NoDup l -> NoDup l' -> Permutation l l' -> deal g l' l (deal g l l' k) = k.
Proof.
  intros N N' P. unfold deal at 2. destruct (Nat.ltb_spec k g).
  - unfold deal. destruct (Nat.ltb_spec k g); [auto|lia].
  - destruct (nth_error l (k - g)) as [i|] eqn:E.
    + pose proof (nth_position _ _ _ N E) as E'. 
      assert (Hi : In i l') by (eapply Permutation_in; [exact P|]; eapply nth_error_In; eauto).
      destruct (position_in i l' Hi) as (j & Hj & _). rewrite Hj. unfold deal. destruct (Nat.ltb_spec (g + j) g); [lia|].
      replace (g + j - g) with j by lia. rewrite (position_nth _ _ _ Hj), E'. lia.
    + unfold deal. destruct (Nat.ltb_spec k g); [lia|]. apply nth_error_None in E.
      rewrite (proj2 (nth_error_None l' (k - g))); auto. rewrite <- (Permutation_length P). auto.
Qed.

Lemma deal_outside g l l' k : k < g \/ g + List.length l <= k -> deal g l l' k = k.
Proof.
  intro H. unfold deal. destruct (Nat.ltb_spec k g); auto. rewrite (proj2 (nth_error_None l (k - g))) by lia. auto.
Qed.

Lemma deal_position g l l' i k j : position i l = Some k -> position i l' = Some j -> deal g l l' (g + k) = g + j.
Proof.
  intros H K. unfold deal. destruct (Nat.ltb_spec (g + k) g); [lia|]. replace (g + k - g) with k by lia.
  rewrite (position_nth _ _ _ H), K. reflexivity.
Qed.

Lemma position_bound i l k : position i l = Some k -> k < List.length l.
Proof. intro H. apply position_nth in H. apply nth_error_Some. congruence. Qed.

(** A run over [l'] with [f] is a run over [l] with the numbers dealt out. *)
Lemma fresh_ids_dealt f f2 g l l' t : Permutation l l' ->
  (forall k old, g <= k < g + List.length l -> f2 k old = f (deal g l l' k) old) ->
  fresh_ids f2 g l t = fresh_ids f g l' t.
Proof.
  intros P H. rewrite !fresh_ids_tmap. apply tmap_ext_hdr. intros a x _. unfold renumber.
  destruct (position (tid x) l) as [k|] eqn:E.
  - assert (Hi : In (tid x) l').
    { eapply Permutation_in; [exact P|]. eapply nth_error_In. apply position_nth. eauto. }
    destruct (position_in _ _ Hi) as (j & Hj & _). rewrite Hj. destruct (attr_get _ _); auto.
    rewrite H, (deal_position g l l' (tid x) k j); auto. pose proof (position_bound _ _ _ E). lia.
  - rewrite position_notin; auto. intro Hi. apply Permutation_sym in P. eapply Permutation_in in Hi; [|exact P].
    destruct (position_in _ _ Hi) as (j & Hj & _). congruence.
Qed.

(** ** Dictionaries *)

Lemma permuted_same d e : NoDup (map fst d) -> Permutation d e -> same_dict d e.
Proof.
  intros N P k. induction P as [|[a x] d e P IH|[a x] [b y] d|d e g P IH P' IH']; simpl in *; auto.
  - inversion N; subst. destruct (String.eqb k a); auto.
  - inversion N as [|? ? N1 _]; subst. destruct (String.eqb_spec k b) as [Eb|], (String.eqb_spec k a) as [Ea|]; auto.
    elim N1. left. congruence.
  - rewrite IH by auto. apply IH'. eapply Permutation_NoDup; [|exact N]. apply Permutation_map. auto.
Qed.

(** ** What is needed of an updater *)

Record orderless (up : updater) : Prop := {
  ol_check : forall r opts f, up_check up r (with_ids f opts) = up_check up r opts;
  ol_update : forall r opts f, up_update up r (with_ids f opts) = up_update up r opts;
  ol_clean : forall l opts f, up_clean_disallowed up l (with_ids f opts) = up_clean_disallowed up l opts;
  ol_peeks : forall r, peeks (up_get_disallowed up r);
  ol_keys : forall opts s T a d s', wf_state s -> In T (heap s) ->
    up_check up (tid T) opts s = (Err (UpdateError a (Some d)), s') -> NoDup (map fst d);
  ol_dup : (forall r s dis s0 d s', up_get_disallowed up r s = (Ok dis, s0) -> up_get_duplicates up r s0 = (Ok d, s') -> d = None) \/
    exists dup : tree -> dict (list nat),
      (forall s T, wf_state s -> In T (heap s) -> up_get_duplicates up (tid T) s = (Ok (Some (dup T)), s)) /\
      (forall d opts, up_clean_duplicates up d opts = clean_duplicates opts d) /\
      (forall T, NoDup (ids T) -> NoDup (flat_map snd (dup T))) /\
      (forall T, NoDup (map fst (dup T))) /\
      (forall T old l i, In (old, l) (dup T) -> In i l ->
         exists a x, In (a, x) (visits [] T) /\ tid x = i /\ id_of x = Some old)
}.

Lemma same_dict_refl d : same_dict d d.
Proof. intro; reflexivity. Qed.
Lemma same_coll_refl c : same_coll c c.
Proof. destruct c; simpl; auto. apply same_dict_refl. Qed.
Lemma same_error_refl x : same_error x x.
Proof. destruct x as [a [d|]| | | | | | | | | | | ]; simpl; auto using same_dict_refl. Qed.
Lemma same_end_refl q : same_end q q.
Proof. split; auto. destruct (fst q) as [r|x]; [|apply same_error_refl]. auto using same_coll_refl. Qed.

Lemma same_dict_empty d e : same_dict d e -> d = [] -> e = [].
Proof.
  intros H ->. destruct e as [|[k v] e]; auto. specialize (H k). simpl in H. rewrite String.eqb_refl in H. discriminate.
Qed.

Lemma clean_duplicates_exactly opts d s T : wf_state s -> In T (heap s) -> NoDup (flat_map snd d) ->
  (forall old l i, In (old, l) d -> In i l -> exists a x, In (a, x) (visits [] T) /\ tid x = i /\ id_of x = Some old) ->
  clean_duplicates opts d s
  = (Ok d, St (map (fresh_ids (new_id_func opts) (gen s) (flat_map snd d)) (heap s)) (next s)
              (gen s + List.length (flat_map snd d))).
Proof.
  intros W HT N H. unfold clean_duplicates. rewrite bind_run, (for_each_flat snd), new_ids_exactly; auto.
  intros i Hi. apply in_flat_map in Hi as ([old l] & Hd & Hi). destruct (H old l i Hd Hi) as (a & x & A & B & C). eauto 8.
Qed.

Lemma flat_permuted (d e : dict (list nat)) : Permutation d e -> Permutation (flat_map snd d) (flat_map snd e).
Proof. intro P. apply Permutation_flat_map. auto. Qed.

(** What is found when the calls of a program are dealt out by [m] from [lo]
    up to [hi]. *)
Definition moves_within (lo hi : nat) (m : nat -> nat) : Prop :=
  lo <= hi /\ rearranges m /\ (forall k, k < lo \/ hi <= k -> m k = k).

Lemma moves_nothing lo hi : lo <= hi -> moves_within lo hi (fun k => k).
Proof. intro L. split; auto. split; auto. exists (fun k => k). auto. Qed.

Lemma deal_moves g l l' : NoDup l -> Permutation l l' -> moves_within g (g + List.length l) (deal g l l').
Proof.
  intros N P. assert (N' : NoDup l') by (eapply Permutation_NoDup; eauto). split; [lia|]. split.
  - exists (deal g l' l). split; intro k; apply deal_back; auto. apply Permutation_sym; auto.
  - intros k H. apply deal_outside. auto.
Qed.

Lemma clean_order up opts p s T : orderless up -> reordering p -> wf_state s -> In T (heap s) ->
  exists hi m, moves_within (gen s) hi m /\
    (forall op D r s', cleans up op D -> clean_root up (tid T) op s = (Ok r, s') -> gen s' = hi) /\
    forall f2, (forall k old, gen s <= k < hi -> f2 k old = new_id_func opts (m k) old) ->
      let q := clean_root (in_order p up) (tid T) opts s in
      let q' := clean_root up (tid T) (with_ids f2 opts) s in
      snd q = snd q' /\
      match fst q, fst q' with
      | Ok r, Ok r' => r_document r = r_document r' /\ r_removed r = r_removed r' /\
          exists d e, r_remapped r = CDict d /\ r_remapped r' = CDict e /\ Permutation d e /\ NoDup (map fst d)
      | Err x, Err y => x = y
      | _, _ => False
      end.
Proof.
  intros O Hp W HT. pose proof (ol_peeks _ O (tid T) s) as Pk. unfold clean_root.
  destruct (ol_dup _ O) as [Nd|(dup & Rd & Cd & Nd & Kd & Ed)].
  - exists (gen s), (fun k => k). split; [apply moves_nothing; auto|]. split.
    + intros op D r s' HC E. specialize (HC s T W HT). destruct (D T) as [dt|e].
      * destruct HC as (copies & s2 & E2 & _ & G2 & _). assert (Q : snd dt = []).
        { revert E2. unfold clean_root. rewrite bind_run. destruct (up_get_disallowed up (tid T) s) as [[dis|e] s0] eqn:Ei; [|discriminate].
          rewrite bind_run. destruct (up_get_duplicates up (tid T) s0) as [[d|e] s1] eqn:Ed; [|discriminate]. pose proof (Nd _ _ _ _ _ _ Ei Ed). subst d.
          rewrite bind_run. cbn [ret]. rewrite bind_run.
          destruct ((match dis with Some (x :: l) => up_clean_disallowed up (x :: l) op | _ => ret [] end) s1) as [[l|e] s3]; [|discriminate].
          intro Q. injection Q as _ Q _. auto. }
        unfold clean_root in E2. rewrite E in E2. injection E2 as _ <-. rewrite G2. unfold renumbered. rewrite Q. simpl. lia.
      * unfold clean_root in HC. rewrite HC in E. discriminate.
    + intros f2 _. cbv zeta. rewrite !bind_run. cbn [in_order up_get_disallowed up_get_duplicates up_clean_duplicates up_clean_disallowed].
      destruct (up_get_disallowed up (tid T) s) as [[dis|e] s0] eqn:Ei; [|simpl; auto].
      rewrite !bind_run. destruct (up_get_duplicates up (tid T) s0) as [[d|e] s1] eqn:Ed; [|simpl; auto]. pose proof (Nd _ _ _ _ _ _ Ei Ed). subst d.
      cbn [ret option_map]. rewrite !bind_run. cbn [ret]. rewrite !bind_run.
      assert (Q : (match dis with Some (x :: l) => up_clean_disallowed up (x :: l) (with_ids f2 opts) | _ => ret [] end)
                = (match dis with Some (x :: l) => up_clean_disallowed up (x :: l) opts | _ => ret [] end)).
      { destruct dis as [[|x l]|]; auto. apply (ol_clean _ O). }
      rewrite Q. destruct ((match dis with Some (x :: l) => up_clean_disallowed up (x :: l) opts | _ => ret [] end) s1) as [[l|e] s2]; simpl; auto.
      split; auto. split; auto. split; auto. exists [], []. repeat split; auto. constructor.
  - pose proof (wf_NoDup s T W HT) as NT. pose proof (Nd T NT) as N.
    pose proof (flat_permuted _ _ (Permutation_sym (Hp (dup T)))) as P.
    exists (gen s + List.length (flat_map snd (dup T))), (deal (gen s) (flat_map snd (dup T)) (flat_map snd (p (dup T)))).
    split; [apply deal_moves; auto|]. split.
    + intros op D r s' HC E. specialize (HC s T W HT). destruct (D T) as [dt|e].
      * destruct HC as (copies & s2 & E2 & _ & G2 & _). assert (Q : snd dt = dup T).
        { revert E2. unfold clean_root. rewrite bind_run. destruct (up_get_disallowed up (tid T) s) as [[dis|e] s0]; [|discriminate].
          simpl in Pk. subst s0. rewrite bind_run, (Rd s T W HT), bind_run.
          assert (Q : (match Some (dup T) with Some (x :: l) => up_clean_duplicates up (x :: l) op | _ => ret [] end) s = clean_duplicates op (dup T) s).
          { destruct (dup T); [reflexivity|]. rewrite Cd. reflexivity. }
          rewrite Q, (clean_duplicates_exactly op (dup T) s T W HT N (Ed T)), bind_run.
          match goal with |- context [?m ?s1] => match m with (match dis with _ => _ end) => destruct (m s1) as [[l|e] s3] end end; [|discriminate].
          intro R. injection R as _ R _. auto. }
        unfold clean_root in E2. rewrite E in E2. injection E2 as _ <-. rewrite G2. unfold renumbered. rewrite Q. auto.
      * unfold clean_root in HC. rewrite HC in E. discriminate.
    + intros f2 Hf. cbv zeta. rewrite !bind_run. cbn [in_order up_get_disallowed up_get_duplicates up_clean_duplicates up_clean_disallowed].
      destruct (up_get_disallowed up (tid T) s) as [[dis|e] s0]; [|simpl; auto]. simpl in Pk. subst s0.
      rewrite !bind_run, !(Rd s T W HT). cbn [ret option_map]. rewrite !bind_run.
      assert (Q : forall d op, (match Some d with Some (x :: l) => up_clean_duplicates up (x :: l) op | _ => ret [] end) s = clean_duplicates op d s).
      { intros d op. destruct d; [reflexivity|]. rewrite Cd. reflexivity. }
      rewrite !Q, (clean_duplicates_exactly (with_ids f2 opts) (dup T) s T W HT N (Ed T)), (clean_duplicates_exactly opts (p (dup T)) s T W HT).
      2: { eapply Permutation_NoDup; eauto. }
      2: { intros old l i Hd. apply Ed. eapply Permutation_in; [apply Hp|exact Hd]. }
      cbn [new_id_func with_ids]. rewrite !bind_run.
      assert (R : (match dis with Some (x :: l) => up_clean_disallowed up (x :: l) (with_ids f2 opts) | _ => ret [] end)
                = (match dis with Some (x :: l) => up_clean_disallowed up (x :: l) opts | _ => ret [] end)).
      { destruct dis as [[|x l]|]; auto. apply (ol_clean _ O). }
      rewrite R. rewrite <- (Permutation_length P).
      rewrite (map_ext (fresh_ids f2 (gen s) (flat_map snd (dup T))) (fresh_ids (new_id_func opts) (gen s) (flat_map snd (p (dup T))))).
      2: { intro t. apply fresh_ids_dealt; auto. }
      match goal with |- context [?m ?s1] => match m with (match dis with _ => _ end) => destruct (m s1) as [[l|e] s3] end end; simpl; auto.
      split; auto. split; auto. split; auto. exists (p (dup T)), (dup T). split; auto. split; auto. split; [apply Hp|].
      eapply Permutation_NoDup; [|apply Kd]. apply Permutation_map, Permutation_sym, Hp.
Qed.

(** ** The shipped updaters *)

Lemma in_turn_fails l t e : in_turn l t = Err e -> exists f, In f l /\ f t = Err e.
Proof.
  induction l as [|f l IH]; [discriminate|]. rewrite in_turn_cons. destruct (f t) as [u|x] eqn:E; cbn [rbind].
  - intro H. destruct (IH H) as (g & Hg & Eg). exists g. split; [right|]; auto.
  - intro H. injection H as <-. exists f. split; [left|]; auto.
Qed.

Lemma first_err_found {B} (F : ctx -> res B) l e : first_err F l = Some e -> exists c, In c l /\ F c = Err e.
Proof.
  induction l as [|c l IH]; simpl; [discriminate|]. destruct (F c) as [u|x] eqn:E.
  - intro H. destruct (IH H) as (g & Hg & Eg). eauto.
  - intro H. injection H as <-. eauto.
Qed.

(** Not an [UpdateError] with a dictionary. *)
Definition bare (x : exn) : Prop := forall a d, x <> UpdateError a (Some d).

Lemma bare_version expected found i x : version_is expected found i = Err x -> bare x.
Proof.
  unfold version_is, is_version_equal. intros H a d.
  destruct (strict_version expected); [destruct (strict_version found)|]; simpl in H; try (injection H as <-; discriminate).
  destruct (sver_compare _ _); simpl in H; try discriminate; injection H as <-; discriminate.
Qed.

Lemma bare_stix expected t x : stix_version_check expected t = Err x -> bare x.
Proof.
  unfold stix_version_check. destruct (selected _ t) as [|c l]; [discriminate|].
  destruct (given _); [apply bare_version|]. intro H. injection H as <-. intros a d; discriminate.
Qed.

Lemma bare_cybox expected k t x : cybox_version_check expected k t = Err x -> bare x.
Proof.
  unfold cybox_version_check. destruct (first_err _ _) as [e|] eqn:E; [|discriminate]. intro H. injection H as <-.
  apply first_err_found in E as (c & _ & E). revert E. unfold cybox_version_of.
  destruct (cybox_declared _); [apply bare_version|]. intro H. injection H as <-. intros a d; discriminate.
Qed.

Lemma bare_type c x : type_of c = Err x -> bare x.
Proof.
  unfold type_of. intros H a d.
  repeat match type of H with context [match ?x with _ => _ end] => destruct x end; try discriminate; injection H as <-; discriminate.
Qed.

Lemma bare_offenders r t x : offenders r t = Err x -> bare x.
Proof.
  destruct r; simpl; try discriminate. destruct (first_err _ _) as [e|] eqn:E; [|discriminate].
  intro H. injection H as <-. apply first_err_found in E as (c & _ & E). eapply bare_type; eauto.
Qed.

Lemma bare_untranslatable rules t x : untranslatable rules t = Err x -> bare x.
Proof.
  induction rules as [|r rules IH]; simpl; [discriminate|].
  destruct (offenders r t) as [l|e] eqn:E; simpl; [|intro H; injection H as <-; eapply bare_offenders; eauto].
  destruct (untranslatable rules t) as [l'|e]; simpl; [discriminate|]. auto.
Qed.

Lemma keys_nothing rules dups t a d : nothing_to_clean rules dups t = Err (UpdateError a (Some d)) -> d = dups t.
Proof.
  unfold nothing_to_clean. destruct (untranslatable rules t) as [l|e] eqn:E; simpl.
  - destruct l, (dups t) eqn:Q; intro H; try discriminate; injection H as <- <-; auto.
  - intro H. injection H as ->. elim (bare_untranslatable _ _ _ E a d). reflexivity.
Qed.

Lemma bare_nothing rules t x : nothing_untranslatable rules t = Err x -> bare x.
Proof.
  unfold nothing_untranslatable. destruct (untranslatable rules t) as [l|e] eqn:E; simpl.
  - destruct l; intro H; try discriminate. injection H as <-. intros a d; discriminate.
  - intro H. injection H as <-. eapply bare_untranslatable; eauto.
Qed.

Lemma if_asked_fails b f t x : if_asked b f t = Err x -> f t = Err x.
Proof. destruct b; [auto|discriminate]. Qed.

Lemma stix_keys o opts v c t a d : stix_check o opts v = Some c -> c t = Err (UpdateError a (Some d)) -> NoDup (map fst d).
Proof.
  unfold stix_check, dict_get.
  repeat match goal with |- context [String.eqb v ?x] => destruct (String.eqb v x) end;
    intro H; try discriminate; injection H as <-; intro H.
  - apply in_turn_fails in H as (f & [<-|[<-|[<-|[]]]] & H); try apply if_asked_fails in H.
    + elim (bare_stix _ _ _ H a d); auto.
    + elim (bare_cybox _ _ _ _ H a d); auto.
    + elim (bare_nothing _ _ _ H a d); auto.
  - apply in_turn_fails in H as (f & [<-|[<-|[<-|[]]]] & H); try apply if_asked_fails in H.
    + elim (bare_stix _ _ _ H a d); auto.
    + elim (bare_cybox _ _ _ _ H a d); auto.
    + apply keys_nothing in H. subst d. apply duplicates_keys.
  - apply if_asked_fails in H. elim (bare_stix _ _ _ H a d); auto.
  - apply if_asked_fails in H. elim (bare_stix _ _ _ H a d); auto.
  - apply if_asked_fails in H. elim (bare_stix _ _ _ H a d); auto.
Qed.

Lemma cybox_keys opts v c t a d : cybox_check opts v = Some c -> c t = Err (UpdateError a (Some d)) -> NoDup (map fst d).
Proof.
  unfold cybox_check, dict_get.
  repeat match goal with |- context [String.eqb v ?x] => destruct (String.eqb v x) end;
    intro H; try discriminate; injection H as <-; intro H.
  - apply if_asked_fails in H. elim (bare_cybox _ _ _ _ H a d); auto.
  - apply in_turn_fails in H as (f & [<-|[<-|[]]] & H); try apply if_asked_fails in H.
    + elim (bare_cybox _ _ _ _ H a d); auto.
    + apply keys_nothing in H. subst d. apply duplicates_keys.
Qed.

Lemma stix_orderless o v up : dict_get v (STIX_UPDATERS o) = Some up -> orderless up.
Proof.
  intro H. assert (K : forall opts s T a d s', wf_state s -> In T (heap s) ->
    up_check up (tid T) opts s = (Err (UpdateError a (Some d)), s') -> NoDup (map fst d)).
  { intros opts s T a d s' W HT E. destruct (stix_described o opts v up H) as (c & D & f & Ec & _ & _ & (HC & _)).
    rewrite (HC s T W HT) in E. injection E as E _. eapply stix_keys; eauto. }
  revert K H. unfold STIX_UPDATERS, dict_get.
  repeat match goal with |- context [String.eqb v ?x] => destruct (String.eqb v x) end;
    intros K H; try discriminate; injection H as <-; constructor; auto; try (intros; reflexivity).
  all: try (left; intros r s dis s0 d s' _ E; injection E; auto; fail).
  all: try (intros r s; reflexivity).
  - intro r. cbn [up_get_disallowed STIX_1_0_Updater]. unfold stix_1_0_get_disallowed.
    repeat first [apply peeks_find_disallowed | apply peeks_ret | apply peeks_bind; intros].
  - intro r. cbn [up_get_disallowed STIX_1_0_1_Updater]. unfold stix_1_0_1_get_disallowed, cybox_2_0_1_get_disallowed.
    repeat first [apply peeks_find_disallowed | apply peeks_ret | apply peeks_bind; intros].
  - right. exists stix_duplicates. split; [|split; [|split; [|split]]]; auto.
    + intros s T W HT. cbn [STIX_1_0_1_Updater up_get_duplicates].
      rewrite bind_run, (stix_1_0_1_get_duplicates_reads s T W HT). reflexivity.
    + intros T N. apply with_bearers_NoDup; auto. apply shared_keys_NoDup.
    + intro T. apply duplicates_keys.
    + intros T old l i. apply with_bearers_entry.
  - left. intros r s dis s0 d s' E. discriminate E.
Qed.

Lemma cybox_orderless o v up : dict_get v (CYBOX_UPDATERS o) = Some up -> orderless up.
Proof.
  intro H. assert (K : forall opts s T a d s', wf_state s -> In T (heap s) ->
    up_check up (tid T) opts s = (Err (UpdateError a (Some d)), s') -> NoDup (map fst d)).
  { intros opts s T a d s' W HT E. destruct (cybox_described o opts v up H) as (c & D & f & Ec & _ & _ & (HC & _)).
    rewrite (HC s T W HT) in E. injection E as E _. eapply cybox_keys; eauto. }
  revert K H. unfold CYBOX_UPDATERS, dict_get.
  repeat match goal with |- context [String.eqb v ?x] => destruct (String.eqb v x) end;
    intros K H; try discriminate; injection H as <-; constructor; auto; try (intros; reflexivity).
  all: try (left; intros r s dis s0 d s' _ E; injection E; auto; fail).
  all: try (intros r s; reflexivity).
  - intro r. cbn [up_get_disallowed Cybox_2_0_1_Updater]. unfold cybox_2_0_1_get_disallowed.
    repeat first [apply peeks_find_disallowed | apply peeks_ret | apply peeks_bind; intros].
  - right. exists cybox_duplicates. split; [|split; [|split; [|split]]]; auto.
    + intros s T W HT. cbn [Cybox_2_0_1_Updater up_get_duplicates].
      rewrite bind_run, (cybox_2_0_1_get_duplicates_reads s T W HT). reflexivity.
    + intros T N. apply with_bearers_NoDup; auto. apply shared_NoDup.
    + intro T. apply duplicates_keys.
    + intros T old l i. apply with_bearers_entry.
Qed.

(** ** One step *)

Lemma reordered_failure p x : is_update_failure (reordered_error p x) = is_update_failure x.
Proof. destruct x as [a [d|]| | | | | | | | | | | ]; reflexivity. Qed.

Lemma same_create i r r' : r_document r = r_document r' -> r_removed r = r_removed r' ->
  (exists d e, r_remapped r = CDict d /\ r_remapped r' = CDict e /\ Permutation d e /\ NoDup (map fst d)) ->
  let a := create_update_results i (Some (r_remapped r)) (Some (r_removed r)) in
  let b := create_update_results i (Some (r_remapped r')) (Some (r_removed r')) in
  r_document a = r_document b /\ r_removed a = r_removed b /\ same_coll (r_remapped a) (r_remapped b) /\
  Permutation (coll_dict (r_remapped a)) (coll_dict (r_remapped b)) /\ NoDup (map fst (coll_dict (r_remapped a))).
Proof.
  intros _ -> (d & e & -> & -> & P & N). pose proof (permuted_same _ _ N P) as H. cbn. split; auto. split; auto.
  destruct d as [|x d], e as [|y e]; cbn; auto.
  - apply Permutation_nil in P. discriminate.
  - apply Permutation_sym, Permutation_nil in P. discriminate.
Qed.

(** The two ends of one step. *)
Definition step_ends (q q' : res results * st) : Prop :=
  same_end q q' /\
  match fst q, fst q' with
  | Ok r, Ok r' => Permutation (coll_dict (r_remapped r)) (coll_dict (r_remapped r')) /\ NoDup (map fst (coll_dict (r_remapped r)))
  | _, _ => True
  end.

Lemma step_ends_refl q : (forall r, fst q = Ok r -> coll_dict (r_remapped r) = []) -> step_ends q q.
Proof. intro H. split; [apply same_end_refl|]. destruct (fst q); auto. rewrite (H _ eq_refl). split; auto. constructor. Qed.

Lemma step_ends_none i s : step_ends (Ok (create_update_results i None None), s) (Ok (create_update_results i None None), s).
Proof. apply step_ends_refl. intros r H. injection H as <-. reflexivity. Qed.

Lemma step_ends_err x s : step_ends (Err x, s) (Err x, s).
Proof. apply step_ends_refl. discriminate. Qed.

Lemma step_order o up p d opts force s t : orderless up ->
  (forall op, exists c D f, describes up op c D f) -> reordering p -> wf_state s -> denotes s d t ->
  exists hi m, moves_within (gen s) hi m /\
    (forall r s', updater_update o (in_order p up) d opts force s = (Ok r, s') -> gen s' = hi) /\
    forall f2, (forall k old, gen s <= k < hi -> f2 k old = new_id_func (or_default o opts) (m k) old) ->
      step_ends (updater_update o (in_order p up) d opts force s)
                (updater_update o up d (Some (with_ids f2 (or_default o opts))) force s).
Proof.
  intros O Des Hp W Dn. unfold updater_update. destruct (copied s d t W Dn) as (n1 & E1 & W1).
  set (T := numbered (next s) t) in *. set (s1 := St _ n1 _) in *. set (op := or_default o opts).
  assert (HT : In T (heap s1)) by (simpl; apply in_app_iff; right; left; auto).
  destruct (Des op) as (c & D & f & HC & HD & HF & HN). cbn [or_default].
  assert (G1 : gen s1 = gen s) by reflexivity.
  destruct (c T) as [u|x] eqn:Ec.
  - exists (gen s), (fun k => k). split; [apply moves_nothing; auto|]. split.
    + intros r s'. rewrite bind_run, E1. cbv zeta. unfold try_catch. rewrite bind_run. cbn [in_order up_check up_update].
      rewrite (HC s1 T W1 HT), Ec, bind_run. specialize (HF s1 T W1 HT). destruct (f (erase T)) as [e|y].
      * destruct HF as (T' & s2 & E2 & _ & G2 & _). rewrite E2. intro Q. injection Q as _ <-. lia.
      * destruct HF as (s2 & E2). rewrite E2, (other_not_failure y) by (eapply HN; eauto). simpl. discriminate.
    + intros f2 _. rewrite !bind_run, E1. cbv zeta. unfold try_catch. rewrite !bind_run. cbn [in_order up_check up_update].
      rewrite (ol_check _ O), (HC s1 T W1 HT), Ec, !bind_run, (ol_update _ O).
      pose proof (HN (tid T) s1) as N. destruct (up_update up (tid T) op s1) as [[j|y] s2]; [apply step_ends_none|].
      rewrite (other_not_failure y) by (eapply N; reflexivity). apply step_ends_err.
  - destruct (is_update_failure x && force) eqn:Fx.
    + destruct (clean_order up op p s1 T O Hp W1 HT) as (hi & m & Mv & Gh & Same). rewrite G1 in *.
      exists hi, m. split; auto. 
      assert (Run : forall f2, (forall k old, gen s <= k < hi -> f2 k old = new_id_func op (m k) old) ->
        step_ends (updater_update o (in_order p up) d opts force s) (updater_update o up d (Some (with_ids f2 op)) force s) /\
        (forall r s', updater_update o (in_order p up) d opts force s = (Ok r, s') -> gen s' = hi)).
      { intros f2 Hf. specialize (Same f2 Hf). cbv zeta in Same. unfold updater_update. rewrite !bind_run, E1. cbv zeta. unfold try_catch.
        rewrite !bind_run. cbn [in_order up_check up_update]. cbn [or_default]. fold op. rewrite (ol_check _ O), (HC s1 T W1 HT), Ec.
        rewrite reordered_failure, Fx. unfold force_update. rewrite !bind_run.
        fold (in_order p up).
        destruct (Des (with_ids f2 op)) as (c2 & D2 & g2 & _ & HD2 & HF2 & _).
        pose proof (HD2 s1 T W1 HT) as Cl. 
        destruct (clean_root up (tid T) (with_ids f2 op) s1) as [[r'|y'] s2'] eqn:E2'.
        2: { destruct (clean_root (in_order p up) (tid T) op s1) as [[r|y] s2]; simpl in Same; [tauto|]. destruct Same as [<- <-].
             split; [apply step_ends_err|]. discriminate. }
        destruct (clean_root (in_order p up) (tid T) op s1) as [[r|y] s2]; simpl in Same; [|tauto].
        destruct Same as (<- & Sd & Sr & Sm). rewrite !bind_run, Sd.
        destruct (D2 T) as [dt|y]; [|discriminate]. destruct Cl as (copies & s3 & E3 & S3 & G3 & _).
        injection E3 as -> <-. cbn [r_document].
        set (T2 := cleaned _ _ _ _) in *. pose proof (st_wf _ _ _ _ S3) as W2. pose proof (st_in _ _ _ _ S3) as HT2.
        assert (I2 : tid T2 = tid T).
        { unfold T2, cleaned. rewrite without_rwm, rwm_tid, fresh_ids_tmap. apply tmap_tid, renumber_keeps. }
        change (up_update (in_order p up)) with (up_update up). rewrite <- I2, (as_element_root s2 T2), !bind_run, (ol_update _ O) by auto.
        specialize (HF s2 T2 W2 HT2). destruct (f (erase T2)) as [e|y].
        - destruct HF as (T3 & s4 & E4 & _ & G4 & _). rewrite E4. split.
          + cbn [r_removed r_remapped r_document] in Sr, Sm.
            destruct (same_create (tid T3) r (Results (tid T) (CTuple (map tid copies)) (CDict (snd dt))) Sd Sr Sm) as (A & B & C & E).
            split; [|exact E]. split; [reflexivity|]. split; [exact A|]. split; [exact B|exact C].
          + intros r0 s0 Q. injection Q as _ <-. rewrite G4. exact (Gh _ _ _ _ HD2 E2').
        - destruct HF as (s4 & E4). rewrite E4. split; [apply step_ends_err|]. discriminate. }
      split; [|intros f2 Hf; apply (Run f2 Hf)]. apply (Run (fun k => new_id_func op (m k))). auto.
    + exists (gen s), (fun k => k). split; [apply moves_nothing; auto|]. split.
      * intros r s'. rewrite bind_run, E1. cbv zeta. unfold try_catch. rewrite bind_run. cbn [in_order up_check up_update].
        rewrite (HC s1 T W1 HT), Ec, reordered_failure, Fx. discriminate.
      * intros f2 _. rewrite !bind_run, E1. cbv zeta. unfold try_catch. rewrite !bind_run. cbn [in_order up_check up_update].
        pose proof (ol_keys _ O op s1 T) as Kx.
        rewrite (ol_check _ O), (HC s1 T W1 HT), Ec, reordered_failure, Fx.
        rewrite (HC s1 T W1 HT), Ec in Kx.
        split; [|exact I]. split; auto. cbn [fst]. destruct x as [a [dd|]| | | | | | | | | | | ]; try apply same_error_refl.
        cbn. split; auto. apply permuted_same; [|apply Hp].
        eapply Permutation_NoDup; [apply Permutation_map, Permutation_sym, Hp|]. eapply Kx; eauto.
Qed.

(** ** Several steps *)

Lemma dict_get_none {A} k (d : dict A) : ~ In k (map fst d) -> dict_get k d = None.
Proof.
  induction d as [|[a v] d IH]; simpl; auto. intro H. destruct (String.eqb_spec k a) as [->|]; [elim H; auto|]. auto.
Qed.

Lemma dict_get_update {A} k (e : dict A) : NoDup (map fst e) -> forall d,
  dict_get k (dict_update d e) = match dict_get k e with Some v => Some v | None => dict_get k d end.
Proof.
  induction e as [|[a v] e IH]; intros N d; [reflexivity|]. inversion N as [|? ? N1 N2]; subst. simpl.
  rewrite IH by auto. destruct (String.eqb_spec k a) as [->|Ne].
  - rewrite dict_get_none, dict_get_set_same by auto. reflexivity.
  - destruct (dict_get k e); auto. apply dict_get_set_other. auto.
Qed.

Lemma same_dict_update a a' b b' : same_dict a a' -> Permutation b b' -> NoDup (map fst b) ->
  same_dict (dict_update a b) (dict_update a' b').
Proof.
  intros H P N k. pose proof (permuted_same _ _ N P k) as Q.
  rewrite !dict_get_update; auto. { rewrite Q, H. reflexivity. }
  eapply Permutation_NoDup; [|exact N]. apply Permutation_map. auto.
Qed.

Lemma get_in_order p table v : dict_get v (table_in_order p table) = option_map (in_order (p v)) (dict_get v table).
Proof.
  induction table as [|[a up] table IH]; simpl; auto. destruct (String.eqb_spec v a) as [->|]; auto.
Qed.

Lemma moves_below lo hi m k : moves_within lo hi m -> k < hi -> m k < hi.
Proof.
  intros (_ & (back & B1 & B2) & Out) L. destruct (Nat.ltb_spec (m k) hi) as [|G]; auto.
  pose proof (Out (m k) (or_intror G)) as E. assert (m k = k); [|lia].
  rewrite <- (B1 (m k)), E, B1. reflexivity.
Qed.

Lemma moves_above lo hi m k : moves_within lo hi m -> lo <= k -> lo <= m k.
Proof.
  intros (_ & (back & B1 & B2) & Out) L. destruct (Nat.leb_spec lo (m k)) as [|G]; auto.
  pose proof (Out (m k) (or_introl G)) as E. assert (m k = k); [|lia].
  rewrite <- (B1 (m k)), E, B1. reflexivity.
Qed.

Lemma moves_back lo hi m back : moves_within lo hi m -> (forall k, back (m k) = k) -> (forall k, m (back k) = k) ->
  moves_within lo hi back.
Proof.
  intros (L & _ & Out) B1 B2. split; auto. split; [exists m; auto|].
  intros k H. rewrite <- (Out k H) at 1. apply B1.
Qed.

Lemma moves_join lo mid hi m1 m2 : moves_within lo mid m1 -> moves_within mid hi m2 ->
  moves_within lo hi (fun k => if Nat.ltb k mid then m1 k else m2 k).
Proof.
  intros M1 M2. pose proof M1 as (L1 & (b1 & B1 & C1) & O1). pose proof M2 as (L2 & (b2 & B2 & C2) & O2).
  pose proof (moves_back _ _ _ _ M1 B1 C1) as N1. pose proof (moves_back _ _ _ _ M2 B2 C2) as N2.
  split; [lia|]. split.
  - exists (fun k => if Nat.ltb k mid then b1 k else b2 k). split; intro k.
    + destruct (Nat.ltb_spec k mid) as [H|H].
      * pose proof (moves_below _ _ _ _ M1 H). destruct (Nat.ltb_spec (m1 k) mid); [auto|lia].
      * pose proof (moves_above _ _ _ _ M2 H). destruct (Nat.ltb_spec (m2 k) mid); [lia|auto].
    + destruct (Nat.ltb_spec k mid) as [H|H].
      * pose proof (moves_below _ _ _ _ N1 H). destruct (Nat.ltb_spec (b1 k) mid); [auto|lia].
      * pose proof (moves_above _ _ _ _ N2 H). destruct (Nat.ltb_spec (b2 k) mid); [lia|auto].
  - intros k H. destruct (Nat.ltb_spec k mid); [apply O1; lia|apply O2; lia].
Qed.

Lemma steps_order o table p opts force
  (Hol : forall v up, dict_get v table = Some up -> orderless up)
  (Hdes : forall v up op, dict_get v table = Some up -> exists c D f, describes up op c D f) :
  (forall v, reordering (p v)) -> forall vs root removed s anc t,
  wf_state s -> node_at s root anc t ->
  exists hi m, moves_within (gen s) hi m /\
    forall f2 rm rm', (forall k old, gen s <= k < hi -> f2 k old = new_id_func (or_default o opts) (m k) old) ->
      same_dict rm rm' ->
      let q := run_steps o (table_in_order p table) vs root opts force removed rm s in
      let q' := run_steps o table vs root (Some (with_ids f2 (or_default o opts))) force removed rm' s in
      snd q = snd q' /\
      match fst q, fst q' with
      | Ok (a, b, c), Ok (a', b', c') => a = a' /\ b = b' /\ same_dict c c'
      | Err x, Err y => same_error x y
      | _, _ => False
      end.
Proof.
  intro Hp. set (op := or_default o opts). induction vs as [|v vs IH]; intros root removed s anc t W At.
  - exists (gen s), (fun k => k). split; [apply moves_nothing; auto|]. intros f2 rm rm' _ Rm. simpl. auto.
  - cbn [run_steps]. rewrite get_in_order. destruct (dict_get v table) as [up|] eqn:Eup; cbn [option_map].
    2: { exists (gen s), (fun k => k). split; [apply moves_nothing; auto|]. intros f2 rm rm' _ Rm. simpl. auto. }
    assert (Dn : denotes s (DElem root) t) by (exists anc; exact At).
    destruct (step_order o up (p v) (DElem root) opts force s t (Hol v up Eup) (fun x => Hdes v up x Eup) (Hp v) W Dn)
      as (hi1 & m1 & M1 & G1 & S1). fold op in S1.
    destruct (updater_update o (in_order (p v) up) (DElem root) opts force s) as [[r|x] s1] eqn:E1.
    2: { exists hi1, m1. split; auto. intros f2 rm rm' Hf _. specialize (S1 f2 Hf). rewrite !bind_run, E1. cbv zeta.
         destruct (updater_update o up (DElem root) (Some (with_ids f2 op)) force s) as [[r'|x'] s1']; destruct S1 as [[Sa Sb] _]; simpl in *; [tauto|].
         auto. }
    specialize (G1 r s1 eq_refl). subst hi1.
    assert (W1 : wf_state s1).
    { pose proof (S1 _ (fun k old _ => eq_refl)) as Q.
      destruct (Hdes v up (with_ids (fun k => new_id_func op (m1 k)) op) Eup) as (c & D & f & Des).
      pose proof (update_performs o up (Some (with_ids (fun k => new_id_func op (m1 k)) op)) c D f (DElem root) force s t Des W Dn) as P.
      change (fun (k : nat) (old : string) => new_id_func op (m1 k) old) with (fun k : nat => new_id_func op (m1 k)) in Q.
      unfold performs in P. destruct (single _ _ _ _ _ _ _).
      - destruct P as (r0 & s0 & E0 & W0 & _). rewrite E0 in Q. destruct Q as [[Q _] _]. simpl in Q. subst s0. auto.
      - destruct P as (s0 & E0). rewrite E0 in Q. destruct Q as [[_ []] _]. }
    destruct (as_element (r_document r) s1) as [[root'|x] s2] eqn:Ea.
    2: { exists (gen s1), m1. split; auto. intros f2 rm rm' Hf _. specialize (S1 f2 Hf). rewrite !bind_run, E1. cbv zeta.
         destruct (updater_update o up (DElem root) (Some (with_ids f2 op)) force s) as [[r'|x'] s1']; destruct S1 as [[Sa Sb] _]; simpl in Sa, Sb; [|tauto].
         subst s1'. destruct Sb as (Sd & _). rewrite !bind_run, <- Sd, Ea. simpl. split; auto. apply same_error_refl. }
    assert (At2 : s2 = s1 /\ exists a2 t2, node_at s1 root' a2 t2).
    { revert Ea. unfold as_element. rewrite bind_run. unfold deref.
      destruct (hfind (r_document r) (heap s1)) as [[b y]|] eqn:Hf; [|discriminate]. cbn [ret].
      apply hfind_some in Hf as (X & HX & Hy & Ey). intro Q. injection Q as <- <-. split; auto. exact (root_node X b y s1 HX Hy). }
    destruct At2 as (-> & a2 & t2 & At2).
    destruct (IH root' (removed ++ coll_items (r_removed r))%list s1 a2 t2 W1 At2) as (hi & m2 & M2 & S2).
    exists hi, (fun k => if Nat.ltb k (gen s1) then m1 k else m2 k). split; [eapply moves_join; eauto|].
    intros f2 rm rm' Hf Rm. pose proof M1 as (L1 & _). pose proof M2 as (L2 & _).
    assert (Hf1 : forall k old, gen s <= k < gen s1 -> f2 k old = new_id_func op (m1 k) old).
    { intros k old Hk. rewrite Hf by lia. destruct (Nat.ltb_spec k (gen s1)); [auto|lia]. }
    assert (Hf2 : forall k old, gen s1 <= k < hi -> f2 k old = new_id_func op (m2 k) old).
    { intros k old Hk. rewrite Hf by lia. destruct (Nat.ltb_spec k (gen s1)); [lia|auto]. }
    specialize (S1 f2 Hf1). rewrite !bind_run, E1. cbv zeta.
    destruct (updater_update o up (DElem root) (Some (with_ids f2 op)) force s) as [[r'|x'] s1']; destruct S1 as [[Sa Sb] Sc]; simpl in Sa, Sb, Sc; [|tauto].
    subst s1'. destruct Sb as (Sd & Sr & _). destruct Sc as [P N]. rewrite !bind_run, <- Sd, Ea, <- Sr.
    apply S2; auto. apply same_dict_update; auto.
Qed.

(** ** The entry points *)

Lemma same_results i l d e : same_dict d e ->
  let a := update_results i (CList l) (CDict d) in
  let b := update_results i (CList l) (CDict e) in
  r_document a = r_document b /\ r_removed a = r_removed b /\ same_coll (r_remapped a) (r_remapped b).
Proof.
  intro H. cbn. split; auto. split; auto. destruct d as [|x d].
  - rewrite (same_dict_empty _ _ H eq_refl). cbn. apply same_dict_refl.
  - destruct e as [|y e]; [|exact H]. exfalso.
    assert (Q : same_dict [] (x :: d)) by (intro k; symmetry; apply H). apply same_dict_empty in Q; auto. discriminate.
Qed.

Lemma versioned_order o versions table get_version
  (Hol : forall v up, dict_get v table = Some up -> orderless up)
  (Hdes : forall v up op, dict_get v table = Some up -> exists c D f, describes up op c D f)
  (Hv : forall r, peeks (get_version r)) p d from to opts force s t :
  (forall v, reordering (p v)) -> wf_state s -> denotes s d t ->
  exists m, rearranges m /\
    forall f2, (forall k old, f2 k old = new_id_func (or_default o opts) (m k) old) ->
    same_end (versioned_update o versions (table_in_order p table) get_version d from to opts force s)
             (versioned_update o versions table get_version d from to (Some (with_ids f2 (or_default o opts))) force s).
Proof.
  intros Hp W D. assert (Id : rearranges (fun k => k)) by (exists (fun k => k); auto).
  unfold versioned_update.
  destruct (get_etree_root d false s) as [[root|e] s1] eqn:E1.
  2: { exists (fun k => k). split; auto. intros f2 _. rewrite !bind_run, !E1. apply same_end_refl. }
  assert (L : s1 = loaded s d).
  { destruct d as [i|i|[q|]]; cbn in E1; try (injection E1 as <- <-; reflexivity); try discriminate.
    rewrite copy_push_eq in E1. injection E1 as <- <-. reflexivity. }
  subst s1. destruct (loaded_node s d t root W D E1) as (W1 & G1 & anc & t' & At & _).
  assert (P : peeks (if truthy from then ret from else get_version root)) by (destruct (truthy from); [apply peeks_ret|apply Hv]).
  specialize (P (loaded s d)). destruct ((if truthy from then ret from else get_version root) (loaded s d)) as [[a|e] s1] eqn:E2.
  2: { exists (fun k => k). split; auto. intros f2 _. rewrite !bind_run, !E1. cbv beta iota zeta. rewrite !bind_run, !E2. apply same_end_refl. }
  simpl in P. subst s1. cbv zeta. set (b := if truthy to then to else Some (last versions "")).
  destruct (liftr (validate_versions a b versions) (loaded s d)) as [[u|e] s1] eqn:E3.
  2: { exists (fun k => k). split; auto. intros f2 _. rewrite !bind_run, !E1. cbv beta iota zeta. rewrite !bind_run, !E2. cbv beta iota zeta. rewrite !bind_run. fold b. rewrite !E3. cbv beta iota zeta. apply same_end_refl. }
  assert (s1 = loaded s d) by (unfold liftr in E3; injection E3; auto). subst s1.
  destruct (steps_order o table p opts force Hol Hdes Hp
    (match a, b with Some a, Some b => version_slice a b versions | _, _ => [] end) root [] (loaded s d) anc t' W1 At) as (hi & m & M & S).
  exists m. split; [apply M|]. intros f2 Hf. rewrite !bind_run, !E1. cbv beta iota zeta. rewrite !bind_run, !E2. cbv beta iota zeta. rewrite !bind_run. fold b. rewrite !E3. cbv beta iota zeta.
  destruct a as [a|], b as [b|]; try apply same_end_refl. rewrite !bind_run.
  specialize (S f2 [] [] (fun k old _ => Hf k old) (same_dict_refl _)). cbv zeta in S.
  destruct (run_steps o (table_in_order p table) _ _ _ _ _ _ _) as [[[[x1 x2] x3]|x] s2];
    destruct (run_steps o table _ _ _ _ _ _ _) as [[[[y1 y2] y3]|y] s3]; simpl in S; try tauto.
  - destruct S as (<- & <- & <- & Q). split; [reflexivity|]. apply (same_results x1 x2 x3 y3 Q).
  - exact S.
Qed.

Lemma stix_order o p d from to opts force s t : (forall v, reordering (p v)) -> wf_state s -> denotes s d t ->
  exists m, rearranges m /\ forall f2, (forall k old, f2 k old = new_id_func (or_default o opts) (m k) old) ->
    same_end (stix_update_in_order p o d from to opts force s)
             (stix_update o d from to (Some (with_ids f2 (or_default o opts))) force s).
Proof.
  apply versioned_order.
  - intros v up. apply stix_orderless.
  - intros v up op H. destruct (stix_described o op v up H) as (c & D & f & _ & _ & _ & X). eauto.
  - apply peeks_stix_version.
Qed.

Lemma cybox_order o p d from to opts force s t : (forall v, reordering (p v)) -> wf_state s -> denotes s d t ->
  exists m, rearranges m /\ forall f2, (forall k old, f2 k old = new_id_func (or_default o opts) (m k) old) ->
    same_end (cybox_update_in_order p o d from to opts force s)
             (cybox_update o d from to (Some (with_ids f2 (or_default o opts))) force s).
Proof.
  apply versioned_order.
  - intros v up. apply cybox_orderless.
  - intros v up op H. destruct (cybox_described o op v up H) as (c & D & f & _ & _ & _ & X). eauto.
  - intro r0. apply peeks_bind; [apply peeks_cybox_version|]. intro. apply peeks_ret.
Qed.

Lemma ramrod_order o p d from to opts force s t : (forall v, reordering (p v)) -> wf_state s -> denotes s d t ->
  exists m, rearranges m /\ forall f2, (forall k old, f2 k old = new_id_func (or_default o opts) (m k) old) ->
    same_end (ramrod_update_in_order p o d from to opts force s)
             (ramrod_update o d from to (Some (with_ids f2 (or_default o opts))) force s).
Proof.
  intros Hp W D. assert (Id : rearranges (fun k => k)) by (exists (fun k => k); auto).
  unfold ramrod_update_in_order, ramrod_update.
  destruct (get_etree_root d false s) as [[root|e] s1] eqn:E1.
  2: { exists (fun k => k). split; auto. intros f2 _. rewrite !bind_run, E1. apply same_end_refl. }
  assert (L : s1 = loaded s d).
  { destruct d as [i|i|[q|]]; cbn in E1; try (injection E1 as <- <-; reflexivity); try discriminate.
    rewrite copy_push_eq in E1. injection E1 as <- <-. reflexivity. }
  subst s1. destruct (loaded_node s d t root W D E1) as (W1 & G1 & anc & t' & At & _).
  assert (Dn : denotes (loaded s d) (DElem root) t') by (exists anc; exact At).
  pose proof (peeks_get_hdr root (loaded s d)) as Ph.
  destruct (get_hdr root (loaded s d)) as [[h|e] s1] eqn:E2.
  2: { exists (fun k => k). split; auto. intros f2 _. rewrite !bind_run, E1, !bind_run, E2. apply same_end_refl. }
  simpl in Ph. subst s1. cbv zeta.
  destruct (String.eqb (q_local (h_tag h)) "STIX_Package") eqn:Es; [|destruct (String.eqb (q_local (h_tag h)) "Observables") eqn:Eo].
  - set (gv := if truthy from then ret from else stix_get_version (DElem root)).
    assert (Pv : peeks gv).
    { unfold gv. destruct (truthy from); [apply peeks_ret|]. unfold stix_get_version. apply peeks_bind; [|intro; apply peeks_stix_version].
      intro; reflexivity. }
    specialize (Pv (loaded s d)). destruct (gv (loaded s d)) as [[a|e] s1] eqn:E3.
    2: { exists (fun k => k). split; auto. intros f2 _. rewrite !bind_run, E1, !bind_run, E2, Es, !bind_run. fold gv. rewrite E3. apply same_end_refl. }
    simpl in Pv. subst s1.
    destruct (stix_order o p (DElem root) a to (Some (or_default o opts)) force (loaded s d) t' Hp W1 Dn) as (m & Rm & S).
    exists m. split; auto. intros f2 Hf. rewrite !bind_run, E1, !bind_run, E2, Es, !bind_run. fold gv. rewrite E3. apply S. exact Hf.
  - set (gv := if truthy from then ret from else v <- cybox_get_version (DElem root) ;; ret (Some v)).
    assert (Pv : peeks gv).
    { unfold gv. destruct (truthy from); [apply peeks_ret|]. unfold cybox_get_version.
      apply peeks_bind; [|intro; apply peeks_ret]. apply peeks_bind; [|intro; apply peeks_cybox_version].
      intro; reflexivity. }
    specialize (Pv (loaded s d)). destruct (gv (loaded s d)) as [[a|e] s1] eqn:E3.
    2: { exists (fun k => k). split; auto. intros f2 _. rewrite !bind_run, E1, !bind_run, E2, Es, Eo, !bind_run. fold gv. rewrite E3. apply same_end_refl. }
    simpl in Pv. subst s1.
    destruct (cybox_order o p (DElem root) a to (Some (or_default o opts)) force (loaded s d) t' Hp W1 Dn) as (m & Rm & S).
    exists m. split; auto. intros f2 Hf. rewrite !bind_run, E1, !bind_run, E2, Es, Eo, !bind_run. fold gv. rewrite E3. apply S. exact Hf.
  - exists (fun k => k). split; auto. intros f2 _. rewrite !bind_run, E1, !bind_run, E2, Es, Eo. apply same_end_refl.
Qed.

Lemma updater_order o p up d opts force s t :
  In up (map snd (STIX_UPDATERS o) ++ map snd (CYBOX_UPDATERS o)) -> reordering p -> wf_state s -> denotes s d t ->
  exists m, rearranges m /\ forall f2, (forall k old, f2 k old = new_id_func (or_default o opts) (m k) old) ->
    same_end (updater_update o (in_order p up) d opts force s)
             (updater_update o up d (Some (with_ids f2 (or_default o opts))) force s).
Proof.
  intros Reg Hp W D. assert (X : orderless up /\ forall op, exists c D f, describes up op c D f).
  { apply in_app_iff in Reg as [Reg|Reg]; apply in_map_iff in Reg as ([v u] & E & Reg); simpl in E; subst u.
    - assert (G : dict_get v (STIX_UPDATERS o) = Some up) by (simpl in Reg; repeat (destruct Reg as [Reg|Reg]; [injection Reg as <- <-; reflexivity|]); destruct Reg).
      split; [eapply stix_orderless; eauto|]. intro op. destruct (stix_described o op v up G) as (c & Dt & f & _ & _ & _ & X). eauto.
    - assert (G : dict_get v (CYBOX_UPDATERS o) = Some up) by (simpl in Reg; repeat (destruct Reg as [Reg|Reg]; [injection Reg as <- <-; reflexivity|]); destruct Reg).
      split; [eapply cybox_orderless; eauto|]. intro op. destruct (cybox_described o op v up G) as (c & Dt & f & _ & _ & _ & X). eauto. }
  destruct X as [O Des]. destruct (step_order o up p d opts force s t O Des Hp W D) as (hi & m & M & _ & S).
  exists m. split; [apply M|]. intros f2 Hf. apply (S f2 (fun k old _ => Hf k old)).
Qed.

Lemma cleaning_order o p up d opts s t :
  In up (map snd (STIX_UPDATERS o) ++ map snd (CYBOX_UPDATERS o)) -> reordering p -> wf_state s -> denotes s d t ->
  exists m, rearranges m /\ forall f2, (forall k old, f2 k old = new_id_func (or_default o opts) (m k) old) ->
    same_end (clean o (in_order p up) d opts s)
             (clean o up d (Some (with_ids f2 (or_default o opts))) s).
Proof.
  intros Reg Hp W D. assert (O : orderless up).
  { apply in_app_iff in Reg as [Reg|Reg]; apply in_map_iff in Reg as ([v u] & E & Reg); simpl in E; subst u.
    - apply (stix_orderless o v). simpl in Reg; repeat (destruct Reg as [Reg|Reg]; [injection Reg as <- <-; reflexivity|]); destruct Reg.
    - apply (cybox_orderless o v). simpl in Reg; repeat (destruct Reg as [Reg|Reg]; [injection Reg as <- <-; reflexivity|]); destruct Reg. }
  unfold clean. destruct (copied s d t W D) as (n1 & E1 & W1).
  set (T := numbered (next s) t) in *. set (s1 := St _ n1 _) in *.
  assert (HT : In T (heap s1)) by (simpl; apply in_app_iff; right; left; auto).
  destruct (clean_order up (or_default o opts) p s1 T O Hp W1 HT) as (hi & m & M & _ & S).
  exists m. split; [apply M|]. intros f2 Hf. specialize (S f2 (fun k old _ => Hf k old)). cbv zeta in S.
  rewrite !bind_run, E1. cbn [or_default]. destruct S as [Sa Sb]. split; [exact Sa|].
  destruct (clean_root (in_order p up) (tid T) (or_default o opts) s1) as [[r|x] s2];
    destruct (clean_root up (tid T) (with_ids f2 (or_default o opts)) s1) as [[r'|y] s3]; simpl in *; try tauto.
  - destruct Sb as (A & B & d1 & e1 & C1 & C2 & P & N). split; auto. split; auto. rewrite C1, C2. apply permuted_same; auto.
  - subst. apply same_error_refl.
Qed.

(** ** From the general form to the two uses *)

Lemma with_own_ids opts : with_ids (new_id_func opts) opts = opts.
Proof. destruct opts; reflexivity. Qed.

Lemma order_dealt (run : options -> res results * st) q opts :
  (exists m, rearranges m /\ forall f2, (forall k old, f2 k old = new_id_func opts (m k) old) -> same_end q (run (with_ids f2 opts))) ->
  exists m, rearranges m /\ same_end q (run (dealt m opts)).
Proof. intros (m & R & S). exists m. split; auto. apply S. reflexivity. Qed.

Lemma order_repeatable (run : options -> res results * st) q opts : repeatable opts ->
  (exists m, rearranges m /\ forall f2, (forall k old, f2 k old = new_id_func opts (m k) old) -> same_end q (run (with_ids f2 opts))) ->
  same_end q (run opts).
Proof.
  intros Rp (m & _ & S). rewrite <- (with_own_ids opts). apply S. intros k old. apply Rp.
Qed.

(** ** Dictionaries made of dictionaries *)

Lemma dict_get_member {A} k (v : A) d : NoDup (map fst d) -> (In (k, v) d <-> dict_get k d = Some v).
Proof.
  induction d as [|[a x] d IH]; simpl; [split; [tauto|discriminate]|]. intro N. inversion N as [|? ? N1 N2]; subst.
  destruct (String.eqb_spec k a) as [->|Ne].
  - split; [|intro H; injection H as <-; auto]. intros [H|H]; [injection H as <-; auto|].
    elim N1. apply in_map_iff. exists (a, v). auto.
  - rewrite <- IH by auto. split; [intros [H|H]; [congruence|auto]|auto].
Qed.

Lemma same_permuted (d e : dict (list nat)) : NoDup (map fst d) -> NoDup (map fst e) -> same_dict d e -> Permutation d e.
Proof.
  intros N N' H. apply NoDup_Permutation.
  - eapply NoDup_map_inv; eauto.
  - eapply NoDup_map_inv; eauto.
  - intros [k v]. rewrite !dict_get_member, H by auto. tauto.
Qed.

Lemma update_permuted (a a' b b' : dict (list nat)) : NoDup (map fst a) -> NoDup (map fst b) ->
  Permutation a' a -> Permutation b' b -> Permutation (dict_update a' b') (dict_update a b).
Proof.
  intros Na Nb Pa Pb.
  assert (Na' : NoDup (map fst a')) by (eapply Permutation_NoDup; [apply Permutation_map, Permutation_sym, Pa|auto]).
  assert (Nb' : NoDup (map fst b')) by (eapply Permutation_NoDup; [apply Permutation_map, Permutation_sym, Pb|auto]).
  apply same_permuted.
  - apply dict_update_NoDup. auto.
  - apply dict_update_NoDup. auto.
  - apply same_dict_update; auto. apply permuted_same; auto.
Qed.

Lemma id_groups_keys nss t : NoDup (map fst (id_groups nss t)).
Proof.
  unfold id_groups. generalize (@NoDup_nil string). change (@nil string) with (map fst (@nil (string * list nat))).
  generalize (@nil (string * list nat)). induction (tl (visits [] t)) as [|c l IH]; intros acc N; cbn [fold_left]; auto.
  apply IH. destruct (is_elem (snd c)); auto. destruct (attr_get _ _); auto. destruct (q_ns _); auto.
  destruct (mem_str _ _); auto. apply dict_set_NoDup. auto.
Qed.

Lemma filter_permuted {A} (f : A -> bool) l l' : Permutation l l' -> Permutation (filter f l) (filter f l').
Proof.
  induction 1 as [|x l l' P IH|x y l|l l' l'' P IH P' IH']; simpl; auto.
  - destruct (f x); auto.
  - destruct (f x), (f y); auto. constructor.
  - etransitivity; eauto.
Qed.

Lemma filter_keys {A} (f : string * A -> bool) (d : dict A) : NoDup (map fst d) -> NoDup (map fst (filter f d)).
Proof.
  induction d as [|[k v] d IH]; simpl; auto. intro N. inversion N as [|? ? N1 N2]; subst.
  destruct (f (k, v)); simpl; auto. constructor; auto. intro H. apply N1.
  apply in_map_iff in H as (y & E & H). apply filter_In in H as [H _]. apply in_map_iff. eauto.
Qed.

Lemma assembled s root a g1 g2 c : hfind root (heap s) = Some c ->
  Permutation g1 (id_groups (map snd (c_nsmap STIX_1_0_1)) (snd c)) ->
  Permutation g2 (id_groups (map snd (c_nsmap Cybox_in_1_0_1)) (snd c)) ->
  a = dict_update (filter (fun kv => Nat.ltb 1 (List.length (snd kv))) g1) (filter (fun kv => Nat.ltb 1 (List.length (snd kv))) g2) ->
  exists d, stix_1_0_1_get_duplicates root s = (Ok d, s) /\ Permutation a d.
Proof.
  intros Hc P1 P2 ->. eexists. split.
  - unfold stix_1_0_1_get_duplicates, get_duplicates. rewrite !bind_run. unfold deref. rewrite Hc. cbn [ret]. rewrite !bind_run, Hc. reflexivity.
  - apply update_permuted; try (apply filter_permuted; auto; fail); apply filter_keys, id_groups_keys.
Qed.
