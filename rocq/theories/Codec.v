(** * The two ways of writing lists in a text. *)

From Coq Require Import String Ascii List Bool Arith Lia.
From Verif Require Import Str Xml XPath Utils Base Tables Spec SpecDoc SpecPass SpecStep SpecUpdate SpecTrace SpecField SpecLocation SpecName Lib.
Import ListNotations.
Local Open Scope string_scope.

Lemma app_assoc_s a b c : (a ++ b) ++ c = a ++ (b ++ c).
Proof. induction a; simpl; congruence. Qed.

Lemma app_nil_s a : a ++ "" = a.
Proof. induction a; simpl; congruence. Qed.

Lemma app_inv_s a b c : a ++ b = a ++ c -> b = c.
Proof. induction a; simpl; auto. intro H. injection H. auto. Qed.

Lemma length_app_s a b : String.length (a ++ b) = String.length a + String.length b.
Proof. induction a; simpl; congruence. Qed.

(** Two ways of cutting the same string. *)
Lemma app_cut a b c d : a ++ b = c ++ d -> (exists e, a = c ++ e /\ d = e ++ b) \/ (exists e, c = a ++ e /\ b = e ++ d).
Proof.
  revert c. induction a as [|x a IH]; intros c H.
  - right. exists c. auto.
  - destruct c as [|y c].
    + left. exists (String x a). auto.
    + simpl in H. injection H as -> H. destruct (IH c H) as [(e & -> & ->)|(e & -> & ->)]; [left|right]; exists e; auto.
Qed.

(** ** starts_with, contains *)

Lemma drop_prefix_app p s : drop_prefix p (p ++ s) = Some s.
Proof. induction p as [|a p IH]; simpl; auto. rewrite Ascii.eqb_refl. exact IH. Qed.

Lemma drop_prefix_some p : forall s r, drop_prefix p s = Some r -> s = p ++ r.
Proof.
  induction p as [|a p IH]; intros s r H; simpl in *; [congruence|]. destruct s as [|b s]; [discriminate|].
  destruct (Ascii.eqb a b) eqn:E; [|discriminate]. apply Ascii.eqb_eq in E. subst. f_equal. auto.
Qed.

Lemma starts_iff p s : starts_with p s = true <-> exists r, s = p ++ r.
Proof.
  unfold starts_with. split.
  - destruct (drop_prefix p s) as [r|] eqn:E; [|discriminate]. exists r. apply drop_prefix_some. exact E.
  - intros (r & ->). rewrite drop_prefix_app. reflexivity.
Qed.

Definition occurs (p s : string) : Prop := exists a b, s = a ++ p ++ b.

Lemma occurs_cons p c s : occurs p s -> occurs p (String c s).
Proof. intros (a & b & ->). exists (String c a), b. reflexivity. Qed.

Lemma contains_some x s : contains x s = true -> occurs x s.
Proof.
  induction s as [|c s IH]; intro H; cbn [contains] in H; apply orb_prop in H as [H|H].
  - apply starts_iff in H as (r & E). exists "", r. exact E.
  - discriminate H.
  - apply starts_iff in H as (r & E). exists "", r. exact E.
  - apply IH in H as (a & b & ->). exists (String c a), b. reflexivity.
Qed.

Lemma occurs_contains x s : occurs x s -> contains x s = true.
Proof.
  intros (a & b & ->). induction a as [|c a IH].
  - assert (H : starts_with x ("" ++ x ++ b) = true) by (apply starts_iff; exists b; reflexivity).
    destruct ("" ++ x ++ b); cbn [contains]; rewrite H; reflexivity.
  - cbn [append contains]. rewrite IH. apply orb_true_r.
Qed.

Lemma occurs_app_l p s t : occurs p s -> occurs p (s ++ t).
Proof. intros (a & b & ->). exists a, (b ++ t). rewrite !app_assoc_s. reflexivity. Qed.

Lemma occurs_app_r p s t : occurs p t -> occurs p (s ++ t).
Proof. intros (a & b & ->). exists (s ++ a), b. rewrite app_assoc_s. reflexivity. Qed.

Fixpoint holds_char (c : ascii) (s : string) : bool :=
  match s with EmptyString => false | String a s' => Ascii.eqb a c || holds_char c s' end.

Lemma holds_app c a b : holds_char c (a ++ b) = holds_char c a || holds_char c b.
Proof. induction a; simpl; auto. rewrite IHa. apply orb_assoc. Qed.

(** A character that is not in [p] separates the occurrences of [p]. *)
Lemma occurs_barrier p c x y : p <> "" -> holds_char c p = false -> occurs p (x ++ String c y) -> occurs p x \/ occurs p y.
Proof.
  intros Ne Hc (a & b & E). destruct (app_cut _ _ _ _ E) as [(e & Ex & Eb)|(e & Ea & Eb)].
  - destruct (app_cut _ _ _ _ Eb) as [(f & Ep & Ed)|(f & Ee & Eb2)].
    + destruct f as [|f0 f].
      * rewrite app_nil_s in Ep. left. exists a, "". rewrite app_nil_s. congruence.
      * injection Ed as <- _. exfalso. rewrite Ep, holds_app in Hc. apply orb_false_iff in Hc as [_ Hc].
        cbn [holds_char] in Hc. rewrite Ascii.eqb_refl in Hc. discriminate.
    + left. exists a, f. congruence.
  - destruct e as [|e0 e].
    + simpl in Eb. destruct p as [|p0 p]; [contradiction|]. injection Eb as <- _. cbn [holds_char] in Hc. rewrite Ascii.eqb_refl in Hc. discriminate.
    + injection Eb as _ ->. right. exists e, b. reflexivity.
Qed.

Lemma starts_barrier p c x y : holds_char c p = false -> starts_with p (x ++ String c y) = starts_with p x.
Proof.
  intro Hc. apply eq_true_iff_eq. rewrite !starts_iff. split.
  - intros (r & E). destruct (app_cut _ _ _ _ E) as [(e & -> & _)|(e & -> & Er)]; [eauto|].
    destruct e as [|e0 e]; [exists ""; rewrite !app_nil_s; reflexivity|]. injection Er as <- _.
    rewrite holds_app in Hc. apply orb_false_iff in Hc as [_ Hc]. cbn [holds_char] in Hc. rewrite Ascii.eqb_refl in Hc. discriminate.
  - intros (r & ->). exists (r ++ String c y). apply app_assoc_s.
Qed.

(** ** replace *)

Lemma replace_barrier old new c x y : holds_char c old = false -> forall k, k <= String.length x ->
  replace_from old new k (x ++ String c y) = replace_from old new k x ++ replace_from old new 0 (String c y).
Proof.
  intro Hc. induction x as [|a x IH]; intros k Hk.
  - simpl in Hk. assert (k = 0) as -> by lia. reflexivity.
  - simpl in Hk. change (String a x ++ String c y) with (String a (x ++ String c y)).
    destruct k as [|k]; [|cbn [replace_from]; apply IH; lia].
    cbn [replace_from]. change (String a (x ++ String c y)) with (String a x ++ String c y). rewrite starts_barrier by exact Hc.
    destruct (starts_with old (String a x)) eqn:S.
    + rewrite IH, app_assoc_s; [reflexivity|]. apply starts_iff in S as (r & S).
      assert (L : String.length (String a x) = String.length old + String.length r) by (rewrite S; apply length_app_s). simpl in L. lia.
    + rewrite IH by lia. reflexivity.
Qed.

Lemma replace_hit old new r : old <> "" -> replace old new (old ++ r) = new ++ replace old new r.
Proof.
  intro Ne. unfold replace. destruct old as [|a old]; [contradiction|]. clear Ne.
  change (String a old ++ r) with (String a (old ++ r)). cbn [replace_from].
  assert (S : starts_with (String a old) (String a (old ++ r)) = true) by (apply starts_iff; exists r; reflexivity).
  rewrite S. apply (f_equal (append new)). cbn [String.length]. rewrite Nat.sub_succ, Nat.sub_0_r.
  assert (G : forall o2 x, replace_from o2 new (String.length x) (x ++ r) = replace_from o2 new 0 r).
  { intros o2 x. induction x as [|b x IH]; auto. }
  apply G.
Qed.

Lemma replace_none old new s : ~ occurs old s -> replace old new s = s.
Proof.
  unfold replace. induction s as [|a s IH]; intro N; auto. cbn [replace_from]. destruct (starts_with old (String a s)) eqn:S.
  - exfalso. apply N. apply starts_iff in S as (r & ->). exists "", r. reflexivity.
  - rewrite IH; auto. intro O. apply N. apply occurs_cons. exact O.
Qed.

Lemma replace_first old new a b : old <> "" -> (forall a' b', a ++ old ++ b = a' ++ old ++ b' -> String.length a <= String.length a') ->
  replace old new (a ++ old ++ b) = a ++ new ++ replace old new b.
Proof.
  intro Ne. induction a as [|c a IH]; intro F.
  - simpl. apply replace_hit. exact Ne.
  - unfold replace. cbn [append replace_from]. destruct (starts_with old (String c (a ++ old ++ b))) eqn:S.
    + exfalso. apply starts_iff in S as (r & S). specialize (F "" r S). simpl in F. lia.
    + f_equal. apply IH. intros a' b' E. specialize (F (String c a') b'). simpl in F. rewrite E in F. specialize (F eq_refl). lia.
Qed.

Lemma replace_split old new s l : old <> "" -> split_at old s l -> replace old new s = join new l.
Proof.
  intros Ne H. induction H as [s N|a b l F H IH].
  - apply replace_none. intros (a & b & E). exact (N a b E).
  - rewrite replace_first, IH by auto. inversion H; subst; reflexivity.
Qed.

Lemma split_ne sep s l : split_at sep s l -> l <> [].
Proof. destruct 1; discriminate. Qed.

Lemma occurs_dec p s : occurs p s \/ ~ occurs p s.
Proof.
  induction s as [|a s [IH|IH]].
  - destruct p as [|c p]; [left; exists "", ""; reflexivity|]. right. intros ([|] & b & E); discriminate E.
  - left. apply occurs_cons. exact IH.
  - destruct (starts_with p (String a s)) eqn:S.
    + left. apply starts_iff in S as (r & S). exists "", r. exact S.
    + right. intros ([|c x] & b & E).
      * assert (X : starts_with p (String a s) = true) by (apply starts_iff; exists b; exact E). congruence.
      * apply IH. injection E as _ ->. exists x, b. reflexivity.
Qed.

Lemma first_place p s : occurs p s -> exists a b, s = a ++ p ++ b /\ forall a' b', s = a' ++ p ++ b' -> String.length a <= String.length a'.
Proof.
  induction s as [|c s IH]; intro O.
  - exists "", "". destruct O as ([|] & b & E); [|discriminate E]. destruct p; [|discriminate E]. split; [reflexivity|]. intros. simpl. lia.
  - destruct (starts_with p (String c s)) eqn:S.
    + apply starts_iff in S as (r & S). exists "", r. split; [exact S|]. intros. simpl. lia.
    + destruct IH as (a & b & E & M).
      * destruct O as ([|x y] & b & E); [|injection E as _ ->; exists y, b; reflexivity].
        assert (X : starts_with p (String c s) = true) by (apply starts_iff; exists b; exact E). congruence.
      * exists (String c a), b. split; [simpl; congruence|]. intros [|x a'] b' E'.
        -- assert (X : starts_with p (String c s) = true) by (apply starts_iff; exists b'; exact E'). congruence.
        -- injection E' as _ E'. specialize (M a' b' E'). simpl. lia.
Qed.

Lemma split_exists sep s : sep <> "" -> exists l, split_at sep s l.
Proof.
  intro Ne. remember (String.length s) as n. revert s Heqn. induction n as [n IH] using lt_wf_ind. intros s ->.
  destruct (occurs_dec sep s) as [O|N].
  - destruct (first_place _ _ O) as (a & b & -> & M). destruct (IH (String.length b)) with (s := b) as (l & Hl); auto.
    + rewrite !length_app_s. destruct sep; [contradiction|]. simpl. lia.
    + exists (a :: l). constructor; auto.
  - exists [s]. constructor. intros a b E. apply N. exists a, b. exact E.
Qed.

Lemma split_unique sep s l l' : split_at sep s l -> split_at sep s l' -> l = l'.
Proof.
  intro H. revert l'. induction H as [s N|a b l F H IH]; intros l' H'.
  - inversion H' as [? N'|a b k F Hk]; subst; auto. exfalso. exact (N a b eq_refl).
  - inversion H' as [? N'|a' b' k F' Hk E]; subst; [exfalso; exact (N' a b eq_refl)|].
    assert (L : String.length a = String.length a') by (specialize (F _ _ (eq_sym E)); specialize (F' _ _ E); lia).
    destruct (app_cut _ _ _ _ E) as [(e & X & Y)|(e & X & Y)]; subst.
    + rewrite length_app_s in L. destruct e; [|simpl in L; lia]. simpl in Y. apply app_inv_s in Y. subst. rewrite app_nil_s. f_equal. auto.
    + rewrite length_app_s in L. destruct e; [|simpl in L; lia]. simpl in Y. apply app_inv_s in Y. subst. rewrite app_nil_s. f_equal. auto.
Qed.

Lemma split_join sep s l : split_at sep s l -> s = join sep l.
Proof. induction 1 as [|a b l F H IH]; auto. rewrite IH at 1. inversion H; subst; reflexivity. Qed.

(** ** The codec *)

Lemma split_items sep s l p x : split_at sep s l -> In x l -> occurs p x -> occurs p s.
Proof.
  induction 1 as [s N|a b l F H IH]; intros I O.
  - destruct I as [<-|[]]. exact O.
  - destruct I as [<-|I]; [apply occurs_app_l; exact O|]. apply occurs_app_r, occurs_app_r. auto.
Qed.

Lemma occurs_join p c l : p <> "" -> holds_char c p = false -> occurs p (join (String c "") l) -> exists x, In x l /\ occurs p x.
Proof.
  intros Ne Hc. induction l as [|x l IH]; intro O.
  - exfalso. destruct O as ([|] & b & E); [|discriminate E]. destruct p; [contradiction|discriminate E].
  - destruct l as [|y l].
    + exists x. split; [left; reflexivity|exact O].
    + change (join (String c "") (x :: y :: l)) with (x ++ String c (join (String c "") (y :: l))) in O.
      destruct (occurs_barrier p c _ _ Ne Hc O) as [O'|O']; [exists x; split; [left; reflexivity|exact O']|].
      destruct (IH O') as (z & I & Oz). exists z. split; [right; exact I|exact Oz].
Qed.

Lemma decoded_replace x y : decoded x y -> y = replace "&comma;" "," x.
Proof. intros (l & H & ->). symmetry. apply replace_split; [discriminate|exact H]. Qed.

Lemma decoded_exists x : exists y, decoded x y.
Proof. destruct (split_exists "&comma;" x) as (l & H); [discriminate|]. exists (join "," l), l. auto. Qed.

Lemma decoded_mark x y : decoded x y -> occurs "##comma" y -> occurs "##comma" x.
Proof.
  intros (l & H & ->) O. destruct (occurs_join "##comma" "," l ltac:(discriminate) eq_refl O) as (z & I & Oz). eapply split_items; eauto.
Qed.

(** No item contains the beginning of the separator: joining and splitting. *)
Lemma cut_early x r b : x <> "" -> x ++ "##comma##" ++ r = "##comma##" ++ b -> occurs "##comma" x.
Proof.
  intros Ne E. do 7 (destruct x as [|? x]; [try contradiction; simpl in E; discriminate E|simpl in E; injection E as -> E]).
  exists "", x. reflexivity.
Qed.

Lemma join_split l : l <> [] -> (forall x, In x l -> ~ occurs "##comma" x) -> split_at "##comma##" (join "##comma##" l) l.
Proof.
  induction l as [|x l IH]; intros Ne N; [contradiction|]. destruct l as [|y l].
  - constructor. intros a b E. apply (N x); [left; reflexivity|]. simpl in E. exists a, ("##" ++ b). exact E.
  - change (join "##comma##" (x :: y :: l)) with (x ++ "##comma##" ++ join "##comma##" (y :: l)). constructor.
    + intros a' b' E. destruct (Nat.le_gt_cases (String.length x) (String.length a')); auto. exfalso.
      destruct (app_cut _ _ _ _ E) as [(e & -> & Y)|(e & -> & Y)].
      * apply (N (a' ++ e)); [left; reflexivity|]. apply occurs_app_r. symmetry in Y. apply (cut_early e _ b') in Y; auto. intros ->.
        rewrite app_nil_s in *. lia.
      * rewrite length_app_s in H. lia.
    + apply IH; [discriminate|]. intros z Hz. apply N. right. exact Hz.
Qed.

Lemma replace_items l : replace "&comma;" "," (join "##comma##" l) = join "##comma##" (map (replace "&comma;" ",") l).
Proof.
  induction l as [|x l IH]; auto. destruct l as [|y l]; auto.
  change (join "##comma##" (x :: y :: l)) with (x ++ String "#" ("#comma##" ++ join "##comma##" (y :: l))).
  unfold replace at 1. rewrite replace_barrier by (try reflexivity; lia).
  change (map (replace "&comma;" ",") (x :: y :: l)) with (replace "&comma;" "," x :: map (replace "&comma;" ",") (y :: l)).
  change (join "##comma##" (replace "&comma;" "," x :: map (replace "&comma;" ",") (y :: l)))
    with (replace "&comma;" "," x ++ "##comma##" ++ join "##comma##" (map (replace "&comma;" ",") (y :: l))).
  rewrite <- IH. reflexivity.
Qed.

Lemma Forall2_replace l l' : Forall2 decoded l l' -> l' = map (replace "&comma;" ",") l.
Proof. induction 1; simpl; auto. f_equal; auto. apply decoded_replace. exact H. Qed.

Lemma Forall2_decoded l : exists l', Forall2 decoded l l'.
Proof. induction l as [|x l (l' & IH)]; [exists []; constructor|]. destruct (decoded_exists x) as (y & H). exists (y :: l'). constructor; auto. Qed.

(** When joining and splitting gives the items back. *)
Lemma cut_early_exact x r b : x <> "" -> x ++ "##comma##" ++ r = "##comma##" ++ b ->
  occurs "##comma##" x \/ x = "##comma" \/ x = "##comma#".
Proof.
  intros Ne E. do 7 (destruct x as [|? x]; [try contradiction; simpl in E; discriminate E|simpl in E; injection E as -> E]).
  destruct x as [|c x]; [auto|]. simpl in E. injection E as -> E. destruct x as [|c x]; [auto|].
  simpl in E. injection E as -> E. left. exists "", x. reflexivity.
Qed.

Lemma join_split_exact l : l <> [] -> (split_at "##comma##" (join "##comma##" l) l <-> unmistakable l).
Proof.
  intro Ne. split.
  - assert (G : forall s, split_at "##comma##" s l -> unmistakable l); [|apply G].
    intro s0. induction 1 as [s N|a b l F H IH].
    + split; [intros x a b [<-|[]]; apply N|intros x a []].
    + destruct (IH (split_ne _ _ _ H)) as [A B]. split.
      * intros x c d [<-|I]; [|apply A; exact I]. intros ->.
        specialize (F c (d ++ "##comma##" ++ b)). rewrite !app_assoc_s in F. specialize (F eq_refl).
        rewrite !length_app_s in F. simpl in F. lia.
      * intros x c I. assert (X : x = a \/ In x (removelast l)).
        { destruct l as [|y l]; [destruct I|]. destruct I as [<-|I]; auto. }
        destruct X as [->|I']; [|apply B; exact I']. split; intros ->.
        -- specialize (F c ("comma##" ++ b)). rewrite !app_assoc_s in F. specialize (F eq_refl).
           rewrite !length_app_s in F. simpl in F. lia.
        -- specialize (F c ("#comma##" ++ b)). rewrite !app_assoc_s in F. specialize (F eq_refl).
           rewrite !length_app_s in F. simpl in F. lia.
  - induction l as [|x l IH]; [contradiction|]. intros [A B]. destruct l as [|y l].
    + constructor. intros a b. apply A. left. reflexivity.
    + change (join "##comma##" (x :: y :: l)) with (x ++ "##comma##" ++ join "##comma##" (y :: l)). constructor.
      * intros a' b' E. destruct (Nat.le_gt_cases (String.length x) (String.length a')) as [|Lt]; auto. exfalso.
        destruct (app_cut _ _ _ _ E) as [(e & X & Y)|(e & X & Y)].
        -- assert (Ee : e <> "") by (intros ->; rewrite app_nil_s in X; subst; lia).
           symmetry in Y. apply cut_early_exact in Y; auto. destruct Y as [(c & d & ->) | [ -> | -> ] ].
           ++ apply (A x (a' ++ c) d); [left; reflexivity|]. rewrite X, app_assoc_s. reflexivity.
           ++ destruct (B x a') as [N _]; [left; reflexivity|]. exact (N X).
           ++ destruct (B x a') as [_ N]; [left; reflexivity|]. exact (N X).
        -- rewrite X, length_app_s in Lt. lia.
      * apply IH; [discriminate|]. split.
        -- intros z a b I. apply A. right. exact I.
        -- intros z a I. apply B. right. exact I.
Qed.

Lemma relisted_replace s s' : relisted s s' <-> s' = replace "&comma;" "," (replace "," "##comma##" s).
Proof.
  split.
  - intros (l & l' & H & D & ->).
    rewrite (replace_split "," "##comma##" s l ltac:(discriminate) H), replace_items, <- (Forall2_replace _ _ D). reflexivity.
  - intros ->. destruct (split_exists "," s) as (l & H); [discriminate|]. destruct (Forall2_decoded l) as (l' & D).
    exists l, l'. split; auto. split; auto.
    rewrite (replace_split "," "##comma##" s l ltac:(discriminate) H), replace_items, <- (Forall2_replace _ _ D). reflexivity.
Qed.

Lemma codec_exact s l : split_at "," s l ->
  exists l', Forall2 decoded l l' /\
    (split_at "##comma##" (replace "&comma;" "," (replace "," "##comma##" s)) l' <-> unmistakable l').
Proof.
  intro H. destruct (Forall2_decoded l) as (l' & D). exists l'. split; auto.
  rewrite (replace_split "," "##comma##" s l ltac:(discriminate) H), replace_items, <- (Forall2_replace _ _ D).
  apply join_split_exact. intros ->. inversion D. subst. exact (split_ne _ _ _ H eq_refl).
Qed.

(** A text without the separator's beginning. *)
Lemma unmarked_items s l l' : (forall a b, s <> a ++ "##comma" ++ b) -> split_at "," s l -> Forall2 decoded l l' -> unmistakable l'.
Proof.
  intros N H D.
  assert (G : forall y, In y l' -> ~ occurs "##comma" y).
  { intros y Hy O. assert (X : exists x, In x l /\ decoded x y).
    { clear -D Hy. induction D as [|a b l l' H D IH]; [destruct Hy|]. destruct Hy as [<-|Hy]; [exists a; split; auto; left; auto|].
      destruct (IH Hy) as (x & I & Dx). exists x. split; auto. right. auto. }
    destruct X as (x & I & Dx). pose proof (split_items _ _ _ _ _ H I (decoded_mark _ _ Dx O)) as (a & b & E). exact (N a b E). }
  assert (R : forall x, In x (removelast l') -> In x l').
  { clear. induction l' as [|y l IH]; intros x I; [destruct I|]. destruct l as [|z l]; [destruct I|].
    destruct I as [<-|I]; [left; auto|right; apply IH; exact I]. }
  split.
  - intros x a b I ->. apply (G _ I). exists a, ("##" ++ b). reflexivity.
  - intros x a I. split; intros ->; apply (G _ (R _ I)); [exists a, ""|exists a, "#"]; reflexivity.
Qed.
