(** * Proofs: rewriting lists keeps character data readable. *)

From Coq Require Import String Ascii List Bool Arith Lia.
From Verif Require Import Str Xml Utils Base SpecPass Lib Codec Refs Faults.
Import ListNotations.
Local Open Scope string_scope.

(** Commas replaced, character by character. *)
Fixpoint uncomma (s : string) : string :=
  match s with
  | "" => ""
  | String c s' => (if Ascii.eqb "," c then "##comma##" else String c "") ++ uncomma s'
  end.

Lemma uncomma_replace s : replace "," "##comma##" s = uncomma s.
Proof.
  unfold replace. induction s as [|c s IH]; [reflexivity|]. cbn [replace_from uncomma].
  unfold starts_with. cbn [drop_prefix]. destruct (Ascii.eqb "," c) eqn:E; cbn [drop_prefix String.length Nat.sub].
  - replace (0 + 1 - 1) with 0 by reflexivity. rewrite IH. reflexivity.
  - rewrite IH. reflexivity.
Qed.

(** Character data: characters other than "&", and references. *)
Definition references : list string := ["&amp;"; "&lt;"; "&gt;"; "&quot;"; "&apos;"].

Inductive proper : string -> Prop :=
| proper_nil : proper ""
| proper_char c s : c <> "&"%char -> proper s -> proper (String c s)
| proper_ref e s : In e references -> proper s -> proper (e ++ s).

Lemma entity_some s c n : entity s = Some (c, n) -> exists e r, In e references /\ s = e ++ r /\ n = String.length e.
Proof.
  unfold entity.
  destruct (starts_with "&amp;" s) eqn:E1; [intro H; injection H as _ <-; apply starts_iff in E1 as (r & ->); exists "&amp;", r; simpl; tauto|].
  destruct (starts_with "&lt;" s) eqn:E2; [intro H; injection H as _ <-; apply starts_iff in E2 as (r & ->); exists "&lt;", r; simpl; tauto|].
  destruct (starts_with "&gt;" s) eqn:E3; [intro H; injection H as _ <-; apply starts_iff in E3 as (r & ->); exists "&gt;", r; simpl; tauto|].
  destruct (starts_with "&quot;" s) eqn:E4; [intro H; injection H as _ <-; apply starts_iff in E4 as (r & ->); exists "&quot;", r; simpl; tauto|].
  destruct (starts_with "&apos;" s) eqn:E5; [intro H; injection H as _ <-; apply starts_iff in E5 as (r & ->); exists "&apos;", r; simpl; tauto|].
  discriminate.
Qed.

Lemma entity_ref e r : In e references -> exists c, entity (e ++ r) = Some (c, String.length e).
Proof. intros [<-|[<-|[<-|[<-|[<-|[]]]]]]; eexists; reflexivity. Qed.

Lemma decode_skip x : forall r, decode (String.length x) (x ++ r) = decode 0 r.
Proof. induction x as [|c x IH]; intro r; [reflexivity|]. cbn [String.length append decode]. apply IH. Qed.

Lemma ref_head e : In e references -> exists x, e = String "&" x.
Proof. intros [<-|[<-|[<-|[<-|[<-|[]]]]]]; eexists; reflexivity. Qed.

Lemma decode_proper s : decode 0 s <> None <-> proper s.
Proof.
  split.
  - remember (String.length s) as n eqn:L. assert (L' : String.length s <= n) by lia. clear L. revert s L'.
    induction n as [|n IH]; intros s L D.
    + destruct s; [constructor|simpl in L; lia].
    + destruct s as [|a s]; [constructor|]. cbn [String.length] in L. cbn [decode] in D. destruct (Ascii.eqb a "&") eqn:E.
      * destruct (entity (String a s)) as [[c k]|] eqn:N; [|elim (D eq_refl)]. apply entity_some in N as (e & r & I & S & ->).
        destruct (ref_head e I) as (x & ->). rewrite S. apply proper_ref; [exact I|]. cbn [append] in S. injection S as _ S. apply IH.
        -- rewrite S, length_app_s in L. lia.
        -- intro Z. apply D. cbn [String.length]. rewrite Nat.sub_succ, Nat.sub_0_r, S, decode_skip, Z. reflexivity.
      * apply Ascii.eqb_neq in E. apply proper_char; [exact E|]. apply IH; [lia|]. intro Z. apply D. rewrite Z. reflexivity.
  - induction 1 as [|c s N P IH|e s I P IH].
    + discriminate.
    + cbn [decode]. apply Ascii.eqb_neq in N. rewrite N. destruct (decode 0 s); [discriminate|elim (IH eq_refl)].
    + destruct (entity_ref e s I) as (c & En). destruct (ref_head e I) as (x & ->). cbn [append] in *. cbn [decode].
      rewrite Ascii.eqb_refl, En. cbn [String.length]. rewrite Nat.sub_succ, Nat.sub_0_r, decode_skip.
      destruct (decode 0 s); [discriminate|elim (IH eq_refl)].
Qed.

Lemma uncomma_app a b : uncomma (a ++ b) = uncomma a ++ uncomma b.
Proof. induction a as [|c a IH]; [reflexivity|]. cbn [append uncomma]. rewrite IH, app_assoc_s. reflexivity. Qed.

Lemma proper_uncomma s : proper s -> proper (uncomma s).
Proof.
  induction 1 as [|c s N P IH|e s I P IH].
  - constructor.
  - cbn [uncomma]. destruct (Ascii.eqb "," c).
    + cbn [append]. repeat (apply proper_char; [discriminate|]). exact IH.
    + cbn [append]. apply proper_char; auto.
  - rewrite uncomma_app. destruct I as [<-|[<-|[<-|[<-|[<-|[]]]]]]; (apply proper_ref; [vm_compute; tauto|exact IH]).
Qed.

(** The only ampersands are those of references. *)
Lemma proper_amp s : proper s -> forall a r, s = a ++ String "&" r -> exists e r', In e references /\ String "&" r = e ++ r'.
Proof.
  induction 1 as [|c s N P IH|e s I P IH]; intros a r E.
  - destruct a; discriminate.
  - destruct a as [|c' a]; cbn [append] in E; [injection E as -> _; elim (N eq_refl)|]. injection E as _ E. eauto.
  - destruct (app_cut _ _ _ _ E) as [(f & Ee & Er)|(f & Ea & Er)].
    + destruct f as [|f0 f].
      * cbn [append] in Er. apply (IH "" r). symmetry. exact Er.
      * cbn [append] in Er. injection Er as <- Er. destruct a as [|a0 a].
        -- cbn [append] in Ee. exists e, s. split; [exact I|]. rewrite Ee, Er. reflexivity.
        -- exfalso. destruct (ref_head e I) as (x & ->). cbn [append] in Ee. injection Ee as _ Ee.
           assert (H : holds_char "&" x = false) by (destruct I as [I|[I|[I|[I|[I|[]]]]]]; injection I as <-; reflexivity).
           rewrite Ee, holds_app in H. cbn [holds_char] in H. rewrite Ascii.eqb_refl in H. rewrite orb_true_r in H. discriminate H.
    + apply (IH f r). exact Er.
Qed.

Lemma proper_no_comma s : proper s -> ~ occurs "&comma;" s.
Proof.
  intros P (a & b & E). destruct (proper_amp s P a ("comma;" ++ b) E) as (e & r & I & X).
  destruct I as [<-|[<-|[<-|[<-|[<-|[]]]]]]; discriminate X.
Qed.

Lemma proper_no_charref s : proper s -> ~ occurs "&#" s.
Proof.
  intros P (a & b & E). destruct (proper_amp s P a ("#" ++ b) E) as (e & r & I & X).
  destruct I as [<-|[<-|[<-|[<-|[<-|[]]]]]]; discriminate X.
Qed.

(** End-of-line normalisation touches neither commas nor ampersands. *)
Definition is_cr (c : ascii) : bool := Nat.eqb (nat_of_ascii c) 13.
Definition is_lf (c : ascii) : bool := Nat.eqb (nat_of_ascii c) 10.

Definition at_lf (s : string) : bool := match s with "" => false | String b _ => is_lf b end.

Lemma norm_cons c s : norm_eol (String c s) =
  if is_cr c then if at_lf s then norm_eol s else String (ascii_of_nat 10) (norm_eol s) else String c (norm_eol s).
Proof. destruct s; reflexivity. Qed.

Lemma at_lf_uncomma s : at_lf (uncomma s) = at_lf s.
Proof. destruct s as [|b s]; [reflexivity|]. cbn [uncomma]. destruct (Ascii.eqb "," b) eqn:E; [|reflexivity]. apply Ascii.eqb_eq in E. subst b. reflexivity. Qed.

Lemma uncomma_cons c s : Ascii.eqb "," c = false -> uncomma (String c s) = String c (uncomma s).
Proof. intro E. cbn [uncomma]. rewrite E. reflexivity. Qed.

Lemma norm_uncomma s : norm_eol (uncomma s) = uncomma (norm_eol s).
Proof.
  induction s as [|c s IH]; [reflexivity|]. rewrite norm_cons. destruct (Ascii.eqb "," c) eqn:E.
  - apply Ascii.eqb_eq in E. subst c. replace (is_cr ",") with false by reflexivity. cbn [uncomma]. rewrite Ascii.eqb_refl.
    cbn [append]. rewrite !norm_cons. repeat match goal with |- context [is_cr ?x] => replace (is_cr x) with false by reflexivity; cbv iota end.
    rewrite IH. reflexivity.
  - rewrite uncomma_cons by exact E. rewrite norm_cons, at_lf_uncomma. destruct (is_cr c); [destruct (at_lf s)|]; rewrite ?uncomma_cons by (exact E || reflexivity); rewrite IH; reflexivity.
Qed.

(** Nothing without line ends appears or disappears. *)
Lemma norm_prefix x : forall s, (forall c, holds_char c x = true -> is_cr c = false /\ is_lf c = false) -> starts_with x s = true -> starts_with x (norm_eol s) = true.
Proof.
  induction x as [|c x IH]; intros s N S; [reflexivity|]. destruct s as [|b s]; [discriminate S|].
  unfold starts_with in S. cbn [drop_prefix] in S. destruct (Ascii.eqb c b) eqn:E; [|discriminate S]. apply Ascii.eqb_eq in E. subst b.
  rewrite norm_cons. destruct (N c) as [N1 _]; [cbn [holds_char]; rewrite Ascii.eqb_refl; reflexivity|]. rewrite N1.
  unfold starts_with. cbn [drop_prefix]. rewrite Ascii.eqb_refl. apply IH; [|exact S]. intros d Hd. apply N. cbn [holds_char]. rewrite Hd. apply orb_true_r.
Qed.

Lemma norm_contains x s : (forall c, holds_char c x = true -> is_cr c = false /\ is_lf c = false) -> contains x s = true -> contains x (norm_eol s) = true.
Proof.
  intro N. induction s as [|c s IH]; intro H; [exact H|]. cbn [contains] in H. apply orb_prop in H as [H|H].
  - apply (norm_prefix x _ N) in H. destruct (norm_eol (String c s)); cbn [contains]; rewrite H; reflexivity.
  - rewrite norm_cons. destruct (is_cr c); [destruct (at_lf s); [exact (IH H)|]|]; cbn [contains]; rewrite (IH H); apply orb_true_r.
Qed.

Lemma uncomma_prefix x : forall s, holds_char "#" x = false -> starts_with x (uncomma s) = true -> starts_with x s = true.
Proof.
  induction x as [|c x IH]; intros s N S; [reflexivity|]. cbn [holds_char] in N. apply orb_false_elim in N as [N0 N].
  destruct s as [|b s]; [discriminate S|]. cbn [uncomma] in S. destruct (Ascii.eqb "," b).
  - unfold starts_with in S. cbn [append drop_prefix] in S. rewrite N0 in S. discriminate S.
  - unfold starts_with in *. cbn [append drop_prefix] in S |- *. destruct (Ascii.eqb c b); [|discriminate S]. apply IH; auto.
Qed.

Lemma uncomma_contains s : contains "]]>" (uncomma s) = true -> contains "]]>" s = true.
Proof.
  induction s as [|c s IH]; intro H; [exact H|]. cbn [contains]. cbn [uncomma] in H. destruct (Ascii.eqb "," c) eqn:E.
  - rewrite IH; [apply orb_true_r|]. exact H.
  - cbn [append contains] in H. apply orb_prop in H as [H|H]; [|rewrite IH by exact H; apply orb_true_r].
    rewrite (uncomma_prefix "]]>" (String c s)); [reflexivity|reflexivity|]. rewrite uncomma_cons by exact E. exact H.
Qed.

Lemma norm_occurs s : proper (norm_eol s) -> contains "&comma;" s = false /\ contains "&#" s = false.
Proof.
  intro P. split; apply not_true_iff_false; intro H.
  - apply (proper_no_comma _ P), contains_some, norm_contains; [|exact H]. intros c Hc. cbn [holds_char] in Hc.
    repeat (apply orb_prop in Hc as [Hc|Hc]; [apply Ascii.eqb_eq in Hc; subst c; split; reflexivity|]). discriminate Hc.
  - apply (proper_no_charref _ P), contains_some, norm_contains; [|exact H]. intros c Hc. cbn [holds_char] in Hc.
    repeat (apply orb_prop in Hc as [Hc|Hc]; [apply Ascii.eqb_eq in Hc; subst c; split; reflexivity|]). discriminate Hc.
Qed.

Lemma readable_uncomma s : readable s -> readable (uncomma s) /\ replace "&comma;" "," (uncomma s) = uncomma s.
Proof.
  intros [M D]. unfold chardata in D. destruct (contains "]]>" s) eqn:B; [elim (D eq_refl)|]. apply decode_proper in D.
  pose proof (proper_uncomma _ D) as D'. rewrite <- norm_uncomma in D'. destruct (norm_occurs _ D') as [C1 C2]. split; [split|].
  - unfold no_markup in *. rewrite C2. apply andb_prop in M as [M _]. apply negb_true_iff in M. rewrite andb_true_r. apply negb_true_iff.
    rewrite <- uncomma_replace. apply contains_replace; [reflexivity|exact M].
  - unfold chardata. destruct (contains "]]>" (uncomma s)) eqn:B'; [apply uncomma_contains in B'; congruence|]. apply decode_proper. exact D'.
  - apply replace_none. intro O. apply occurs_contains in O. congruence.
Qed.

(** Rewriting the text of a list value keeps it readable. *)
Lemma readable_convert s : readable s -> readable (replace "&comma;" "," (replace "," "##comma##" s)).
Proof. intro H. rewrite uncomma_replace. destruct (readable_uncomma s H) as [A ->]. exact A. Qed.
