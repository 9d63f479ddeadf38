(** * Proofs: what a pasted text is read as. *)

From Coq Require Import String Ascii List Bool Arith Lia.
From Verif Require Import Str Xml XPath Utils Base SpecRead.
Import ListNotations.
Local Open Scope string_scope.

Lemma contains_wider c r s : contains (String c "") s = false -> contains (String c r) s = false.
Proof.
  induction s as [|a s IH]; simpl; auto. unfold starts_with. cbn [drop_prefix].
  destruct (Ascii.eqb c a); simpl; [discriminate|auto].
Qed.

Lemma contains_head c a s : contains (String c "") (String a s) = false -> Ascii.eqb c a = false /\ contains (String c "") s = false.
Proof. cbn [contains]. unfold starts_with. cbn [drop_prefix]. destruct (Ascii.eqb c a); simpl; [discriminate|auto]. Qed.

Lemma contains_cons c r a s : contains (String c r) (String a s) = (Ascii.eqb c a && starts_with r s) || contains (String c r) s.
Proof. cbn [contains]. unfold starts_with. cbn [drop_prefix]. destruct (Ascii.eqb c a); reflexivity. Qed.

Lemma contains_other c r a s : c <> a -> contains (String c r) (String a s) = contains (String c r) s.
Proof. intro N. rewrite contains_cons. destruct (Ascii.eqb_spec c a); [contradiction|reflexivity]. Qed.

Lemma read_no_lt s n : read_as s n -> contains "<" s = false.
Proof. induction 1; auto. rewrite contains_other by congruence. auto. Qed.

Lemma read_no_reference s n : read_as s n -> contains "&#" s = false.
Proof. induction 1; auto. rewrite contains_other by congruence. auto. Qed.

Lemma code_eq c k : k < 256 -> Nat.eqb (nat_of_ascii c) k = true -> c = ascii_of_nat k.
Proof. intros _ H. apply Nat.eqb_eq in H. rewrite <- H. symmetry. apply ascii_nat_embedding. Qed.

Lemma norm_eol_other c s : c <> carriage_return -> norm_eol (String c s) = String c (norm_eol s).
Proof.
  intro N. cbn [norm_eol]. destruct (Nat.eqb (nat_of_ascii c) 13) eqn:E; [|reflexivity]. apply code_eq in E; [contradiction|lia].
Qed.

Lemma read_decode s n : read_as s n -> decode 0 (norm_eol s) = Some n.
Proof.
  induction 1 as [|c s n A B C R IH|c s n N R IH| |s n R IH|s n R IH|s n R IH|s n R IH|s n R IH|s n R IH].
  - reflexivity.
  - rewrite norm_eol_other by auto. cbn [decode]. destruct (Ascii.eqb_spec c "&"); [contradiction|]. rewrite IH. reflexivity.
  - change (norm_eol (String carriage_return (String c s))) with
      (if Nat.eqb (nat_of_ascii c) 10 then norm_eol (String c s) else String line_feed (norm_eol (String c s))).
    destruct (Nat.eqb (nat_of_ascii c) 10) eqn:E; [apply code_eq in E; [contradiction|lia]|].
    change (decode 0 (String line_feed (norm_eol (String c s)))) with (option_map (String line_feed) (decode 0 (norm_eol (String c s)))).
    rewrite IH. reflexivity.
  - reflexivity.
  - change (norm_eol (String carriage_return (String line_feed s))) with (norm_eol (String line_feed s)). exact IH.
  - change (norm_eol ("&amp;" ++ s)) with ("&amp;" ++ norm_eol s).
    change (option_map (String "&") (decode 0 (norm_eol s)) = Some (String "&" n)). rewrite IH. reflexivity.
  - change (norm_eol ("&lt;" ++ s)) with ("&lt;" ++ norm_eol s).
    change (option_map (String "<") (decode 0 (norm_eol s)) = Some (String "<" n)). rewrite IH. reflexivity.
  - change (norm_eol ("&gt;" ++ s)) with ("&gt;" ++ norm_eol s).
    change (option_map (String ">") (decode 0 (norm_eol s)) = Some (String ">" n)). rewrite IH. reflexivity.
  - change (norm_eol ("&quot;" ++ s)) with ("&quot;" ++ norm_eol s).
    change (option_map (String (ascii_of_nat 34)) (decode 0 (norm_eol s)) = Some (String (ascii_of_nat 34) n)). rewrite IH. reflexivity.
  - change (norm_eol ("&apos;" ++ s)) with ("&apos;" ++ norm_eol s).
    change (option_map (String "'") (decode 0 (norm_eol s)) = Some (String "'" n)). rewrite IH. reflexivity.
Qed.

(** Plain text means itself. *)
Lemma read_plain s : plain_text s -> read_as s s.
Proof.
  intros (L & A & _ & C). induction s as [|a s IH]; [constructor|].
  apply contains_head in L as [L1 L], A as [A1 A], C as [C1 C].
  constructor; auto; intros ->; [discriminate A1|discriminate L1|discriminate C1].
Qed.

Lemma read_unique s n m : read_as s n -> read_as s m -> n = m.
Proof. intros A B. apply read_decode in A, B. congruence. Qed.

(** A text read as itself: nothing in it is shortened. *)
Lemma read_shorter s n : read_as s n -> String.length n <= String.length s.
Proof. induction 1; cbn in *; lia. Qed.

Lemma read_fixed s : read_as s s -> contains "<" s = false /\ contains "&" s = false /\ contains (String carriage_return "") s = false.
Proof.
  intro R. split; [exact (read_no_lt s s R)|]. remember s as n eqn:E in R at 2. revert E.
  induction R as [|c s n A B C R IH|c s n N R IH| |s n R IH|s n R IH|s n R IH|s n R IH|s n R IH|s n R IH]; intro E; try discriminate E; auto.
  - injection E as E. destruct (IH E) as [X Y]. rewrite !contains_other by congruence. auto.
  - apply read_shorter in R. rewrite E in R. cbn in R. lia.
  - injection E as E. apply read_shorter in R. rewrite E in R. cbn in R. lia.
Qed.

(** Conversely, what the parser accepts is read. *)
Lemma norm_eol_step c s r : norm_eol s = String c r -> c <> line_feed -> exists s', s = String c s' /\ r = norm_eol s'.
Proof.
  destruct s as [|a s]; [discriminate|]. cbn [norm_eol]. intros E N. destruct (Nat.eqb (nat_of_ascii a) 13) eqn:C.
  - exfalso. destruct s as [|b s]; [apply N; injection E as <- _; reflexivity|].
    destruct (Nat.eqb (nat_of_ascii b) 10) eqn:D; [|injection E as <- _; apply N; reflexivity].
    apply code_eq in D; [|lia]. subst b. change (norm_eol (String (ascii_of_nat 10) s)) with (String line_feed (norm_eol s)) in E.
    injection E as <- _. apply N. reflexivity.
  - injection E as <- <-. exists s. auto.
Qed.

Fixpoint no_feed (p : string) : bool :=
  match p with EmptyString => true | String c p' => negb (Ascii.eqb c line_feed) && no_feed p' end.

Lemma norm_eol_prefix p s r : no_feed p = true -> norm_eol s = p ++ r -> exists s', s = p ++ s' /\ r = norm_eol s'.
Proof.
  revert s. induction p as [|c p IH]; intros s N E; [exists s; auto|]. cbn in N. apply andb_true_iff in N as [N M]. cbn [append] in E.
  apply norm_eol_step in E as (s1 & -> & E); [|intros ->; discriminate N]. symmetry in E. destruct (IH s1 M E) as (s2 & -> & ->). exists s2. auto.
Qed.

Lemma starts_split p s : starts_with p s = true -> exists r, s = p ++ r.
Proof.
  unfold starts_with. revert s. induction p as [|c p IH]; intros s H; [exists s; auto|]. destruct s as [|a s]; [discriminate|].
  cbn [drop_prefix] in H. destruct (Ascii.eqb_spec c a) as [->|]; [|discriminate]. destruct (IH s H) as (r & ->). exists r. reflexivity.
Qed.

Lemma contains_tail p a s : contains p (String a s) = false -> contains p s = false.
Proof. cbn [contains]. intro H. apply orb_false_iff in H. tauto. Qed.

Lemma contains_after p q s : contains p (q ++ s) = false -> contains p s = false.
Proof. induction q as [|a q IH]; auto. cbn [append]. intro H. apply contains_tail in H. auto. Qed.

Lemma decode_read k s n : String.length s <= k -> contains "<" s = false -> decode 0 (norm_eol s) = Some n -> read_as s n.
Proof.
  revert s n. induction k as [|k IH]; intros s n L M D.
  { destruct s; [injection D as <-; constructor|cbn in L; lia]. }
  destruct s as [|c s]; [injection D as <-; constructor|].
  destruct (ascii_dec c carriage_return) as [->|C].
  - apply contains_tail in M. destruct s as [|a s]; [injection D as <-; constructor|].
    destruct (ascii_dec a line_feed) as [->|A].
    + apply read_return_feed. apply IH; auto. cbn in *. lia.
    + change (norm_eol (String carriage_return (String a s))) with
        (if Nat.eqb (nat_of_ascii a) 10 then norm_eol (String a s) else String line_feed (norm_eol (String a s))) in D.
      destruct (Nat.eqb (nat_of_ascii a) 10) eqn:E; [apply code_eq in E; [contradiction|lia]|].
      change (decode 0 (String line_feed (norm_eol (String a s)))) with (option_map (String line_feed) (decode 0 (norm_eol (String a s)))) in D.
      destruct (decode 0 (norm_eol (String a s))) as [m|] eqn:Dm; [|discriminate]. injection D as <-. constructor; auto. apply IH; auto. cbn in *. lia.
  - rewrite norm_eol_other in D by auto. destruct (ascii_dec c "&") as [->|A].
    + assert (Step : forall p ch, no_feed p = true -> String.length p = Nat.pred (S (String.length p)) ->
        starts_with (String "&" p) (String "&" (norm_eol s)) = true ->
        (forall r, decode (String.length p) (p ++ r) = decode 0 r) ->
        option_map (String ch) (decode (String.length p) (norm_eol s)) = Some n ->
        (forall s' m, read_as s' m -> read_as (String "&" p ++ s') (String ch m)) -> read_as (String "&" s) n).
      { intros p ch F _ St Sk Dd Rd. change (starts_with (String "&" p) (String "&" (norm_eol s))) with (starts_with p (norm_eol s)) in St.
        apply starts_split in St as (r & Er). destruct (norm_eol_prefix p s r F Er) as (s' & -> & ->). rewrite Er, Sk in Dd.
        destruct (decode 0 (norm_eol s')) as [m|] eqn:Dm; [|discriminate]. injection Dd as <-. apply (Rd s' m). apply IH; auto.
        - revert L. cbn [String.length]. clear. induction p; cbn; lia.
        - apply contains_tail, contains_after in M. exact M. }
      cbn [decode Ascii.eqb Bool.eqb] in D. unfold entity in D.
      destruct (starts_with "&amp;" _) eqn:S1; [apply (Step "amp;" "&"%char); auto; intros; apply (read_amp _ _ H)|].
      destruct (starts_with "&lt;" _) eqn:S2; [apply (Step "lt;" "<"%char); auto; intros; apply (read_lt _ _ H)|].
      destruct (starts_with "&gt;" _) eqn:S3; [apply (Step "gt;" ">"%char); auto; intros; apply (read_gt _ _ H)|].
      destruct (starts_with "&quot;" _) eqn:S4; [apply (Step "quot;" (ascii_of_nat 34)); auto; intros; apply (read_quot _ _ H)|].
      destruct (starts_with "&apos;" _) eqn:S5; [apply (Step "apos;" "'"%char); auto; intros; apply (read_apos _ _ H)|].
      discriminate.
    + cbn [decode] in D. destruct (Ascii.eqb_spec c "&"); [contradiction|].
      destruct (decode 0 (norm_eol s)) as [m|] eqn:Dm; [|discriminate]. injection D as <-. constructor; auto.
      * intros ->. discriminate M.
      * apply IH; auto; [cbn in *; lia|apply contains_tail in M; exact M].
Qed.

Lemma parse_readable o b s t : contains "<" s = false -> contains "&#" s = false -> parse_source o b s = Some t ->
  contains "]]>" s = false /\ exists n, read_as s n.
Proof.
  intros L A H. unfold parse_source, no_markup in H. rewrite L, A in H. cbn [negb andb] in H. unfold chardata in H.
  destruct (contains "]]>" s); [discriminate|]. split; auto. destruct (decode 0 (norm_eol s)) as [n|] eqn:D; [|discriminate].
  exists n. eapply decode_read; eauto.
Qed.

Lemma parse_read o b s n : contains "]]>" s = false -> read_as s n -> parse_source o b s =
  Some (if b then source_tree (qn NS_INDICATOR_2 "Source") [(Some "indicator", NS_INDICATOR_2)] [(Some "stixCommon", NS_COMMON_1)] n
        else source_tree (qn NS_COMMON_1 "Source") [(Some "stixCommon", NS_COMMON_1)] [] n).
Proof.
  intros B R. unfold parse_source, no_markup. rewrite (read_no_lt s n R), (read_no_reference s n R). cbn [negb andb].
  unfold chardata. rewrite B, (read_decode s n R). reflexivity.
Qed.

(** The two conditions of the parser, in these terms. *)
Lemma no_markup_iff s : no_markup s = true <-> without_tags s.
Proof. unfold no_markup, without_tags. rewrite andb_true_iff, !negb_true_iff. tauto. Qed.

Lemma chardata_read s n : contains "<" s = false -> (chardata s = Some n <-> source_name (Some s) n).
Proof.
  intro L. unfold chardata, source_name. destruct (contains "]]>" s).
  - split; [discriminate|intros [? _]; discriminate].
  - split; [intro D; split; auto; eapply decode_read; eauto|intros [_ R]; apply read_decode; auto].
Qed.

Lemma readable_iff s : no_markup s = true /\ chardata s <> None <-> without_tags s /\ exists name, source_name (Some s) name.
Proof.
  rewrite no_markup_iff. split; intros [W H]; (split; [exact W|]).
  - destruct (chardata s) as [n|] eqn:C; [|contradiction]. exists n. apply chardata_read; auto. apply W.
  - destruct H as [n H]. apply chardata_read in H; [|apply W]. rewrite H. discriminate.
Qed.
