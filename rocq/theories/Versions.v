(** * Version numbers: parsing and comparison. *)

From Coq Require Import String Ascii List Bool Arith NArith Lia.
From Verif Require Import Str Xml XPath Utils Base Cybox Stix Lib Spec.
Import ListNotations.
Local Open Scope string_scope.

Lemma sapp_nil_r s : s ++ "" = s.
Proof. induction s as [|a s IH]; simpl; [|rewrite IH]; reflexivity. Qed.

Lemma sapp_assoc a b c : (a ++ b) ++ c = a ++ b ++ c.
Proof. induction a as [|x a IH]; simpl; [|rewrite IH]; reflexivity. Qed.

Fixpoint all_digits (s : string) : bool :=
  match s with "" => true | String a s' => is_digit a && all_digits s' end.

Fixpoint horner (acc : N) (s : string) : N :=
  match s with "" => acc | String a s' => horner (acc * 10 + digit_val a)%N s' end.

Definition no_digit_first (s : string) : bool :=
  match s with "" => true | String a _ => negb (is_digit a) end.

Lemma is_digit_cases a : is_digit a = true -> exists k, k <= 9 /\ a = ascii_of_nat (48 + k).
Proof.
  unfold is_digit. intro H. apply andb_true_iff in H as [H1 H2].
  apply Nat.leb_le in H1, H2. exists (nat_of_ascii a - 48). split; [lia|].
  replace (48 + (nat_of_ascii a - 48)) with (nat_of_ascii a) by lia.
  symmetry. apply ascii_nat_embedding.
Qed.

Lemma digit_is k : k <= 9 ->
  is_digit (ascii_of_nat (48 + k)) = true /\ digit_val (ascii_of_nat (48 + k)) = N.of_nat k.
Proof.
  intro H. unfold is_digit, digit_val. rewrite nat_ascii_embedding by lia.
  split; [|f_equal; lia].
  apply andb_true_iff; split; apply Nat.leb_le; lia.
Qed.

Lemma all_digits_app a b : all_digits (a ++ b) = all_digits a && all_digits b.
Proof. induction a as [|x a IH]; simpl; auto. rewrite IH, andb_assoc. reflexivity. Qed.

Lemma horner_app a b : forall acc, horner acc (a ++ b) = horner (horner acc a) b.
Proof. induction a as [|x a IH]; intro acc; simpl; auto. Qed.

Lemma digits_acc_app s : forall acc r, all_digits s = true -> no_digit_first r = true ->
  digits_acc acc (s ++ r) = (horner acc s, r).
Proof.
  induction s as [|a s IH]; intros acc r Hs Hr; simpl.
  - destruct r as [|b r]; simpl; auto. simpl in Hr. apply negb_true_iff in Hr. rewrite Hr. auto.
  - simpl in Hs. apply andb_true_iff in Hs as [Ha Hs]. rewrite Ha. apply IH; auto.
Qed.

Lemma digits_acc_inv s : forall acc n r, digits_acc acc s = (n, r) ->
  exists d, s = d ++ r /\ all_digits d = true /\ no_digit_first r = true /\ n = horner acc d.
Proof.
  induction s as [|a s IH]; intros acc n r H; simpl in H.
  - inversion H; subst. exists "". auto.
  - destruct (is_digit a) eqn:E.
    + apply IH in H as (d & -> & Hd & Hr & ->). exists (String a d). simpl. rewrite E. auto.
    + inversion H; subst. exists "". simpl. rewrite E. auto.
Qed.

Lemma numeral_horner s n : numeral s n ->
  s <> "" /\ all_digits s = true /\ n = horner 0 s.
Proof.
  induction 1 as [k Hk|s n k Hs (H1 & H2 & H3) Hk].
  - destruct (digit_is k Hk) as [D V]. revert D V. generalize (ascii_of_nat (48 + k)) as c.
    intros c D V. simpl. rewrite D, V. split; [discriminate|]. split; [reflexivity|].
    destruct k; reflexivity.
  - destruct (digit_is k Hk) as [D V]. revert D V. generalize (ascii_of_nat (48 + k)) as c.
    intros c D V. rewrite all_digits_app, horner_app, H2. simpl. rewrite D, V.
    split; [|split; [reflexivity|congruence]].
    destruct s; simpl; [congruence|discriminate].
Qed.

Lemma numeral_extend s' : forall s n, numeral s n -> all_digits s' = true ->
  numeral (s ++ s') (horner n s').
Proof.
  induction s' as [|a s' IH]; intros s n Hn Hd.
  - rewrite sapp_nil_r. exact Hn.
  - simpl in Hd. apply andb_true_iff in Hd as [Ha Hd].
    destruct (is_digit_cases a Ha) as (k & Hk & ->).
    destruct (digit_is k Hk) as [_ V]. cbn [horner]. rewrite V.
    replace (s ++ String (ascii_of_nat (48 + k)) s')
      with ((s ++ String (ascii_of_nat (48 + k)) "") ++ s') by (rewrite sapp_assoc; reflexivity).
    apply IH; auto. apply num_more; auto.
Qed.

Lemma horner_numeral s : s <> "" -> all_digits s = true -> numeral s (horner 0 s).
Proof.
  destruct s as [|a s]; [congruence|]. intros _ H. simpl in H.
  apply andb_true_iff in H as [Ha Hs]. destruct (is_digit_cases a Ha) as (k & Hk & ->).
  destruct (digit_is k Hk) as [_ V]. cbn [horner]. rewrite V.
  apply (numeral_extend s (String (ascii_of_nat (48 + k)) "")); auto.
  replace (0 * 10 + N.of_nat k)%N with (N.of_nat k) by lia. apply num_digit; auto.
Qed.

Lemma digits_numeral s n r : numeral s n -> no_digit_first r = true ->
  digits (s ++ r) = Some (n, r).
Proof.
  intros Hn Hr. apply numeral_horner in Hn as (H1 & H2 & H3).
  pose proof (digits_acc_app s 0 r H2 Hr) as Ha.
  destruct s as [|a s]; [congruence|]. unfold digits. cbn [String.append] in *.
  simpl in H2. apply andb_true_iff in H2 as [Hd _]. rewrite Hd, Ha, H3. reflexivity.
Qed.

Lemma digits_inv s n r : digits s = Some (n, r) ->
  exists d, s = d ++ r /\ numeral d n /\ no_digit_first r = true.
Proof.
  unfold digits. destruct s as [|a s]; [discriminate|].
  destruct (is_digit a) eqn:E; [|discriminate]. intro H. inversion H as [H1]. clear H.
  pose proof (digits_acc_inv (String a s) 0 n r H1) as (d & Ed & Hd & Hr & ->).
  exists d. repeat split; auto. apply horner_numeral; auto.
  intros ->. simpl in Ed. subst r. simpl in Hr. rewrite E in Hr. discriminate.
Qed.

Lemma pre_no_digit p pre e : pre_release p pre -> line_end e -> no_digit_first (p ++ e) = true.
Proof. intros [] []; reflexivity. Qed.

Lemma end_no_digit e : line_end e -> no_digit_first e = true.
Proof. intros []; reflexivity. Qed.

Lemma at_end_iff s : at_end s = true <-> line_end s.
Proof.
  split.
  - destruct s as [|a s]; intro H; [constructor|].
    unfold at_end in H. apply String.eqb_eq in H. rewrite H. constructor.
  - intros []; reflexivity.
Qed.

Lemma sver_pre_ok v p pre e : pre_release p pre -> line_end e ->
  sver_pre v (p ++ e) = Some (SVer v pre).
Proof.
  intros Hp He. destruct Hp as [|s n Hn|s n Hn]; unfold sver_pre.
  - cbn [String.append]. apply at_end_iff in He. rewrite He. reflexivity.
  - replace (at_end (("a" ++ s) ++ e)) with false
      by (destruct s; reflexivity).
    cbn [String.append]. change (Ascii.eqb "a" "a" || Ascii.eqb "a" "b")%bool with true. cbv iota.
    rewrite (digits_numeral s n e Hn (end_no_digit e He)). apply at_end_iff in He. rewrite He. reflexivity.
  - replace (at_end (("b" ++ s) ++ e)) with false
      by (destruct s; reflexivity).
    cbn [String.append]. change (Ascii.eqb "b" "a" || Ascii.eqb "b" "b")%bool with true. cbv iota.
    rewrite (digits_numeral s n e Hn (end_no_digit e He)). apply at_end_iff in He. rewrite He. reflexivity.
Qed.

Lemma sver_pre_inv v s x : sver_pre v s = Some x ->
  exists p pre e, s = p ++ e /\ pre_release p pre /\ line_end e /\ x = SVer v pre.
Proof.
  unfold sver_pre. destruct (at_end s) eqn:E.
  - intro H; inversion H; subst. exists "", None, s. repeat split; [constructor|].
    apply at_end_iff; auto.
  - destruct s as [|c s]; [discriminate|].
    destruct (Ascii.eqb c "a" || Ascii.eqb c "b") eqn:Ec; [|discriminate].
    destruct (digits s) as [[n r]|] eqn:Ed; [|discriminate].
    destruct (at_end r) eqn:Er; [|discriminate].
    intro H; inversion H; subst. apply digits_inv in Ed as (d & -> & Hd & Hr).
    apply at_end_iff in Er. apply orb_true_iff in Ec as [Ec|Ec]; apply Ascii.eqb_eq in Ec; subst c.
    + exists ("a" ++ d), (Some ("a"%char, n)), r. repeat split; auto. constructor; auto.
    + exists ("b" ++ d), (Some ("b"%char, n)), r. repeat split; auto. constructor; auto.
Qed.

Lemma strict_version_iff s v pre :
  strict_version s = Some (SVer v pre) <-> version_number s v pre.
Proof.
  split.
  - unfold strict_version. destruct (digits s) as [[maj r1]|] eqn:E1; [|discriminate].
    apply digits_inv in E1 as (a & -> & Ha & _).
    destruct r1 as [|[[] [] [] [] [] [] [] []] r1]; try discriminate.
    destruct (digits r1) as [[mnr r2]|] eqn:E2; [|discriminate].
    apply digits_inv in E2 as (b & -> & Hb & Hr2).
    assert (G : sver_pre (maj, mnr, 0%N) r2 = Some (SVer v pre) ->
                version_number (a ++ String "." (b ++ r2)) v pre).
    { intro H. apply sver_pre_inv in H as (p & pre' & e & -> & Hp & He & H). inversion H; subst.
      apply (version_2 a b p e); auto. }
    destruct r2 as [|[[] [] [] [] [] [] [] []] r2]; auto.
    destruct (digits r2) as [[pt r3]|] eqn:E3; [|discriminate].
    apply digits_inv in E3 as (c & -> & Hc & _).
    intro H. apply sver_pre_inv in H as (p & pre' & e & -> & Hp & He & H). inversion H; subst.
    apply (version_3 a b c p e); auto.
  - intros [a b p e x y pr Ha Hb Hp He|a b c p e x y z pr Ha Hb Hc Hp He]; unfold strict_version.
    + rewrite (digits_numeral a x ("." ++ b ++ p ++ e) Ha eq_refl). cbn [String.append].
      rewrite (digits_numeral b y (p ++ e) Hb (pre_no_digit p pr e Hp He)).
      pose proof (sver_pre_ok (x, y, 0%N) p pr e Hp He) as G.
      destruct (p ++ e) as [|q pe] eqn:E; auto.
      assert (Hq : q <> "."%char).
      { intros ->. destruct Hp; simpl in E; destruct He; discriminate. }
      destruct q as [[] [] [] [] [] [] [] []]; auto. congruence.
    + rewrite (digits_numeral a x ("." ++ b ++ "." ++ c ++ p ++ e) Ha eq_refl). cbn [String.append].
      rewrite (digits_numeral b y (String "." (c ++ p ++ e)) Hb eq_refl).
      rewrite (digits_numeral c z (p ++ e) Hc (pre_no_digit p pr e Hp He)).
      apply sver_pre_ok; auto.
Qed.

Lemma version_number_fun s v pre v' pre' :
  version_number s v pre -> version_number s v' pre' -> v = v' /\ pre = pre'.
Proof.
  intros H H'. apply strict_version_iff in H, H'. rewrite H in H'. inversion H'; auto.
Qed.

Lemma strict_version_none s : strict_version s = None <-> forall v pre, ~ version_number s v pre.
Proof.
  split.
  - intros H v pre Hv. apply strict_version_iff in Hv. congruence.
  - intro H. destruct (strict_version s) as [[v pre]|] eqn:E; auto.
    apply strict_version_iff in E. exfalso. eapply H; eauto.
Qed.

Lemma version_pre_letter s v c n : version_number s v (Some (c, n)) ->
  c = "a"%char \/ c = "b"%char.
Proof.
  intro H. inversion H as [? ? ? ? ? ? ? ? ? Hp|? ? ? ? ? ? ? ? ? ? ? ? Hp]; subst;
  match goal with H : pre_release _ (Some _) |- _ => inversion H end; auto.
Qed.

Lemma num_compare_spec a b :
  match num_compare a b with Eq => a = b | Lt => num_lt a b | Gt => num_lt b a end.
Proof.
  destruct a as [[a1 a2] a3], b as [[b1 b2] b3]. unfold num_compare, num_lt.
  destruct (N.compare_spec a1 b1); [|lia|lia]. destruct (N.compare_spec a2 b2); [|lia|lia].
  destruct (N.compare_spec a3 b3); [congruence|lia|lia].
Qed.

Lemma num_lt_irrefl a : ~ num_lt a a.
Proof. destruct a as [[a b] c]. unfold num_lt. lia. Qed.

Lemma num_lt_trans a b c : num_lt a b -> num_lt b c -> num_lt a c.
Proof. destruct a as [[? ?] ?], b as [[? ?] ?], c as [[? ?] ?]. unfold num_lt. lia. Qed.

Definition good_pre (p : option (ascii * N)) : Prop :=
  match p with Some (c, _) => c = "a"%char \/ c = "b"%char | None => True end.

Lemma version_good_pre s v p : version_number s v p -> good_pre p.
Proof. destruct p as [[c n]|]; simpl; auto. apply version_pre_letter. Qed.

Lemma sver_compare_spec v p w q : good_pre p -> good_pre q ->
  match sver_compare (SVer v p) (SVer w q) with
  | Eq => v = w /\ p = q
  | Lt => version_lt (v, p) (w, q)
  | Gt => version_lt (w, q) (v, p)
  end.
Proof.
  intros Gp Gq. unfold sver_compare, version_lt. cbn [fst snd sv_num sv_pre].
  pose proof (num_compare_spec v w) as H. destruct (num_compare v w); auto. subst w.
  destruct p as [[c n]|], q as [[d m]|]; cbn [fst snd sv_num sv_pre pre_lt]; auto.
  simpl in Gp, Gq. destruct Gp as [->| ->], Gq as [->| ->].
  - change (Nat.compare (nat_of_ascii "a") (nat_of_ascii "a")) with Eq.
    cbv iota. destruct (N.compare_spec n m); subst; auto 8.
  - change (Nat.compare (nat_of_ascii "a") (nat_of_ascii "b")) with Lt. cbv iota. auto.
  - change (Nat.compare (nat_of_ascii "b") (nat_of_ascii "a")) with Gt. cbv iota. auto.
  - change (Nat.compare (nat_of_ascii "b") (nat_of_ascii "b")) with Eq.
    cbv iota. destruct (N.compare_spec n m); subst; auto 8.
Qed.

Lemma version_lt_irrefl v : ~ version_lt v v.
Proof.
  destruct v as [v [[c n]|]]; unfold version_lt; simpl.
  - intros [H|(_ & [(-> & H)|(_ & H)])]; [eapply num_lt_irrefl; eauto|discriminate|lia].
  - intros [H|(_ & [])]. eapply num_lt_irrefl; eauto.
Qed.

Lemma version_lt_trans u v w : version_lt u v -> version_lt v w -> version_lt u w.
Proof.
  destruct u as [u p], v as [v q], w as [w r]. unfold version_lt; simpl.
  intros [H|(-> & H)] [H'|(-> & H')].
  - left; eapply num_lt_trans; eauto.
  - auto.
  - auto.
  - right; split; auto. destruct p as [[c n]|], q as [[d m]|], r as [[e k]|]; simpl in *; auto;
      try contradiction.
    destruct H as [(-> & ->)|(-> & H)], H' as [(H1 & H2)|(<- & H')]; subst; try discriminate;
      auto. right; split; auto. lia.
Qed.

Lemma is_version_equal_spec x y v p w q :
  version_number x v p -> version_number y w q ->
  (is_version_equal x y = Ok true <-> v = w /\ p = q) /\
  (is_version_equal x y = Ok false <-> (v, p) <> (w, q)).
Proof.
  intros Hx Hy. pose proof (sver_compare_spec v p w q (version_good_pre _ _ _ Hx)
                              (version_good_pre _ _ _ Hy)) as C.
  unfold is_version_equal. apply strict_version_iff in Hx, Hy. rewrite Hx, Hy.
  destruct (sver_compare (SVer v p) (SVer w q)).
  - destruct C as [-> ->]. split; split; auto; try discriminate. intro H; congruence.
  - split; split; intro H; try discriminate; auto.
    + destruct H as [-> ->]. exfalso; eapply version_lt_irrefl; eauto.
    + intro E; inversion E; subst. eapply version_lt_irrefl; eauto.
  - split; split; intro H; try discriminate; auto.
    + destruct H as [-> ->]. exfalso; eapply version_lt_irrefl; eauto.
    + intro E; inversion E; subst. eapply version_lt_irrefl; eauto.
Qed.

Lemma is_version_equal_error x y :
  is_version_equal x y = Err ValueError <->
  (forall v p, ~ version_number x v p) \/ (forall v p, ~ version_number y v p).
Proof.
  rewrite <- !strict_version_none. unfold is_version_equal.
  destruct (strict_version x), (strict_version y); split; intro H; auto; try discriminate;
    destruct H; discriminate.
Qed.

Lemma is_version_equal_cases x y :
  is_version_equal x y = Ok true \/ is_version_equal x y = Ok false \/
  is_version_equal x y = Err ValueError.
Proof.
  unfold is_version_equal. destruct (strict_version x), (strict_version y); auto.
  destruct (sver_compare s s0); auto.
Qed.

Lemma version_equality_full x y :
  (is_version_equal x y = Ok true <->
   exists v p, version_number x v p /\ version_number y v p) /\
  (is_version_equal x y = Ok false <->
   exists v p w q, version_number x v p /\ version_number y w q /\ (v, p) <> (w, q)) /\
  (is_version_equal x y = Err ValueError <->
   (forall v p, ~ version_number x v p) \/ (forall v p, ~ version_number y v p)).
Proof.
  split; [|split; [|apply is_version_equal_error]].
  - split.
    + intro H. unfold is_version_equal in H.
      destruct (strict_version x) as [[v p]|] eqn:Ex; [|discriminate].
      destruct (strict_version y) as [[w q]|] eqn:Ey; [|discriminate].
      apply strict_version_iff in Ex, Ey.
      destruct (is_version_equal_spec x y v p w q Ex Ey) as [[H1 _] _].
      destruct H1 as [-> ->]; [|eauto]. unfold is_version_equal.
      apply strict_version_iff in Ex, Ey. rewrite Ex, Ey. exact H.
    + intros (v & p & Hx & Hy). apply (is_version_equal_spec x y v p v p Hx Hy). auto.
  - split.
    + intro H. destruct (strict_version x) as [[v p]|] eqn:Ex;
        [|unfold is_version_equal in H; rewrite Ex in H; discriminate].
      destruct (strict_version y) as [[w q]|] eqn:Ey;
        [|unfold is_version_equal in H; rewrite Ex, Ey in H; discriminate].
      apply strict_version_iff in Ex, Ey. exists v, p, w, q. repeat split; auto.
      apply (is_version_equal_spec x y v p w q Ex Ey); auto.
    + intros (v & p & w & q & Hx & Hy & N). apply (is_version_equal_spec x y v p w q Hx Hy); auto.
Qed.

Lemma version_lt_total x y v p w q :
  version_number x v p -> version_number y w q ->
  version_lt (v, p) (w, q) \/ (v, p) = (w, q) \/ version_lt (w, q) (v, p).
Proof.
  intros Hx Hy. pose proof (sver_compare_spec v p w q (version_good_pre _ _ _ Hx)
                              (version_good_pre _ _ _ Hy)) as C.
  destruct (sver_compare (SVer v p) (SVer w q)); auto. destruct C; subst; auto.
Qed.

(** The order check made on the two version arguments. *)
Lemma validate_versions_iff from to allowed :
  validate_versions from to allowed = Ok tt <->
  exists a b v p w q, from = Some a /\ to = Some b /\ a <> "" /\ b <> "" /\
    In a allowed /\ In b allowed /\
    version_number a v p /\ version_number b w q /\ version_lt (v, p) (w, q).
Proof.
  unfold validate_versions, validate_version. split.
  - destruct from as [a|]; [|discriminate].
    destruct (negb (truthy (Some a))) eqn:Ta; [discriminate|].
    destruct (mem_str a allowed) eqn:Ma; [|discriminate].
    destruct to as [b|]; [|discriminate].
    destruct (negb (truthy (Some b))) eqn:Tb; [discriminate|].
    destruct (mem_str b allowed) eqn:Mb; [|discriminate].
    destruct (strict_version a) as [[v p]|] eqn:Ea; [|discriminate].
    destruct (strict_version b) as [[w q]|] eqn:Eb; [|discriminate].
    apply strict_version_iff in Ea, Eb. intro H.
    exists a, b, v, p, w, q. apply mem_str_In in Ma, Mb. simpl in Ta, Tb.
    rewrite negb_involutive in Ta, Tb. apply String.eqb_neq in Ta, Tb.
    repeat split; auto.
    pose proof (sver_compare_spec v p w q (version_good_pre _ _ _ Ea)
                  (version_good_pre _ _ _ Eb)) as C.
    destruct (sver_compare (SVer v p) (SVer w q)); auto; discriminate.
  - intros (a & b & v & p & w & q & -> & -> & Na & Nb & Ia & Ib & Ha & Hb & L).
    simpl. apply String.eqb_neq in Na, Nb. rewrite Na, Nb.
    apply mem_str_In in Ia, Ib. rewrite Ia, Ib. simpl.
    pose proof (sver_compare_spec v p w q (version_good_pre _ _ _ Ha)
                  (version_good_pre _ _ _ Hb)) as C.
    apply strict_version_iff in Ha, Hb. rewrite Ha, Hb.
    destruct (sver_compare (SVer v p) (SVer w q)); auto.
    + destruct C; subst. exfalso; eapply version_lt_irrefl; eauto.
    + exfalso. eapply version_lt_irrefl, version_lt_trans; eauto.
Qed.
