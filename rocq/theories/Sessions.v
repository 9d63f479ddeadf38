(** * Any number of calls, whatever becomes of them *)

From Coq Require Import String Ascii List Bool Arith Lia.
From Verif Require Import Str Xml XPath Utils Base Tables Cybox Stix Ramrod Spec SpecDoc SpecPass SpecStep SpecCheck SpecClean SpecUpdate
  Lib Frame Refine RefineBase RefineTrans RefineCheck RefineClean RefineUpdate SpecSession Api NoFail Updates.
From Verif Require Kept Switches.
Import ListNotations.
Local Open Scope string_scope.

(** ** The memory stays well-formed, also when a step fails half-way *)

Import Kept.

Section Sound.
  Definition rooted (j : nat) (s : st) : Prop := exists T, In T (heap s) /\ tid T = j.

  Definition kept (s s' : st) : Prop := wf_state s' /\ forall j, rooted j s -> rooted j s'.

  Definition keeps {A} (m : M A) : Prop := forall s, wf_state s -> kept s (snd (m s)).

  Lemma kept_refl s : wf_state s -> kept s s.
  Proof. intro W. split; auto. Qed.

  Lemma kept_trans s s1 s2 : kept s s1 -> kept s1 s2 -> kept s s2.
  Proof. intros [A B] [C D]. split; auto. Qed.

  Lemma keeps_peeks {A} (m : M A) : peeks m -> keeps m.
  Proof. intros R s W. rewrite R. apply kept_refl; auto. Qed.

  Lemma keeps_bind {A B} (m : M A) (k : A -> M B) : keeps m -> (forall a, keeps (k a)) -> keeps (bind m k).
  Proof.
    intros Hm Hk s W. rewrite bind_run. specialize (Hm s W). destruct (m s) as [[a|e] s1]; simpl in *; [|exact Hm].
    eapply kept_trans; [exact Hm|]. apply Hk; apply Hm.
  Qed.

  Lemma keeps_for_each {A} (l : list A) f : (forall x, keeps (f x)) -> keeps (for_each l f).
  Proof.
    intro H. induction l as [|x l IH]; simpl; [apply keeps_peeks, peeks_ret|]. apply keeps_bind; auto.
  Qed.

  Lemma keeps_when (b : bool) (m : M unit) : keeps m -> keeps (if b then m else ret tt).
  Proof. intro H. destruct b; [exact H|apply keeps_peeks, peeks_ret]. Qed.

  Lemma keeps_modify j f : keeps_id f -> keeps (modify j f).
  Proof.
    intros K s [W1 W2]. unfold modify. cbn [snd].
    assert (Eh : hids (map (tset j f) (heap s)) = hids (heap s)).
    { apply hids_map_same. intros t _. apply tset_ids. exact K. }
    split.
    - split; simpl; fold (hids (map (tset j f) (heap s))); rewrite Eh; auto.
    - intros k (T & HT & <-). exists (tset j f T). split; [simpl; apply in_map; auto|]. apply tset_tid. exact K.
  Qed.

  Lemma kept_same s s1 : heap s1 = heap s -> next s <= next s1 -> wf_state s -> kept s s1.
  Proof.
    intros E L [W1 W2]. split.
    - split; rewrite E; auto. intros j Hj. apply W2 in Hj. lia.
    - intros j (T & HT & R). exists T. rewrite E. auto.
  Qed.

  Lemma kept_supplant s j new : wf_state s -> loose new s -> kept s (snd (supplant j new s)).
  Proof.
    intros W L. unfold supplant. rewrite bind_run. unfold deref. destruct (hfind j (heap s)) as [[a x]|] eqn:Hf; [|apply kept_refl; auto].
    apply hfind_some in Hf as (X & HX & Hx & Ex). simpl in Ex. destruct a as [|p a]; [apply kept_refl; auto|]. cbn [parent snd fst].
    assert (Lx : located s (p :: a) x) by (exists X; auto). subst j.
    change (kept s (St (map (tsubst (tid x) new) (heap s) ++ [x])%list (next s) (gen s))).
    split; [apply (supplant_wf s p a x new W Lx L)|].
    intros k (T & HT & <-). exists (tsubst (tid x) new T). split; [|apply tsubst_tid]. simpl. apply in_app_iff. left. apply in_map. exact HT.
  Qed.

  Lemma keeps_replace m j : makes m -> keeps (new <- m ;; replace_xml_element j new).
  Proof.
    intros Hm s W. rewrite bind_run. specialize (Hm s). destruct (m s) as [[t|e] s1].
    - assert (K : kept s s1) by (apply kept_same; auto; apply Hm).
      eapply kept_trans; [exact K|]. apply kept_supplant; [apply K|]. exact (builds_loose s [t] s1 W Hm).
    - apply kept_same; auto; apply Hm.
  Qed.

  Lemma keeps_remove j : keeps (remove_xml_element j).
  Proof. intros s W. apply kept_supplant; auto. split; [constructor|]. intros k []. Qed.

  Lemma keeps_translate_node o ns k j : keeps (translate_node o ns k j).
  Proof.
    destruct k; simpl.
    - apply keeps_replace, makes_default.
    - apply keeps_modify. intro; reflexivity.
    - apply keeps_replace, makes_elem, makes_copy_element.
    - apply keeps_replace, makes_contributors.
    - apply keeps_replace, makes_source.
    - apply keeps_replace, makes_source.
    - apply keeps_replace, makes_elem, makes_copy_element.
    - unfold mailslot_replace. apply keeps_bind; [apply keeps_peeks, peeks_deref|]. intro c.
      destruct (parent c) as [p|].
      + apply keeps_replace, makes_copy_element.
      + intros s W. rewrite bind_run. pose proof (makes_copy_element j (Some new_tag) s) as B.
        destruct (copy_xml_element j (Some new_tag) s) as [[t|e] s1]; simpl; apply kept_same; auto; apply B.
  Qed.

  Lemma keeps_translate_fields o u r : keeps (translate_fields o u r).
  Proof.
    apply keeps_for_each. intro f. unfold translate. apply keeps_bind; [apply keeps_peeks, peeks_xpath|]. intro l.
    apply keeps_for_each. intro j. apply keeps_translate_node.
  Qed.

  Ltac keeping :=
    repeat first
      [ apply keeps_for_each; intro | apply keeps_bind; [|intro]
      | apply keeps_modify; intro; reflexivity
      | match goal with |- keeps (match ?x with _ => _ end) => destruct x end
      | apply keeps_peeks; first [apply peeks_ret | apply peeks_raise | apply peeks_liftr | apply peeks_deref | apply peeks_get_hdr | apply peeks_xpath
                                 | apply peeks_type_info | apply peeks_ext | apply peeks_typed | apply peeks_dfind ] ].

  Lemma keeps_vocabs u r : keeps (update_vocabs u r).
  Proof.
    unfold update_vocabs. apply keeps_bind; [apply keeps_peeks, peeks_typed|]. intro ty. apply keeps_for_each. intro w.
    unfold vocab_update. apply keeps_bind.
    - apply keeps_peeks. unfold vocab_find. apply peeks_filter_m. intro j. apply peeks_bind; [apply peeks_type_info|]. intro.
      apply peeks_bind; [apply peeks_ext|]. intro. apply peeks_ret.
    - intro l. apply keeps_for_each. intro j. unfold vocab_update_node, set_pystr. keeping.
  Qed.

  Lemma keeps_optionals o u r : keeps (update_optionals o u r).
  Proof.
    unfold update_optionals. apply keeps_bind; [apply keeps_peeks, peeks_typed|]. intro ty.
    apply keeps_bind.
    - apply keeps_for_each. intro d. apply keeps_bind; [apply keeps_peeks, peeks_dfind|]. intro l. apply keeps_for_each. apply keeps_remove.
    - intro. apply keeps_for_each. intro d. apply keeps_bind; [apply keeps_peeks, peeks_dfind|]. intro l. apply keeps_for_each. intro i.
      unfold remove_xml_attributes. keeping.
  Qed.

  Lemma keeps_schemalocs u r : keeps (update_schemalocs u r).
  Proof. unfold update_schemalocs. keeping. Qed.

  Lemma keeps_stix_versions u a b r : keeps (stix_update_versions u a b r).
  Proof. unfold stix_update_versions, get_versioned_nodes. keeping. Qed.
  Lemma keeps_cybox_2_0_versions u r : keeps (cybox_2_0_update_versions u r).
  Proof. unfold cybox_2_0_update_versions, get_versioned_nodes. keeping. Qed.
  Lemma keeps_cybox_2_0_1_versions u r : keeps (cybox_2_0_1_update_versions u r).
  Proof. unfold cybox_2_0_1_update_versions, get_versioned_nodes. keeping. Qed.
  Lemma keeps_lists u r : keeps (update_lists u r).
  Proof. unfold update_lists. keeping. Qed.

  Definition keeps_from (m : nat -> M nat) : Prop := forall s j, wf_state s -> rooted j s ->
    kept s (snd (m j s)) /\ forall r, fst (m j s) = Ok r -> rooted r (snd (m j s)).

  Lemma from_seq (m : nat -> M unit) k : (forall j, keeps (m j)) -> keeps_from k -> keeps_from (fun j => m j ;;; k j).
  Proof.
    intros Hm Hk s j W R. rewrite bind_run. specialize (Hm j s W). destruct (m j s) as [[a|e] s1]; simpl in *.
    - destruct Hm as [W1 R1]. destruct (Hk s1 j W1 (R1 j R)) as [A B]. split; auto.
      eapply kept_trans; [|exact A]. split; auto.
    - split; [exact Hm|discriminate].
  Qed.

  Lemma from_bind m k : keeps_from m -> keeps_from k -> keeps_from (fun j => r <- m j ;; k r).
  Proof.
    intros Hm Hk s j W R. rewrite bind_run. destruct (Hm s j W R) as [A B]. destruct (m j s) as [[r|e] s1]; simpl in *.
    - destruct A as [W1 R1]. destruct (Hk s1 r W1 (B r eq_refl)) as [A' B']. split; auto.
      eapply kept_trans; [|exact A']. split; auto.
    - split; [exact A|discriminate].
  Qed.

  Lemma from_ret : keeps_from (fun j => ret j).
  Proof. intros s j W R. split; [apply kept_refl; auto|]. intros r E. injection E as <-. exact R. Qed.

  Lemma from_namespaces u : keeps_from (update_namespaces u).
  Proof.
    intros s j W (T & HT & <-).
    destruct (upd_ns_fails u T) eqn:Fa.
    { unfold update_namespaces. rewrite bind_run, (deref_root s T) by auto. cbn [fst snd]. rewrite Fa. split; [apply kept_refl; auto|discriminate]. }
    pose proof (update_namespaces_computes u s T W HT) as C. unfold namespaces_pass in C. rewrite stuck_erase, <- upd_ns_stuck, Fa in C.
    destruct C as (T' & s' & E & S' & _).
    assert (Es : snd (update_namespaces u (tid T) s) = s') by (rewrite E; reflexivity).
    assert (Hp : heap s' = (map (fun t => if Nat.eqb (tid t) (tid T) then fst (upd_ns u [] T (next s)) else t) (heap s) ++ husks u T)%list).
    { rewrite <- Es. unfold update_namespaces. rewrite bind_run, (deref_root s T) by auto. cbn [fst snd]. rewrite Fa.
      destruct (upd_ns u [] T (next s)); reflexivity. }
    assert (Row : forall X, In X (heap s) -> X <> T -> In X (heap s')) by apply (st_frame _ _ _ _ S').
    assert (New : In (fst (upd_ns u [] T (next s))) (heap s')).
    { rewrite Hp. apply in_app_iff. left. apply in_map_iff. exists T. rewrite Nat.eqb_refl. auto. }
    rewrite E. cbn [fst snd]. split; [split; [apply (st_wf _ _ _ _ S')|]|].
    - intros k (X & HX & <-). destruct (Nat.eq_dec (tid X) (tid T)) as [D|D].
      + rewrite D. clear X HX D. destruct T as [h ks].
        destruct (ns_listed u (Node h ks)) eqn:Q.
        * exists (Node h []). split; [|reflexivity]. rewrite Hp. apply in_app_iff. right. cbn [husks]. rewrite Q. left. reflexivity.
        * eexists. split; [exact New|]. rewrite upd_ns_node. destruct (upd_kids _ _ _ _) as [ks' m]. rewrite Q. reflexivity.
      + exists X. split; auto. apply Row; auto. congruence.
    - intros r Er. injection Er as <-. exists T'. split; auto. apply (st_in _ _ _ _ S').
  Qed.

  Lemma from_last (m : nat -> M unit) : (forall j, keeps (m j)) -> keeps_from (fun j => m j ;;; ret j).
  Proof. intro H. apply from_seq; [exact H|apply from_ret]. Qed.

  Lemma from_cybox_2_0 u opts : keeps_from (fun j => cybox_2_0_do_update u j opts).
  Proof.
    unfold cybox_2_0_do_update.
    apply (from_seq (update_schemalocs u)); [apply keeps_schemalocs|].
    apply (from_seq (cybox_2_0_update_versions u)); [apply keeps_cybox_2_0_versions|].
    apply (from_seq (update_lists u)); [apply keeps_lists|].
    apply from_last. intro j. apply keeps_when, keeps_vocabs.
  Qed.

  Lemma from_cybox_2_0_1 o u opts : keeps_from (fun j => cybox_2_0_1_do_update o u j opts).
  Proof.
    unfold cybox_2_0_1_do_update. apply (from_bind (update_namespaces u)); [apply from_namespaces|].
    apply (from_seq (update_schemalocs u)); [apply keeps_schemalocs|].
    apply (from_seq (cybox_2_0_1_update_versions u)); [apply keeps_cybox_2_0_1_versions|].
    apply (from_seq (translate_fields o u)); [apply keeps_translate_fields|].
    apply (from_seq (fun j => if update_vocabularies opts then update_vocabs u j else ret tt)); [intro; apply keeps_when, keeps_vocabs|].
    apply from_last. intro j. apply keeps_when, keeps_optionals.
  Qed.

  Lemma from_stix_1_0 opts : keeps_from (fun j => stix_1_0_do_update j opts).
  Proof.
    unfold stix_1_0_do_update. apply (from_bind (fun j => cybox_2_0_do_update Cybox_in_1_0 j opts)); [apply from_cybox_2_0|].
    apply (from_bind (update_namespaces STIX_1_0)); [apply from_namespaces|].
    apply (from_seq (update_schemalocs STIX_1_0)); [apply keeps_schemalocs|].
    apply (from_seq (stix_update_versions STIX_1_0 "2.0.1" "1.0.1")); [apply keeps_stix_versions|].
    apply from_last. intro j. apply keeps_when, keeps_vocabs.
  Qed.

  Lemma from_stix_1_0_1 o opts : keeps_from (fun j => stix_1_0_1_do_update o j opts).
  Proof.
    unfold stix_1_0_1_do_update.
    apply (from_bind (fun j => cybox_2_0_1_do_update o Cybox_in_1_0_1 j opts)); [apply from_cybox_2_0_1|].
    apply (from_bind (update_namespaces STIX_1_0_1)); [apply from_namespaces|].
    apply (from_seq (update_schemalocs STIX_1_0_1)); [apply keeps_schemalocs|].
    apply (from_seq (stix_update_versions STIX_1_0_1 "2.1" "1.1")); [apply keeps_stix_versions|].
    apply (from_seq (translate_fields o STIX_1_0_1)); [apply keeps_translate_fields|].
    apply (from_seq (fun j => if update_vocabularies opts then update_vocabs STIX_1_0_1 j else ret tt)); [intro; apply keeps_when, keeps_vocabs|].
    apply from_last. intro j. apply keeps_when, keeps_optionals.
  Qed.

  Lemma from_stix_1_1 o opts : keeps_from (fun j => stix_1_1_do_update o j opts).
  Proof.
    unfold stix_1_1_do_update.
    apply (from_seq (update_schemalocs Cybox_2_0_1)); [apply keeps_schemalocs|].
    apply (from_seq (update_schemalocs STIX_1_1)); [apply keeps_schemalocs|].
    apply (from_seq (stix_update_versions STIX_1_1 "2.1.1" "1.1.1")); [apply keeps_stix_versions|].
    apply (from_seq (translate_fields o STIX_1_1)); [apply keeps_translate_fields|].
    apply (from_seq (fun j => if update_vocabularies opts then update_vocabs STIX_1_1 j else ret tt)); [intro; apply keeps_when, keeps_vocabs|].
    apply from_last. intro j. apply keeps_when, keeps_optionals.
  Qed.

  Lemma from_stix_1_1_1 opts : keeps_from (fun j => stix_1_1_1_do_update j opts).
  Proof.
    unfold stix_1_1_1_do_update.
    apply (from_seq (update_schemalocs STIX_1_1_1)); [apply keeps_schemalocs|].
    apply (from_seq (stix_update_versions STIX_1_1_1 "2.2" "1.2")); [apply keeps_stix_versions|].
    apply from_last. intro j. apply keeps_when, keeps_vocabs.
  Qed.

  Lemma from_stix_1_2 opts : keeps_from (fun j => stix_1_2_do_update j opts).
  Proof.
    unfold stix_1_2_do_update. apply (from_bind (update_namespaces STIX_1_2)); [apply from_namespaces|].
    apply (from_seq (update_schemalocs STIX_1_2)); [apply keeps_schemalocs|].
    apply (from_last (fun j => modify j (hset_attr (lq "version") "1.2.1"))). intro j.
    apply keeps_modify. intro; reflexivity.
  Qed.

  (** *** Taking out disallowed nodes *)
  Lemma keeps_clean_disallowed l : keeps (clean_disallowed l).
  Proof.
    induction l as [|j l IH]; [apply keeps_peeks, peeks_ret|]. unfold clean_disallowed. cbn [map_m].
    apply keeps_bind; [|intro; apply keeps_bind; [exact IH|intro; apply keeps_peeks, peeks_ret]].
    intros s W. rewrite bind_run. pose proof (makes_copy_element j None s) as B.
    destruct (copy_xml_element j None s) as [[t|e] s1]; [|apply kept_same; auto; apply B].
    assert (K1 : kept s s1) by (apply kept_same; auto; apply B).
    eapply kept_trans; [exact K1|]. destruct K1 as [W1 _].
    rewrite bind_run. pose proof (keeps_remove j s1 W1) as K2.
    destruct (remove_xml_element j s1) as [[[]|e] s2] eqn:E2; [|exact K2].
    eapply kept_trans; [exact K2|]. destruct K2 as [W2 _]. simpl in *.
    assert (N2 : next s2 = next s1).
    { revert E2. unfold remove_xml_element, supplant. rewrite bind_run. unfold deref. destruct (hfind j (heap s1)) as [[b y]|]; [|discriminate].
      destruct (parent (b, y)); intro Q; injection Q as <-; reflexivity. }
    destruct (builds_loose s [t] s1 W B) as [L1 L2]. destruct W2 as [W2 W3].
    split; [split; simpl|].
    - fold (hids (heap s2 ++ [t])). rewrite hids_app. apply NoDup_app. split; auto. split; [exact L1|].
      intros k Hk Hk'. destruct (L2 k Hk') as [_ L]. apply L. eapply remove_ids_incl; eauto.
    - intros k Hk. fold (hids (heap s2 ++ [t])) in Hk. rewrite hids_app in Hk. apply in_app_iff in Hk as [Hk|Hk]; auto.
      destruct (L2 k Hk) as [L _]. lia.
    - intros k (X & HX & Ek). exists X. split; auto. simpl. apply in_app_iff. auto.
  Qed.
End Sound.

Lemma keeps_new_ids opts d : keeps (clean_duplicates opts d).
Proof.
  unfold clean_duplicates. apply keeps_bind; [|intro; apply keeps_peeks, peeks_ret]. apply keeps_for_each. intro kv. apply keeps_for_each. intro i.
  unfold apply_new_id. apply keeps_bind; [apply keeps_peeks, peeks_get_hdr|]. intro h. destruct (attr_get _ _) as [v|]; [|apply keeps_peeks, peeks_raise].
  intros s0 W. set (s1 := St (heap s0) (next s0) (S (gen s0))). apply (kept_trans s0 s1); [apply kept_same; auto|].
  apply (keeps_modify i (hset_attr (lq "id") (new_id_func opts (gen s0) v))); [intro; reflexivity|exact W].
Qed.

Ltac looks :=
  repeat lazymatch goal with
  | |- keeps (for_each _ _) => apply keeps_for_each; intro
  | |- keeps (bind _ _) => apply keeps_bind; [|intro]
  | |- keeps (match ?x with _ => _ end) => destruct x
  | |- keeps (ret _) => apply keeps_peeks, peeks_ret
  | |- keeps (raise _) => apply keeps_peeks, peeks_raise
  | |- keeps (liftr _) => apply keeps_peeks, peeks_liftr
  | |- keeps (deref _) => apply keeps_peeks, peeks_deref
  | |- keeps (get_hdr _) => apply keeps_peeks, peeks_get_hdr
  | |- keeps (xpath _ _ _) => apply keeps_peeks, peeks_xpath
  | |- keeps (find_disallowed _ _ _ _) => apply keeps_peeks, peeks_find_disallowed
  | |- keeps (cybox_node_version _) => apply keeps_peeks, peeks_cybox_version
  | |- keeps (stix_node_version _) => apply keeps_peeks, peeks_stix_version
  end.

Lemma keeps_cybox_check u r : keeps (cybox_check_version u r).
Proof. unfold cybox_check_version, get_root_nodes. looks. Qed.
Lemma keeps_stix_check u r : keeps (stix_check_version u r).
Proof. unfold stix_check_version, get_root_nodes. looks. Qed.
Lemma keeps_dups u r : keeps (get_duplicates u r).
Proof. unfold get_duplicates. looks. Qed.
Lemma keeps_report l d : keeps (report l d).
Proof. unfold report. looks. Qed.

(** What the methods of the classes do to the memory. *)
Record steady (up : updater) : Prop := Steady {
  sd_check : forall r opts, keeps (up_check up r opts);
  sd_update : forall opts, keeps_from (fun r => up_update up r opts);
  sd_disallowed : forall r, keeps (up_get_disallowed up r);
  sd_duplicates : forall r, keeps (up_get_duplicates up r);
  sd_clean : forall l opts, keeps (up_clean_disallowed up l opts);
  sd_ids : forall d opts, keeps (up_clean_duplicates up d opts)
}.

Lemma keeps_raise_any {A} e : keeps (raise e : M A).
Proof. apply keeps_peeks, peeks_raise. Qed.
Lemma keeps_ret_any {A} (a : A) : keeps (ret a).
Proof. apply keeps_peeks, peeks_ret. Qed.

Lemma keeps_dis_1_0 o r : keeps (stix_1_0_get_disallowed o r).
Proof. unfold stix_1_0_get_disallowed. looks. Qed.
Lemma keeps_dis_1_0_1 o r : keeps (stix_1_0_1_get_disallowed o r).
Proof. unfold stix_1_0_1_get_disallowed, cybox_2_0_1_get_disallowed. looks. Qed.
Lemma keeps_dis_cybox o u r : keeps (cybox_2_0_1_get_disallowed o u r).
Proof. unfold cybox_2_0_1_get_disallowed. looks. Qed.
Lemma keeps_dup_1_0_1 r : keeps (stix_1_0_1_get_duplicates r).
Proof. unfold stix_1_0_1_get_duplicates. looks; apply keeps_dups. Qed.

Lemma steady_1_0 o : steady (STIX_1_0_Updater o).
Proof.
  split; intros; unfold STIX_1_0_Updater; cbn [up_check up_update up_get_disallowed up_get_duplicates up_clean_disallowed up_clean_duplicates];
    [|apply from_stix_1_0| | |apply keeps_clean_disallowed|]; unfold stix_1_0_check; looks;
    first [apply keeps_stix_check | apply keeps_cybox_check | apply keeps_dis_1_0].
Qed.

Lemma steady_1_0_1 o : steady (STIX_1_0_1_Updater o).
Proof.
  split; intros; unfold STIX_1_0_1_Updater; cbn [up_check up_update up_get_disallowed up_get_duplicates up_clean_disallowed up_clean_duplicates];
    [|apply from_stix_1_0_1| | |apply keeps_clean_disallowed|apply keeps_new_ids]; unfold stix_1_0_1_check; looks;
    first [apply keeps_stix_check | apply keeps_cybox_check | apply keeps_dis_1_0_1 | apply keeps_dup_1_0_1 | apply keeps_report].
Qed.

Lemma steady_1_1 o : steady (STIX_1_1_Updater o).
Proof.
  split; intros; unfold STIX_1_1_Updater; cbn [up_check up_update up_get_disallowed up_get_duplicates up_clean_disallowed up_clean_duplicates];
    [|apply from_stix_1_1| | | |]; unfold stix_1_1_check; looks; apply keeps_stix_check.
Qed.

Lemma steady_1_1_1 : steady STIX_1_1_1_Updater.
Proof.
  split; intros; unfold STIX_1_1_1_Updater; cbn [up_check up_update up_get_disallowed up_get_duplicates up_clean_disallowed up_clean_duplicates];
    [|apply from_stix_1_1_1| | | |]; unfold stix_1_1_1_check; looks; apply keeps_stix_check.
Qed.

Lemma steady_1_2 : steady STIX_1_2_Updater.
Proof.
  split; intros; unfold STIX_1_2_Updater; cbn [up_check up_update up_get_disallowed up_get_duplicates up_clean_disallowed up_clean_duplicates];
    [|apply from_stix_1_2| | | |]; unfold stix_1_2_check; looks; first [apply keeps_stix_check | apply keeps_dups].
Qed.

Lemma steady_cybox_2_0 : steady Cybox_2_0_Updater.
Proof.
  split; intros; unfold Cybox_2_0_Updater; cbn [up_check up_update up_get_disallowed up_get_duplicates up_clean_disallowed up_clean_duplicates];
    [|apply from_cybox_2_0| | | |]; unfold cybox_2_0_check; looks; apply keeps_cybox_check.
Qed.

Lemma steady_cybox_2_0_1 o : steady (Cybox_2_0_1_Updater o).
Proof.
  split; intros; unfold Cybox_2_0_1_Updater; cbn [up_check up_update up_get_disallowed up_get_duplicates up_clean_disallowed up_clean_duplicates];
    [|apply from_cybox_2_0_1| | |apply keeps_clean_disallowed|apply keeps_new_ids]; unfold cybox_2_0_1_check; looks;
    first [apply keeps_cybox_check | apply keeps_dis_cybox | apply keeps_dups | apply keeps_report].
Qed.

Lemma shipped_steady o up : In up (map snd (STIX_UPDATERS o) ++ map snd (CYBOX_UPDATERS o)) -> steady up.
Proof.
  simpl. intros [<-|[<-|[<-|[<-|[<-|[<-|[<-|[]]]]]]]];
    [apply steady_1_0|apply steady_1_0_1|apply steady_1_1|apply steady_1_1_1|apply steady_1_2|apply steady_cybox_2_0|apply steady_cybox_2_0_1].
Qed.

Lemma kept_push s t : wf_state s -> loose [t] s -> kept s (snd (push t s)) /\ forall r, fst (push t s) = Ok r -> rooted r (snd (push t s)).
Proof.
  intros [W1 W2] [L1 L2]. simpl in *. rewrite app_nil_r in *. split.
  - split.
    + split; cbn [heap next].
      * fold (hids (heap s ++ [t])). rewrite hids_app. apply NoDup_app. split; auto. cbn. rewrite app_nil_r. split; auto.
        intros k Hk Hk'. destruct (L2 k Hk') as [_ L]. contradiction.
      * intros k Hk. fold (hids (heap s ++ [t])) in Hk. rewrite hids_app in Hk. apply in_app_iff in Hk as [Hk|Hk]; auto.
        cbn in Hk. rewrite app_nil_r in Hk. apply L2 in Hk. tauto.
    + intros k (X & HX & Ek). exists X. split; auto. simpl. apply in_app_iff. auto.
  - intros r E. injection E as <-. exists t. split; auto. simpl. apply in_app_iff. right. left. reflexivity.
Qed.

(** A new document. *)
Lemma kept_new t s : wf_state s ->
  kept s (snd ((t' <- copy_tree t ;; push t') s)) /\ forall r, fst ((t' <- copy_tree t ;; push t') s) = Ok r -> rooted r (snd ((t' <- copy_tree t ;; push t') s)).
Proof.
  intro W. rewrite bind_run. pose proof (makes_copy t s) as B. destruct (copy_tree t s) as [[t'|e] s1].
  - assert (K : kept s s1) by (apply kept_same; auto; apply B).
    destruct (kept_push s1 t' (proj1 K) (builds_loose s [t'] s1 W B)) as [P Q]. split; auto. eapply kept_trans; eauto.
  - split; [apply kept_same; auto; apply B|discriminate].
Qed.

Lemma kept_working d s : wf_state s ->
  kept s (snd (get_etree_root d true s)) /\ forall r, fst (get_etree_root d true s) = Ok r -> rooted r (snd (get_etree_root d true s)).
Proof.
  intro W. destruct d as [i|i|[t|]]; cbn [get_etree_root].
  - rewrite bind_run. pose proof (peeks_deref i s) as P. destruct (deref i s) as [[c|e] s1]; simpl in P; subst s1; [apply kept_new; auto|].
    split; [apply kept_refl; auto|discriminate].
  - rewrite bind_run. pose proof (peeks_deref i s) as P. destruct (deref i s) as [[c|e] s1]; simpl in P; subst s1; [apply kept_new; auto|].
    split; [apply kept_refl; auto|discriminate].
  - apply kept_new; auto.
  - split; [apply kept_refl; auto|discriminate].
Qed.

Lemma keeps_root d : keeps (get_etree_root d false).
Proof.
  intros s W. destruct d as [i|i|[t|]]; cbn [get_etree_root]; try (apply kept_refl; auto). apply kept_new; auto.
Qed.

Lemma keeps_clean_root up r opts : steady up -> keeps (clean_root up r opts).
Proof.
  intros [A B C D E F]. unfold clean_root. apply keeps_bind; [apply C|]. intro dis. apply keeps_bind; [apply D|]. intro dup.
  apply keeps_bind; [destruct dup as [[|x l]|]; [apply keeps_peeks, peeks_ret|apply F|apply keeps_peeks, peeks_ret]|]. intro rm.
  apply keeps_bind; [destruct dis as [[|x l]|]; [apply keeps_peeks, peeks_ret|apply E|apply keeps_peeks, peeks_ret]|]. intro.
  apply keeps_peeks, peeks_ret.
Qed.

Lemma keeps_clean o up d opts : steady up -> keeps (clean o up d opts).
Proof.
  intros S s W. unfold clean. rewrite bind_run. destruct (kept_working d s W) as [K _].
  destruct (get_etree_root d true s) as [[r|e] s1]; [|exact K]. eapply kept_trans; [exact K|]. apply keeps_clean_root; auto. apply K.
Qed.

Lemma as_element_rooted i s r : fst (as_element i s) = Ok r -> rooted r s.
Proof.
  unfold as_element. rewrite bind_run. unfold deref. destruct (hfind i (heap s)) as [[a x]|] eqn:E; [|discriminate]. intro Q. injection Q as <-.
  apply hfind_some in E as (X & HX & Hx & _). exists X. split; auto. unfold root_of. simpl. rewrite (Lib.visits_root X [] a x Hx). reflexivity.
Qed.

Lemma peeks_as_element i : peeks (as_element i).
Proof. unfold as_element. peeking. Qed.

Lemma keeps_force up r opts : steady up -> keeps (force_update up r opts).
Proof.
  intros S s W. unfold force_update. rewrite bind_run. pose proof (keeps_clean_root up r opts S s W) as K.
  destruct (clean_root up r opts s) as [[c|e] s1]; [|exact K]. eapply kept_trans; [exact K|]. rewrite bind_run.
  pose proof (as_element_rooted (r_document c) s1) as R. pose proof (peeks_as_element (r_document c) s1) as P.
  destruct (as_element (r_document c) s1) as [[j|e] s2]; simpl in *; subst s2; [|apply kept_refl; apply K]. rewrite bind_run.
  destruct (sd_update up S opts s1 j (proj1 K) (R j eq_refl)) as [K2 _]. cbv beta in K2. destruct (up_update up j opts s1) as [[u|e] s2]; exact K2.
Qed.

Lemma keeps_update o up d opts force : steady up -> keeps (updater_update o up d opts force).
Proof.
  intros S s W. unfold updater_update. rewrite bind_run. destruct (kept_working d s W) as [K R].
  destruct (get_etree_root d true s) as [[r|e] s1]; [|exact K]. cbn [fst snd] in *. eapply kept_trans; [exact K|].
  specialize (R r eq_refl). destruct K as [W1 _]. unfold try_catch.
  set (m := up_check up r (or_default o opts) ;;; _).
  assert (Km : kept s1 (snd (m s1))).
  { unfold m. rewrite bind_run. pose proof (sd_check up S r (or_default o opts) s1 W1) as Kc.
    destruct (up_check up r (or_default o opts) s1) as [[[]|e] s2]; [|exact Kc]. eapply kept_trans; [exact Kc|]. rewrite bind_run.
    destruct (sd_update up S (or_default o opts) s2 r (proj1 Kc) (proj2 Kc r R)) as [K2 _]. cbv beta in K2.
    destruct (up_update up r (or_default o opts) s2) as [[u|e] s3]; exact K2. }
  destruct (m s1) as [[a|e] s2]; [exact Km|]. destruct (is_update_failure e && force); [|exact Km].
  eapply kept_trans; [exact Km|]. apply keeps_force; auto. apply Km.
Qed.

Lemma keeps_steps o table opts force vs : (forall v up, dict_get v table = Some up -> steady up) ->
  forall root removed remapped, keeps (run_steps o table vs root opts force removed remapped).
Proof.
  intro H. induction vs as [|v vs IH]; intros root removed remapped; [apply keeps_peeks, peeks_ret|]. cbn [run_steps].
  destruct (dict_get v table) as [up|] eqn:E; [|apply keeps_peeks, peeks_raise].
  apply keeps_bind; [apply keeps_update; eauto|]. intro r. apply keeps_bind; [apply keeps_peeks, peeks_as_element|]. intro. apply IH.
Qed.

Lemma keeps_versioned o versions table gv d from to opts force : (forall v up, dict_get v table = Some up -> steady up) ->
  (forall r, keeps (gv r)) -> keeps (versioned_update o versions table gv d from to opts force).
Proof.
  intros H G. unfold versioned_update. apply keeps_bind; [apply keeps_root|]. intro r.
  apply keeps_bind; [destruct (truthy from); [apply keeps_peeks, peeks_ret|apply G]|]. intro a.
  apply keeps_bind; [apply keeps_peeks, peeks_liftr|]. intro. destruct a; [|apply keeps_peeks, peeks_raise].
  destruct (if truthy to then to else _); [|apply keeps_peeks, peeks_raise].
  apply keeps_bind; [apply keeps_steps; auto|]. intros [[x y] z]. apply keeps_peeks, peeks_ret.
Qed.

Lemma stix_steady o v up : dict_get v (STIX_UPDATERS o) = Some up -> steady up.
Proof. intro H. apply (shipped_steady o). apply in_app_iff. left. eapply NoFail.dict_get_in. exact H. Qed.

Lemma cybox_steady o v up : dict_get v (CYBOX_UPDATERS o) = Some up -> steady up.
Proof. intro H. apply (shipped_steady o). apply in_app_iff. right. eapply NoFail.dict_get_in. exact H. Qed.

Lemma keeps_stix o d from to opts force : keeps (stix_update o d from to opts force).
Proof. apply keeps_versioned; [apply stix_steady|]. intro. apply keeps_peeks, peeks_stix_version. Qed.

Lemma keeps_cybox o d from to opts force : keeps (cybox_update o d from to opts force).
Proof. apply keeps_versioned; [apply cybox_steady|]. intro. looks. Qed.

Lemma keeps_ramrod o d from to opts force : keeps (ramrod_update o d from to opts force).
Proof.
  unfold ramrod_update. apply keeps_bind; [apply keeps_root|]. intro r. apply keeps_bind; [apply keeps_peeks, peeks_get_hdr|]. intro h.
  destruct (String.eqb _ _).
  - apply keeps_bind; [|intro; apply keeps_stix]. unfold stix_get_version, get_etree_root. looks.
  - destruct (String.eqb _ _); [|apply keeps_peeks, peeks_raise].
    apply keeps_bind; [|intro; apply keeps_cybox]. unfold cybox_get_version, get_etree_root. looks.
Qed.

(** ** Sessions *)

Lemma keeps_perform o c : keeps (perform o c).
Proof.
  destruct c as [t|d from to opts force|d from to opts force|d from to opts force|v d opts force|v d opts force|v d opts|v d opts];
    cbn [perform]; unfold with_class.
  - apply keeps_bind; [apply keeps_root|]. intro. apply keeps_ret_any.
  - apply keeps_ramrod.
  - apply keeps_stix.
  - apply keeps_cybox.
  - destruct (dict_get v (STIX_UPDATERS o)) as [up|] eqn:E; [apply keeps_update; eapply stix_steady; eauto|apply keeps_raise_any].
  - destruct (dict_get v (CYBOX_UPDATERS o)) as [up|] eqn:E; [apply keeps_update; eapply cybox_steady; eauto|apply keeps_raise_any].
  - destruct (dict_get v (STIX_UPDATERS o)) as [up|] eqn:E; [apply keeps_clean; eapply stix_steady; eauto|apply keeps_raise_any].
  - destruct (dict_get v (CYBOX_UPDATERS o)) as [up|] eqn:E; [apply keeps_clean; eapply cybox_steady; eauto|apply keeps_raise_any].
Qed.

Lemma perform_grows o c s : wf_state s -> exists new, heap (snd (perform o c s)) = (heap s ++ new)%list.
Proof.
  intro W.
  assert (R : forall v up, dict_get v (STIX_UPDATERS o) = Some up \/ dict_get v (CYBOX_UPDATERS o) = Some up ->
            In up (map snd (STIX_UPDATERS o) ++ map snd (CYBOX_UPDATERS o))).
  { intros v up [H|H]; apply in_app_iff; [left|right]; eapply NoFail.dict_get_in; exact H. }
  assert (Same : exists new, heap s = (heap s ++ new)%list) by (exists []; rewrite app_nil_r; reflexivity).
  destruct c as [t|d from to opts force|d from to opts force|d from to opts force|v d opts force|v d opts force|v d opts|v d opts];
    cbn [perform]; unfold with_class.
  - rewrite bind_run. cbn [get_etree_root]. rewrite bind_run. pose proof (makes_copy t s) as B.
    destruct (copy_tree t s) as [[t'|e] s1]; cbn [snd] in *; [|destruct B as [B _]; rewrite B; exact Same].
    destruct B as [B _ _ _ _]. unfold push. cbn [snd heap]. rewrite B. exists [t']. reflexivity.
  - apply (bounded_extends _ s W (fun old => safe_ramrod_update old o d from to opts force)).
  - apply (bounded_extends _ s W (fun old => safe_stix_update old o d from to opts force)).
  - apply (bounded_extends _ s W (fun old => safe_cybox_update old o d from to opts force)).
  - destruct (dict_get v (STIX_UPDATERS o)) as [up|] eqn:E; [|exact Same].
    apply (bounded_extends _ s W (fun old => safe_updater_update old o up d opts force (registered_safe o up (R v up (or_introl E)) old))).
  - destruct (dict_get v (CYBOX_UPDATERS o)) as [up|] eqn:E; [|exact Same].
    apply (bounded_extends _ s W (fun old => safe_updater_update old o up d opts force (registered_safe o up (R v up (or_intror E)) old))).
  - destruct (dict_get v (STIX_UPDATERS o)) as [up|] eqn:E; [|exact Same].
    apply (bounded_extends _ s W (fun old => safe_clean old o up d opts (registered_safe o up (R v up (or_introl E)) old))).
  - destruct (dict_get v (CYBOX_UPDATERS o)) as [up|] eqn:E; [|exact Same].
    apply (bounded_extends _ s W (fun old => safe_clean old o up d opts (registered_safe o up (R v up (or_intror E)) old))).
Qed.

Lemma after_kept o cs : forall s, wf_state s -> wf_state (after o cs s) /\ exists new, heap (after o cs s) = (heap s ++ new)%list.
Proof.
  induction cs as [|c cs IH]; intros s W; cbn [after].
  - split; auto. exists []. rewrite app_nil_r. reflexivity.
  - destruct (keeps_perform o c s W) as [W1 _]. destruct (IH _ W1) as [W2 [n2 E2]]. destruct (perform_grows o c s W) as [n1 E1].
    split; auto. exists (n1 ++ n2)%list. rewrite E2, E1, app_assoc. reflexivity.
Qed.

Lemma after_app o a b s : after o (a ++ b) s = after o b (after o a s).
Proof. revert s. induction a as [|c a IH]; intro s; simpl; auto. Qed.

Lemma grown_node s s' i anc t : (exists new, heap s' = (heap s ++ new)%list) -> node_at s i anc t -> node_at s' i anc t.
Proof. intros [new E] (T & HT & Q). exists T. rewrite E. split; auto. apply in_app_iff. auto. Qed.

Lemma grown_document s s' i e : (exists new, heap s' = (heap s ++ new)%list) -> document s i e -> document s' i e.
Proof. intros [new E] (T & HT & Q). exists T. rewrite E. split; auto. apply in_app_iff. auto. Qed.

Lemma grown_denotes s s' d t : (exists new, heap s' = (heap s ++ new)%list) -> denotes s d t -> denotes s' d t.
Proof. intros G. destruct d as [i|i|p]; simpl; auto; intros (anc & N); exists anc; eapply grown_node; eauto. Qed.

(** ** The number of ids made before *)

Definition regardless (force : bool) (p : options) : Prop := force = true -> forgets_calls p.

Lemma fresh_forgets f g g' l t : (forall k k' old, f k old = f k' old) -> fresh_ids f g l t = fresh_ids f g' l t.
Proof.
  intro F. unfold fresh_ids. apply edit_ext. intros a x _. destruct (position _ _) as [k|]; auto. destruct (id_of x); auto.
  rewrite (F (g + k) (g' + k)). reflexivity.
Qed.

Lemma single_forgets c D f p force g g' t : regardless force p ->
  single c D f (new_id_func p) force g t = single c D f (new_id_func p) force g' t.
Proof.
  intro R. unfold single. destruct (c t); auto. destruct force; [|reflexivity]. cbn [andb]. destruct (forceable e); auto.
  destruct (D t) as [d|]; auto. cbn [rbind]. unfold cleaned, removed_content.
  rewrite (fresh_forgets (new_id_func p) g g' (renumbered d) t (R eq_refl)). reflexivity.
Qed.

Lemma chain_forgets one : (forall v g g' t, one v g t = one v g' t) -> forall vs g g' t, chain one vs g t = chain one vs g' t.
Proof.
  intro H. induction vs as [|v vs IH]; intros g g' t; [reflexivity|]. cbn [chain]. rewrite (H v g g'). destruct (one v g' (numbered 0 t)) as [r|]; [|reflexivity].
  cbn [rbind]. rewrite (IH (g + replacements r) (g' + replacements r)). reflexivity.
Qed.

Lemma stix_forgets o d from to opts force s s' t : wf_state s -> wf_state s' -> denotes s d t -> denotes s' d t ->
  regardless force (or_default o opts) -> agree (stix_update o d from to opts force) (stix_update o d from to opts force) s s'.
Proof.
  intros W W' D D' G. pose proof (stix_validation o d from to opts force s t W D) as Va. pose proof (stix_validation o d from to opts force s' t W' D') as Vb.
  cbv zeta in Va, Vb. destruct (stix_start from t) as [a|] eqn:Ea; [|unfold agree; rewrite Va, Vb; apply same_error_refl].
  set (b := match given to with Some b => b | None => "1.2.1" end) in *. destruct stix_table_ok as [_ Nt].
  destruct (older_dec STIX_VERSIONS a b Nt) as [Ho|Ho]; [|unfold agree; rewrite (proj1 Va Ho), (proj1 Vb Ho); apply same_error_refl].
  pose proof (slice_between _ _ _ Nt Ho) as B. eapply runs_agree; [eapply (stix_update_runs o d from to); eauto|].
  pose proof (stix_update_runs o d from to opts force s' t a _ W' D' Ea B) as R.
  rewrite (chain_forgets (stix_single o (or_default o opts) force)) with (g' := gen s) in R; [exact R|].
  intros v g g' x. unfold stix_single. destruct (stix_check o (or_default o opts) v), (stix_dirt o v), (stix_step o (or_default o opts) v); auto using single_forgets.
Qed.

Lemma cybox_forgets o d from to opts force s s' t : wf_state s -> wf_state s' -> denotes s d t -> denotes s' d t ->
  regardless force (or_default o opts) -> agree (cybox_update o d from to opts force) (cybox_update o d from to opts force) s s'.
Proof.
  intros W W' D D' G. pose proof (cybox_validation o d from to opts force s t W D) as Va. pose proof (cybox_validation o d from to opts force s' t W' D') as Vb.
  cbv zeta in Va, Vb. destruct (cybox_start from t) as [a|] eqn:Ea; [|unfold agree; rewrite Va, Vb; apply same_error_refl].
  set (b := match given to with Some b => b | None => "2.1" end) in *. destruct cybox_table_ok as [_ Nt].
  destruct (older_dec CYBOX_VERSIONS a b Nt) as [Ho|Ho]; [|unfold agree; rewrite (proj1 Va Ho), (proj1 Vb Ho); apply same_error_refl].
  pose proof (slice_between _ _ _ Nt Ho) as B. eapply runs_agree; [eapply (cybox_update_runs o d from to); eauto|].
  pose proof (cybox_update_runs o d from to opts force s' t a _ W' D' Ea B) as R.
  rewrite (chain_forgets (cybox_single (or_default o opts) force)) with (g' := gen s) in R; [exact R|].
  intros v g g' x. unfold cybox_single. destruct (cybox_check (or_default o opts) v), (cybox_dirt v), (cybox_step (or_default o opts) v); auto using single_forgets.
Qed.

Lemma ramrod_forgets o d from to opts force s s' t : wf_state s -> wf_state s' -> denotes s d t -> denotes s' d t ->
  regardless force (or_default o opts) -> agree (ramrod_update o d from to opts force) (ramrod_update o d from to opts force) s s'.
Proof.
  intros W W' D D' G. destruct (String.eqb_spec (q_local (h_tag (head t))) "STIX_Package") as [N|N].
  - unfold agree. rewrite (ramrod_is_stix o d from to _ force s t W D N), (ramrod_is_stix o d from to _ force s' t W' D' N). eapply stix_forgets; eauto.
  - destruct (String.eqb_spec (q_local (h_tag (head t))) "Observables") as [N'|N'].
    + unfold agree. rewrite (ramrod_is_cybox o d from to _ force s t W D N'), (ramrod_is_cybox o d from to _ force s' t W' D' N'). eapply cybox_forgets; eauto.
    + pose proof (ramrod_other o d from to opts force s t W D N N') as Z. pose proof (ramrod_other o d from to opts force s' t W' D' N N') as Z'.
      unfold agree. destruct (ramrod_update o d from to opts force s), (ramrod_update o d from to opts force s').
      cbn [fst] in *. subst. apply same_error_refl.
Qed.

Lemma call_forgets o c d opts force s s' t : update_call c = Some (d, opts, force) ->
  wf_state s -> wf_state s' -> denotes s d t -> denotes s' d t ->
  regardless force (or_default o opts) -> same_outcome (perform o c s) (perform o c s').
Proof.
  intros U W W' D D' G. destruct c; try discriminate; cbn [update_call] in U; injection U as -> -> ->; cbn [perform].
  - eapply ramrod_forgets; eauto.
  - eapply stix_forgets; eauto.
  - eapply cybox_forgets; eauto.
Qed.

Lemma results_stay o before c later s s1 x : wf_state s -> perform o c (after o before s) = (x, s1) ->
  (forall i e, document s1 i e -> document (after o (before ++ c :: later) s) i e) /\
  (forall i anc t, node_at s1 i anc t -> node_at (after o (before ++ c :: later) s) i anc t) /\
  (forall i v, holds_id s1 i v -> holds_id (after o (before ++ c :: later) s) i v).
Proof.
  intros W E. rewrite after_app. cbn [after]. rewrite E. cbn [snd].
  assert (W1 : wf_state s1).
  { destruct (after_kept o before s W) as [Wb _]. destruct (keeps_perform o c _ Wb) as [W1 _]. rewrite E in W1. exact W1. }
  destruct (after_kept o later s1 W1) as [_ G]. split; [|split].
  - intros i e. apply grown_document. exact G.
  - intros i anc t. apply grown_node. exact G.
  - intros i v (anc & t & N & V). exists anc, t. split; auto. eapply grown_node; eauto.
Qed.

Lemma repeatable o cs c d opts s t : update_call c = Some (d, opts, false) -> wf_state s -> denotes s d t ->
  same_outcome (perform o c s) (perform o c (after o cs s)).
Proof.
  intros U W D. destruct (after_kept o cs s W) as [W' G]. apply (call_forgets o c d opts false s (after o cs s) t); auto.
  - eapply grown_denotes; eauto.
  - intro. discriminate.
Qed.

Lemma forced_repeatable o cs c d opts s t : update_call c = Some (d, opts, true) -> forgets_calls (or_default o opts) -> wf_state s -> denotes s d t ->
  same_outcome (perform o c s) (perform o c (after o cs s)).
Proof.
  intros U F W D. destruct (after_kept o cs s W) as [W' G]. apply (call_forgets o c d opts true s (after o cs s) t); auto.
  - eapply grown_denotes; eauto.
  - intro. exact F.
Qed.
