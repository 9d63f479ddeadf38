(** * Prefixes and types through a whole step. *)

From Coq Require Import String Ascii List Bool Arith Lia.
From Verif Require Import Str Xml XPath Utils Base Tables Spec SpecDoc SpecPass SpecStep
  SpecCheck SpecClean SpecUpdate SpecTrace Lib Refine RefineBase RefineTrans RefineLists RefineSteps Relabel Cybox Stix RefineUpdate Natural Updates Reports UpdateFacts Trace SpecField Fields Carried Follow Vocab Worked SpecMeaning.
Import ListNotations.
Local Open Scope string_scope.

Lemma meaning_env p l : meaning p l = env_get (Some p) (flat_map (fun a => h_decl (head a)) l).
Proof. induction l as [|x l IH]; auto. cbn [meaning flat_map]. rewrite env_get_app, IH. reflexivity. Qed.

Lemma seen_meaning n p l : seen n p l = true <-> meaning p l = Some n.
Proof. unfold seen. rewrite ostr_eqb_eq, meaning_env. tauto. Qed.

Lemma replaced_moves m x b : replaced m (x :: b) = forallb is_elem (x :: b) && moves m x.
Proof. reflexivity. Qed.

(** ** The namespace pass *)

Definition sees (m : dict string) (b A : list tree) : Prop := forall p, meaning p A = meaning_after m p b.

Lemma sees_same m h h' b A ks ks' : replaced m (Node h ks :: b) = false -> h_decl h' = h_decl h -> sees m b A ->
  sees m (Node h ks :: b) (Node h' ks' :: A).
Proof. intros R D S p. cbn [meaning meaning_after]. rewrite R. cbn [head]. rewrite D, S. reflexivity. Qed.

Lemma traced_still m (N : change) t : (forall b y, N b y (head y)) -> forall anc A, forallb is_elem (t :: anc) = false -> sees m anc A ->
  traced (sees m) N anc t A t.
Proof.
  intro Nr. tree_induction t. intros anc A El Sa.
  assert (S : sees m (Node h ks :: anc) (Node h ks :: A)) by (apply sees_same; auto; rewrite replaced_moves, El; reflexivity).
  apply traced_kids.
  - right. split; [reflexivity|]. split; auto. split; auto. apply (Nr anc (Node h ks)).
  - intros k Hk. exists k. split; auto. apply IH; auto. cbn [forallb] in *. rewrite El. apply andb_false_r.
Qed.

Lemma ns_traced m t : is_elem t = true -> traced (sees m) (fun _ _ _ => True) [] t [] (ns_pass [] m [] t).
Proof.
  enough (G : forall anc A, forallb is_elem (t :: anc) = true -> sees m anc A ->
    traced (sees m) (fun _ _ _ => True) anc t A (ns_pass [] m anc t)).
  { intro El. apply G; [cbn; rewrite El; reflexivity|]. intro p. reflexivity. }
  tree_induction t. intros anc A El Sa. cbn [ns_pass].
  assert (S : forall ks', sees m (Node h ks :: anc) (Node (if moves m (Node h ks) then rebuilt [] m anc (Node h ks) else h) ks' :: A)).
  { intro ks'. destruct (moves m (Node h ks)) eqn:M.
    - intro p. cbn [meaning meaning_after]. rewrite replaced_moves, El, M. cbn [andb head].
      unfold rebuilt. cbn [h_decl]. rewrite filter_all by reflexivity.
      rewrite (env_get_map (Some p) (new_ns m)), env_items_get by reflexivity. unfold env_of. cbn [flat_map].
      rewrite env_get_app, <- (meaning_env p anc). cbn [head].
      destruct (env_get (Some p) (h_decl h)) as [u|]; [reflexivity|].
      destruct (meaning p anc) as [u|] eqn:Mp; [reflexivity|]. cbn [option_map].
      rewrite Sa. clear -Mp. induction anc as [|x b IH]; auto. cbn [meaning_after meaning] in *.
      destruct (env_get (Some p) (h_decl (head x))); [discriminate|]. rewrite Mp. rewrite IH by auto. destruct (replaced m (x :: b)); reflexivity.
    - apply sees_same; auto. rewrite replaced_moves, M. apply andb_false_r. }
  apply traced_kids.
  - right. split; [destruct (moves m (Node h ks)); reflexivity|]. split; auto.
  - intros k' Hk'. apply in_map_iff in Hk' as (k & <- & Hk). exists k. split; auto.
    destruct (is_elem k) eqn:Ek.
    + apply IH; auto. cbn [forallb] in *. rewrite Ek. exact El.
    + apply traced_still; auto. cbn [forallb]. rewrite Ek. reflexivity.
Qed.

Lemma sees_nil t : traced (sees []) (fun _ _ _ => True) [] t [] t.
Proof.
  apply traced_refl; auto.
  - intros h b A ks ks' S. apply sees_same; auto. rewrite replaced_moves. unfold moves. cbn [map]. destruct (q_ns _); apply andb_false_r.
  - intro p. reflexivity.
Qed.

(** ** The other passes *)

Definition nought (_ : hdr) : unit := tt.
Definition steady (f : tree -> res tree) (t : tree) : Prop := forall ns, follows nought ns f t.

Lemma steady_meaning m f t u e : NoDup (ids t) -> traced (sees m) (fun _ _ _ => True) [] t [] u -> steady f u -> f u = Ok e ->
  stems_in (prefixes_follow m) t e.
Proof.
  intros N T S E b' y' I Nz.
  assert (G : forall ns, exists b y, In (b, y) (visits [] t) /\ tid y = tid y' /\
    forall n p, In n ns -> (meaning p (y' :: b') = Some n <-> meaning_after m p (y :: b) = Some n)).
  { intro ns. destruct (S ns e E b' y' I Nz) as (b1 & y1 & I1 & E1 & _ & [_ Sc] & _).
    destruct (T b1 y1 I1) as (b & y & Iy & Ey & _ & Se & _); [congruence|].
    exists b, y. split; auto. split; [congruence|]. intros n p Hn. rewrite <- (Se p). rewrite <- !seen_meaning, (Sc n p Hn). tauto. }
  destruct (G []) as (b & y & Iy & Ey & _). exists b, y. split; auto. split; auto.
  assert (X : forall p n, meaning p (y' :: b') = Some n <-> meaning_after m p (y :: b) = Some n).
  { intros p n. destruct (G [n]) as (b2 & y2 & I2 & E2 & H).
    destruct (visits_unique t [] b y b2 y2 N Iy I2) as [-> ->]; [congruence|]. apply H. left. auto. }
  intro p. destruct (meaning p (y' :: b')) as [n|] eqn:M.
  - symmetry. apply X. exact M.
  - destruct (meaning_after m p (y :: b)) as [n|] eqn:M'; auto. apply X in M'. congruence.
Qed.

Lemma steady_nil t : steady (in_order []) t.
Proof. intro ns. apply follows_nil. Qed.

Lemma steady_cons (Q : hdr -> Prop) f l t : invariant Q f -> all Q t -> steady f t -> (forall m, all Q m -> steady (in_order l) m) ->
  steady (in_order (f :: l)) t.
Proof. intros I A S H ns. apply follows_cons; [apply S|]. intros m E. apply H. eapply I; eauto. Qed.

Lemma steady_then f l t : steady f t -> (forall m, steady (in_order l) m) -> steady (in_order (f :: l)) t.
Proof. intros S H ns. apply follows_cons; [apply S|]. intros m _. apply H. Qed.

Lemma steady_vocab v t : steady (vocab_pass v) t.
Proof. intros ns e E. eapply traced_impl; [|exact (vocab_traced [] ns v t e E)]. reflexivity. Qed.

Lemma steady_vocabs vs t : steady (passes vocab_pass vs) t.
Proof.
  revert t. induction vs as [|v vs IH]; intros t ns.
  - apply (follows_nil nought ns t).
  - intros e E. rewrite passes_cons in E. destruct (vocab_pass v t) as [m|] eqn:E1; [|discriminate].
    eapply traced_same_trans; [exact (steady_vocab v t ns m E1)|exact (IH m ns e E)].
Qed.

Lemma steady_lists o p t : steady (always (lists_pass o p)) t.
Proof.
  intros ns e E. injection E as <-. unfold lists_pass. apply follows_edit; [| |reflexivity]; intros b y; destruct (is_elem y); auto; apply repeat_rest.
Qed.

Lemma steady_when b f t : steady f t -> steady (when b f) t.
Proof. intros H ns. apply follows_when. intros _. apply H. Qed.

Lemma steady_edit_where p g t : keeps_id g -> inert g -> steady (always (edit_where p g)) t.
Proof. intros K I ns. apply follows_edit_where; auto. Qed.

Ltac steadily :=
  repeat first
    [ apply steady_nil | apply steady_when | apply steady_vocab | apply steady_vocabs | apply steady_lists
    | apply steady_edit_where; [intro; reflexivity|intro; reflexivity]
    | intro ns; solve [apply follows_loc; reflexivity | apply follows_rename; reflexivity | apply follows_child_value
        | apply follows_as_string | apply follows_source | apply follows_wrap | apply follows_wrap_renamed; reflexivity
        | apply follows_optional | apply follows_optional_in_type
        | apply follows_on_root; [intro; reflexivity|intro; reflexivity|reflexivity] ]
    | apply steady_then; [|intro] ].

Lemma cybox_2_0_steady p opts t : steady (cybox_2_0_step p opts) t.
Proof. unfold cybox_2_0_step. steadily. Qed.

Lemma stix_1_0_steady opts t : steady (stix_1_0_step opts) t.
Proof. unfold stix_1_0_step. apply steady_then; [apply cybox_2_0_steady|intro]. steadily. Qed.

Lemma stix_1_1_steady o opts t : steady (stix_1_1_step o opts) t.
Proof. unfold stix_1_1_step. steadily. Qed.

Lemma stix_1_1_1_steady opts t : steady (stix_1_1_1_step opts) t.
Proof. unfold stix_1_1_1_step. steadily. Qed.

(** A step that starts with the namespaces. *)
Lemma meaning_ns m l t e : is_elem t = true -> NoDup (ids t) -> steady (in_order l) (ns_pass [] m [] t) ->
  in_order (namespaces_pass [] m :: l) t = Ok e -> stems_in (prefixes_follow m) t e.
Proof.
  intros El N S E. apply in_order_ok in E as (u & E1 & E). apply namespaces_ok in E1 as ->.
  eapply steady_meaning; eauto. apply ns_traced. exact El.
Qed.

Definition cybox_2_0_1_rest (marked : list tree -> tree -> bool) (opts : options) : list (tree -> res tree) :=
    [ always (schemaloc_pass [] driver_ns cybox_2_0_1_schemaloc_map);
      always (edit_where marked stamp_cybox_2_1);
      rewrite_all (any_inside [http_name "DNT"]) (value_of_child (object_name "URI" "Value"));
      rewrite_all (any_inside [http_name "Vary"]) (value_of_child (object_name "URI" "Value"));
      rewrite_all (any_inside [http_name "Refresh"]) as_string;
      rename (http_name "X_Requested_For") (http_name "X_Forwarded_For");
      rename (packet_name "Authenication_Data") (packet_name "Authentication_Data");
      rename (packet_name "Excapsulating_Security_Payload")
             (packet_name "Encapsulating_Security_Payload");
      rename (packet_name "Protol_Addr_Size") (packet_name "Proto_Addr_Size");
      always (unwrap_pass (object_name "WinMailslot" "Handle") (object_name "WinHandle" "Handle")
                (object_name "WinMailslot" "Handle"));
      when (update_vocabularies opts)
        (passes vocab_pass [object_relationship; tool_type; action_name]);
      when (remove_optionals opts) (always (optional_pass (any_inside cybox_2_1_optional))) ].

Lemma cybox_2_0_1_rest_steady p opts t : all (plain [object_name "WinMailslot" "Handle"]) t -> steady (in_order (cybox_2_0_1_rest p opts)) t.
Proof.
  intro A. unfold cybox_2_0_1_rest.
  do 9 (eapply steady_cons; [|exact A| |clear A t; intros t A]; [plains|steadily|]).
  apply steady_then.
  - intro ns. apply follows_unwrap; [reflexivity|]. intros b k Hk Nk. apply A; [apply nodes_in; eauto|].
    eapply one_of_named; [|exact Nk]. reflexivity.
  - intro. steadily.
Qed.

Lemma cybox_2_0_1_parts p opts t : cybox_2_0_1_step p opts t = in_order (namespaces_pass [] driver_ns :: cybox_2_0_1_rest p opts) t.
Proof. reflexivity. Qed.

Lemma driver_plain qs t :
  forallb (fun q => negb (ostr_eqb (q_ns q) (Some "http://cybox.mitre.org/objects#WinDriverObject-3"))) qs = true ->
  all (plain qs) t -> all (plain qs) (ns_pass [] driver_ns [] t).
Proof.
  intros F A x Hx. destruct (nodes_ns [] driver_ns t [] x Hx) as (b & y & I & [->|[M ->]]); [apply A, nodes_in; eauto|].
  intros O. rewrite driver_free in O by auto. discriminate.
Qed.

Lemma cybox_2_0_1_meaning p opts t e : is_elem t = true -> NoDup (ids t) -> declares_nothing [object_name "WinMailslot" "Handle"] t ->
  cybox_2_0_1_step p opts t = Ok e -> stems_in (prefixes_follow driver_ns) t e.
Proof.
  intros El N Dn E. rewrite cybox_2_0_1_parts in E. eapply meaning_ns; eauto.
  apply cybox_2_0_1_rest_steady. apply driver_plain; [reflexivity|]. apply all_plain. exact Dn.
Qed.

Definition stix_1_0_1_rest (opts : options) : list (tree -> res tree) :=
     [ always (schemaloc_pass ["http://stix.mitre.org/extensions/AP#CAPEC2.6-1"; "http://stix.mitre.org/extensions/Malware#MAEC4.0-1"] [] stix_1_0_1_schemaloc_map);
      always (edit_where carries_version (stamp_stix "2.1" "1.1"));
      rewrite_all (any_inside [common "Contributors"]) (contributing_sources NS_COMMON);
      rewrite_all (child_in [ttp "Exploit_Targets"] (common "Exploit_Target")) (wrap (ttp "Exploit_Target"));
      when (update_vocabularies opts) (passes vocab_pass [motivation_1_1; indicator_type]);
      when (remove_optionals opts)
        (always (optional_pass (any_inside [marking "Controlled_Structure"; marking "Marking_Structure"]))) ].

Lemma stix_1_0_1_rest_steady opts t : all (plain [common "Contributors"]) t -> steady (in_order (stix_1_0_1_rest opts)) t.
Proof.
  intro A. unfold stix_1_0_1_rest.
  do 2 (eapply steady_cons; [|exact A| |clear A t; intros t A]; [plains|steadily|]).
  apply steady_then.
  - intro ns'. apply follows_contributing; [reflexivity|]. intros b k Hk Nk. apply A; [apply nodes_in; eauto|].
    apply any_inside_named in Nk. eapply one_of_named; [|exact Nk]. reflexivity.
  - intro. steadily.
Qed.

Lemma stix_1_0_1_meaning opts t e : is_elem t = true -> NoDup (ids t) ->
  declares_nothing [common "Contributors"; object_name "WinMailslot" "Handle"] t ->
  stix_1_0_1_step opts t = Ok e -> stems_in (prefixes_follow driver_ns) t e.
Proof.
  intros El N Dn E. unfold stix_1_0_1_step in E. apply in_order_ok in E as (m & E1 & E).
  assert (Dt : all (plain [object_name "WinMailslot" "Handle"]) t).
  { apply all_plain. refine (declares_incl _ _ _ _ Dn). intros q Hq. right. exact Hq. }
  assert (Dm : all (plain [common "Contributors"]) m).
  { refine (cybox_2_0_1_plain _ opts t m E1 _). apply all_plain. refine (declares_incl _ _ _ _ Dn). intros q [<-|[]]. left. auto. }
  rewrite cybox_2_0_1_parts in E1. apply in_order_ok in E1 as (u & Eu & E1). apply namespaces_ok in Eu as ->.
  change (in_order (stix_1_0_1_rest opts) m = Ok e) in E.
  set (f := fun x => rbind (in_order (cybox_2_0_1_rest (any_inside cybox_in_stix_1_0_1) opts) x) (in_order (stix_1_0_1_rest opts))).
  apply (steady_meaning driver_ns f t _ e N (ns_traced driver_ns t El)); [|unfold f; rewrite E1; exact E].
  intros ns e' E'. unfold f in E'. rewrite E1 in E'. cbn [rbind] in E'.
  eapply traced_same_trans; [exact (cybox_2_0_1_rest_steady _ opts _ (driver_plain [object_name "WinMailslot" "Handle"] t eq_refl Dt) ns m E1)|].
  exact (stix_1_0_1_rest_steady opts m Dm ns e' E').
Qed.

Lemma stix_1_2_meaning t e : is_elem t = true -> NoDup (ids t) -> stix_1_2_step t = Ok e -> stems_in (prefixes_follow stix_1_2_ns_map) t e.
Proof. intros El N E. unfold stix_1_2_step in E. eapply meaning_ns; eauto. steadily. Qed.

Lemma steady_only f t e : NoDup (ids t) -> steady f t -> f t = Ok e -> stems_in (prefixes_follow []) t e.
Proof. intros N S E. eapply steady_meaning; eauto. apply sees_nil. Qed.

Lemma stix_step_meaning o opts v f t e : stix_step o opts v = Some f -> is_elem t = true -> NoDup (ids t) ->
  (v = "1.0.1" -> declares_nothing [common "Contributors"; object_name "WinMailslot" "Handle"] t) ->
  f t = Ok e -> stems_in (prefixes_follow (replaced_namespaces v)) t e.
Proof.
  intros H El N Dn E. unfold stix_step in H. by_version H.
  - eapply steady_only; eauto. apply stix_1_0_steady.
  - eapply stix_1_0_1_meaning; eauto.
  - eapply steady_only; eauto. apply stix_1_1_steady.
  - eapply steady_only; eauto. apply stix_1_1_1_steady.
  - eapply stix_1_2_meaning; eauto.
Qed.

Lemma cybox_step_meaning opts v f t e : cybox_step opts v = Some f -> is_elem t = true -> NoDup (ids t) ->
  (v = "2.0.1" -> declares_nothing [object_name "WinMailslot" "Handle"] t) ->
  f t = Ok e -> stems_in (prefixes_follow (replaced_namespaces v)) t e.
Proof.
  intros H El N Dn E. unfold cybox_step in H. by_version H.
  - eapply steady_only; eauto. apply cybox_2_0_steady.
  - eapply cybox_2_0_1_meaning; eauto.
Qed.

(** ** Types *)

Lemma meaning_after_other m p n l : dict_get n m = None -> meaning p l = Some n -> meaning_after m p l = Some n.
Proof.
  intro Dg. induction l as [|x l IH]; intro M; [discriminate|]. cbn [meaning_after]. destruct (replaced m (x :: l)).
  - rewrite M. cbn [option_map]. unfold lookup. rewrite Dg. reflexivity.
  - cbn [meaning] in M. destruct (env_get (Some p) (h_decl (head x))); auto.
Qed.

Lemma outdated_type v b y : outdated v (b, y) = true ->
  exists a n s, attr_of xsi_type (head y) = Some s /\ split_char ":" s = [a; n] /\ type_of (b, y) = Ok (a, n, v_namespace v) /\
    meaning a (y :: b) = Some (v_namespace v).
Proof.
  intro O. unfold outdated in O. apply andb_true_iff in O as [_ O]. destruct (type_of (b, y)) as [[[a n] u]|] eqn:T; [|discriminate].
  apply andb_true_iff in O as [U _]. apply String.eqb_eq in U. subst u. exists a, n. unfold type_of in T. cbn [fst snd] in T.
  unfold attr_of. change xsi_type with TAG_XSI_TYPE. destruct (attr_get TAG_XSI_TYPE _) as [s|]; [|discriminate]. exists s. split; auto.
  destruct (split_char ":" s) as [|a' [|n' [|]]]; try discriminate. rewrite meaning_env. unfold env_of in T.
  destruct (env_get (Some a') _) eqn:G; [|discriminate]. injection T as <- <- <-. auto.
Qed.

Definition sober (m : dict string) (v : vocab) : bool :=
  match dict_get (v_namespace v) m with Some _ => false | None => true end
  && match split_char ":" (v_new_type v) with [w] => String.eqb w (v_new_type v) | _ => false end.

Lemma types_followed vs m t e : NoDup (ids t) -> forallb (sober m) vs = true -> stems_in (prefixes_follow m) t e ->
  stems_at (retyped vs) t e -> stems_in (types_follow vs m) t e.
Proof.
  intros N So P T b' y' I Nz. destruct (P b' y' I Nz) as (b & y & Iy & Ey & F).
  destruct (T y') as (b2 & y2 & I2 & E2 & [R1 R2]); [apply nodes_in; eauto|auto|].
  destruct (visits_unique t [] b y b2 y2 N Iy I2) as [<- <-]; [congruence|]. exists b, y. split; auto. split; auto. split.
  - intros v Hv O. destruct (outdated_type v b y O) as (a & n & s & At & Sp & Ty & M).
    destruct (R1 v Hv O) as [(a2 & n2 & u2 & Ty2 & At2) _]. rewrite Ty in Ty2. injection Ty2 as <- <- <-.
    rewrite forallb_forall in So. apply So in Hv. apply andb_true_iff in Hv as [Dg Sw].
    unfold type_named, type_read. rewrite At2. change (":" ++ v_new_type v) with (String ":" (v_new_type v)).
    rewrite split_char_app by (eapply split_char_part; rewrite Sp; left; reflexivity).
    destruct (split_char ":" (v_new_type v)) as [|w [|]]; try discriminate. apply String.eqb_eq in Sw. subst w.
    rewrite (F a). rewrite (meaning_after_other m a (v_namespace v)); auto. destruct (dict_get _ m); [discriminate|reflexivity].
  - intro O. specialize (R2 O xsi_type (or_introl eq_refl)). unfold type_named, type_read. rewrite R2.
    destruct (attr_of xsi_type (head y)) as [s|]; auto. destruct (split_char ":" s) as [|a [|n [|]]]; auto. rewrite (F a). reflexivity.
Qed.

Lemma retyped_none b y h' : (forall k, In k vocabulary_attributes -> attr_of k h' = attr_of k (head y)) -> retyped [] b y h'.
Proof. intro H. split; [intros v []|]. intros _. exact H. Qed.

Lemma stix_step_types o opts v f t e : stix_step o opts v = Some f -> is_elem t = true -> distinct_attributes t -> NoDup (ids t) ->
  (v = "1.0.1" -> declares_nothing [common "Contributors"; object_name "WinMailslot" "Handle"] t) ->
  f t = Ok e -> stems_in (types_follow (if update_vocabularies opts then stix_vocabularies v else []) (replaced_namespaces v)) t e.
Proof.
  intros H El DA N Dn E. apply types_followed; auto.
  - destruct (update_vocabularies opts); auto. unfold stix_step in H. by_version H; reflexivity.
  - eapply stix_step_meaning; eauto.
  - destruct (string_dec v "1.2") as [->|V].
    + unfold stix_step in H. injection H as <-. replace (if update_vocabularies opts then _ else _) with (@nil vocab) by (destruct (update_vocabularies opts); reflexivity).
      assert (K : forall k, In k vocabulary_attributes -> stems (fun h h' => attr_of k h' = attr_of k h) t e).
      { intros k Hk. refine (stix_step_attr o (Options false (fun _ s => s) false false) "1.2" stix_1_2_step k eq_refl _ _ t e DA E).
        - intro I. simpl in I, Hk. decompose [or] Hk; subst; decompose [or] I; try discriminate; auto.
        - discriminate. }
      intros x' Hx Nz. destruct (K xsi_type (or_introl eq_refl) x' Hx Nz) as (y & Hy & Ey & _).
      assert (Hy' := Hy). apply nodes_in in Hy' as (b & Iy). exists b, y. split; auto. split; auto. apply retyped_none.
      intros k Hk. destruct (K k Hk x' Hx Nz) as (z & Hz & Ez & A). rewrite (same_node t y z N Hy Hz) by congruence. exact A.
    + eapply stems_at_impl; [|eapply stix_step_vocab; eauto]. intros b y h' _ _ X. apply X.
Qed.

Lemma cybox_step_types opts v f t e : cybox_step opts v = Some f -> is_elem t = true -> distinct_attributes t -> NoDup (ids t) ->
  (v = "2.0.1" -> declares_nothing [object_name "WinMailslot" "Handle"] t) ->
  f t = Ok e -> stems_in (types_follow (if update_vocabularies opts then cybox_vocabularies v else []) (replaced_namespaces v)) t e.
Proof.
  intros H El DA N Dn E. apply types_followed; auto.
  - destruct (update_vocabularies opts); auto. unfold cybox_step in H. by_version H; reflexivity.
  - eapply cybox_step_meaning; eauto.
  - eapply stems_at_impl; [|eapply cybox_step_vocab; eauto]. intros b y h' _ _ X. apply X.
Qed.

(** ** Whole steps *)

Lemma stix_prefixes_followed o opts v up d force s t r s' :
  dict_get v (STIX_UPDATERS o) = Some up -> wf_state s -> denotes s d t -> is_elem t = true ->
  (v = "1.0.1" -> declares_nothing [common "Contributors"; object_name "WinMailslot" "Handle"] t) ->
  updater_update o up d opts force s = (Ok r, s') ->
  exists t1 e, worked_on o up d opts force s t t1 /\ document s' (r_document r) (erase e) /\
    carried (stix_gone (or_default o opts) v) (labelled t1) e /\
    stems_in (prefixes_follow (replaced_namespaces v)) (labelled t1) e.
Proof.
  intros U W Dn El DN E. on_step U W Dn E f Ef t1 e Wk Fit Fe Doc. exists t1, e. split; auto. split; auto.
  split; [eapply stix_step_carries; eauto|]. eapply stix_step_meaning; eauto.
  - eapply fit_elem; eauto.
  - apply labelled_NoDup.
  - intro V. eapply fit_declares; eauto.
Qed.

Lemma cybox_prefixes_followed o opts v up d force s t r s' :
  dict_get v (CYBOX_UPDATERS o) = Some up -> wf_state s -> denotes s d t -> is_elem t = true ->
  (v = "2.0.1" -> declares_nothing [object_name "WinMailslot" "Handle"] t) ->
  updater_update o up d opts force s = (Ok r, s') ->
  exists t1 e, worked_on o up d opts force s t t1 /\ document s' (r_document r) (erase e) /\
    carried (cybox_gone (or_default o opts) v) (labelled t1) e /\
    stems_in (prefixes_follow (replaced_namespaces v)) (labelled t1) e.
Proof.
  intros U W Dn El DN E. on_step U W Dn E f Ef t1 e Wk Fit Fe Doc. exists t1, e. split; auto. split; auto.
  split; [eapply cybox_step_carries; eauto|]. eapply cybox_step_meaning; eauto.
  - eapply fit_elem; eauto.
  - apply labelled_NoDup.
  - intro V. eapply fit_declares; eauto.
Qed.

Lemma stix_types_followed o opts v up d force s t r s' :
  dict_get v (STIX_UPDATERS o) = Some up -> wf_state s -> denotes s d t -> is_elem t = true -> distinct_attributes t ->
  (v = "1.0.1" -> declares_nothing [common "Contributors"; object_name "WinMailslot" "Handle"] t) ->
  updater_update o up d opts force s = (Ok r, s') ->
  exists t1 e, worked_on o up d opts force s t t1 /\ document s' (r_document r) (erase e) /\
    carried (stix_gone (or_default o opts) v) (labelled t1) e /\
    stems_in (types_follow (if update_vocabularies (or_default o opts) then stix_vocabularies v else []) (replaced_namespaces v)) (labelled t1) e.
Proof.
  intros U W Dn El DA DN E. on_step U W Dn E f Ef t1 e Wk Fit Fe Doc. exists t1, e. split; auto. split; auto.
  split; [eapply stix_step_carries; eauto|]. eapply stix_step_types; eauto.
  - eapply fit_elem; eauto.
  - eapply fit_distinct; eauto.
  - apply labelled_NoDup.
  - intro V. eapply fit_declares; eauto.
Qed.

Lemma cybox_types_followed o opts v up d force s t r s' :
  dict_get v (CYBOX_UPDATERS o) = Some up -> wf_state s -> denotes s d t -> is_elem t = true -> distinct_attributes t ->
  (v = "2.0.1" -> declares_nothing [object_name "WinMailslot" "Handle"] t) ->
  updater_update o up d opts force s = (Ok r, s') ->
  exists t1 e, worked_on o up d opts force s t t1 /\ document s' (r_document r) (erase e) /\
    carried (cybox_gone (or_default o opts) v) (labelled t1) e /\
    stems_in (types_follow (if update_vocabularies (or_default o opts) then cybox_vocabularies v else []) (replaced_namespaces v)) (labelled t1) e.
Proof.
  intros U W Dn El DA DN E. on_step U W Dn E f Ef t1 e Wk Fit Fe Doc. exists t1, e. split; auto. split; auto.
  split; [eapply cybox_step_carries; eauto|]. eapply cybox_step_types; eauto.
  - eapply fit_elem; eauto.
  - eapply fit_distinct; eauto.
  - apply labelled_NoDup.
  - intro V. eapply fit_declares; eauto.
Qed.

(** ** No replaced namespace in sight *)

Definition bare (m : dict string) (h : hdr) : Prop := forall prefix ns, In (prefix, ns) (h_decl h) -> ~ In ns (map fst m).

Lemma env_get_in p e n : env_get p e = Some n -> exists q, In (q, n) e.
Proof.
  induction e as [|[q u] e IH]; cbn [env_get]; [discriminate|]. destruct (ostr_eqb p q).
  - intro E. injection E as <-. exists q. left. auto.
  - intro E. destruct (IH E) as (x & I). exists x. right. auto.
Qed.

Lemma meaning_in p l n : meaning p l = Some n -> exists x q, In x l /\ In (q, n) (h_decl (head x)).
Proof.
  induction l as [|x l IH]; cbn [meaning]; [discriminate|]. destruct (env_get _ _) as [u|] eqn:E.
  - intro X. injection X as <-. apply env_get_in in E as (q & I). exists x, q. split; auto. left. auto.
  - intro X. destruct (IH X) as (y & q & I & J). exists y, q. split; auto. right. auto.
Qed.

Lemma meaning_none m p l : meaning p l = None -> meaning_after m p l = None.
Proof.
  induction l as [|x l IH]; auto. intro M. cbn [meaning_after]. rewrite M. cbn [meaning] in M.
  destruct (env_get _ _); [discriminate|]. rewrite IH by auto. destruct (replaced m (x :: l)); reflexivity.
Qed.

Lemma dict_get_none {A} n (m : dict A) : ~ In n (map fst m) -> dict_get n m = None.
Proof.
  unfold dict in *. induction m as [|[k v] m IH]; cbn [dict_get map fst]; auto. intro H. destruct (String.eqb_spec n k) as [->|N].
  - exfalso. apply H. left. auto.
  - apply IH. intro I. apply H. right. auto.
Qed.

Lemma visits_line t b y x : In (b, y) (visits [] t) -> In x (y :: b) -> In x (nodes t).
Proof.
  intros I [<-|H]; [apply nodes_in; eauto|]. destruct (visits_anc_ctx t [] b y x I H) as [[]|(a1 & a2 & _ & J & _)]. apply nodes_in. eauto.
Qed.

Lemma meaning_bare m t b y p : declares_no_replaced m t -> In (b, y) (visits [] t) -> meaning_after m p (y :: b) = meaning p (y :: b).
Proof.
  intros H I. destruct (meaning p (y :: b)) as [n|] eqn:M; [|apply meaning_none; auto].
  apply meaning_after_other; auto. apply dict_get_none. destruct (meaning_in _ _ _ M) as (x & q & Hx & J).
  exact (H x (visits_line t b y x I Hx) q n J).
Qed.

Lemma bare_kept m t e : declares_no_replaced m t -> stems_in (prefixes_follow m) t e ->
  stems_in (fun line line' => forall prefix, meaning prefix line' = meaning prefix line) t e.
Proof.
  intros H P b' y' I Nz. destruct (P b' y' I Nz) as (b & y & Iy & Ey & F). exists b, y. split; auto. split; auto.
  intro p. rewrite (F p). eapply meaning_bare; eauto.
Qed.

Lemma robust_bare m : robust (bare m).
Proof. split; [reflexivity|]. intros v h H. exact H. Qed.

Lemma fit_bare m t t1 : fit t t1 -> declares_no_replaced m t -> declares_no_replaced m (labelled t1).
Proof.
  intros [F _] H. exact (all_labelled (bare m) t1 (proj1 (robust_bare m)) (F _ (robust_bare m) H)).
Qed.

Lemma stix_prefixes_kept o opts v up d force s t r s' :
  dict_get v (STIX_UPDATERS o) = Some up -> wf_state s -> denotes s d t -> is_elem t = true ->
  (v = "1.0.1" -> declares_nothing [common "Contributors"; object_name "WinMailslot" "Handle"] t) ->
  declares_no_replaced (replaced_namespaces v) t ->
  updater_update o up d opts force s = (Ok r, s') ->
  exists t1 e, worked_on o up d opts force s t t1 /\ document s' (r_document r) (erase e) /\
    carried (stix_gone (or_default o opts) v) (labelled t1) e /\
    stems_in (fun line line' => forall prefix, meaning prefix line' = meaning prefix line) (labelled t1) e.
Proof.
  intros U W Dn El DN Ba E. on_step U W Dn E f Ef t1 e Wk Fit Fe Doc. exists t1, e. split; auto. split; auto.
  split; [eapply stix_step_carries; eauto|]. eapply bare_kept; [eapply fit_bare; eauto|]. eapply stix_step_meaning; eauto.
  - eapply fit_elem; eauto.
  - apply labelled_NoDup.
  - intro V. eapply fit_declares; eauto.
Qed.

Lemma cybox_prefixes_kept o opts v up d force s t r s' :
  dict_get v (CYBOX_UPDATERS o) = Some up -> wf_state s -> denotes s d t -> is_elem t = true ->
  (v = "2.0.1" -> declares_nothing [object_name "WinMailslot" "Handle"] t) ->
  declares_no_replaced (replaced_namespaces v) t ->
  updater_update o up d opts force s = (Ok r, s') ->
  exists t1 e, worked_on o up d opts force s t t1 /\ document s' (r_document r) (erase e) /\
    carried (cybox_gone (or_default o opts) v) (labelled t1) e /\
    stems_in (fun line line' => forall prefix, meaning prefix line' = meaning prefix line) (labelled t1) e.
Proof.
  intros U W Dn El DN Ba E. on_step U W Dn E f Ef t1 e Wk Fit Fe Doc. exists t1, e. split; auto. split; auto.
  split; [eapply cybox_step_carries; eauto|]. eapply bare_kept; [eapply fit_bare; eauto|]. eapply cybox_step_meaning; eauto.
  - eapply fit_elem; eauto.
  - apply labelled_NoDup.
  - intro V. eapply fit_declares; eauto.
Qed.

(** ** All declarations on a root that is replaced *)

Lemma meaning_rooted m p r l : replaced m [r] = true -> (forall x, In x l -> h_decl (head x) = []) ->
  meaning_after m p (l ++ [r]) = option_map (fun ns => lookup ns ns m) (meaning p (l ++ [r])).
Proof.
  intros R H. induction l as [|x l IH].
  - cbn [app]. cbn [meaning_after]. rewrite R. reflexivity.
  - cbn [app]. cbn [meaning_after]. destruct (replaced m (x :: l ++ [r])); [reflexivity|].
    cbn [meaning]. rewrite (H x (or_introl eq_refl)). cbn [env_get]. apply IH. intros y Hy. apply H. right. auto.
Qed.

Lemma visits_below t b y : In (b, y) (visits [] t) -> exists l, y :: b = (l ++ [t])%list /\ forall x, In x l -> In x (flat_map nodes (kids t)).
Proof.
  destruct t as [h ks]. intros [E|I]; [injection E as <- <-; exists []; split; auto; intros x []|].
  apply in_flat_map in I as (k & Hk & I). rewrite visits_anc in I. apply in_map_iff in I as ([b0 y0] & E & I). injection E as <- <-.
  cbn [fst snd]. exists (y0 :: b0). split; [reflexivity|]. intros x Hx. apply in_flat_map. exists k. split; auto. eapply visits_line; eauto.
Qed.

Lemma on_root_erase t : declared_on_root (erase t) <-> declared_on_root t.
Proof.
  destruct t as [h ks]. unfold declared_on_root. cbn [erase kids]. rewrite flat_map_map. split; intros H x Hx.
  - apply in_flat_map in Hx as (k & Hk & Hx). specialize (H (erase x)). destruct x as [hx kx]. cbn in H. apply H.
    apply in_flat_map. exists k. split; auto. rewrite nodes_erase. apply (in_map erase _ (Node hx kx)). exact Hx.
  - apply in_flat_map in Hx as (k & Hk & Hx). rewrite nodes_erase in Hx. apply in_map_iff in Hx as (z & <- & Hz).
    destruct z as [hz kz]. cbn. apply (H (Node hz kz)). apply in_flat_map. eauto.
Qed.

Lemma on_root_labelled t : declared_on_root t -> declared_on_root (labelled t).
Proof. intro H. apply on_root_erase. unfold labelled. rewrite numbered_erase. apply on_root_erase. exact H. Qed.

Lemma replaced_erase m t : replaced m [erase t] = replaced m [t].
Proof. destruct t. reflexivity. Qed.

Lemma stix_1_2_types o opts up d s t r s' :
  dict_get "1.2" (STIX_UPDATERS o) = Some up -> wf_state s -> denotes s d t -> is_elem t = true -> distinct_attributes t ->
  replaced stix_1_2_ns_map [t] = true -> declared_on_root t ->
  updater_update o up d opts false s = (Ok r, s') ->
  exists e, document s' (r_document r) (erase e) /\ carried (fun _ => false) (labelled t) e /\
    stems_in (fun line line' => type_named line' = option_map (in_successor stix_1_2_ns_map) (type_named line)) (labelled t) e.
Proof.
  intros U W Dn El DA R Ro E.
  assert (EL : labelled (erase t) = labelled t).
  { unfold labelled. rewrite numbered_shift, (numbered_shift 1 t), erase_idem. reflexivity. }
  on_step U W Dn E f Ef t1 e Wk Fit Fe Doc. destruct Wk as [->|[Z _]]; [|discriminate].
  exists e. split; auto. rewrite <- EL. split.
  { exact (stix_step_carries _ _ _ _ _ _ Ef Fe). }
  assert (T := stix_step_types o (or_default o opts) "1.2" f _ e Ef (fit_elem _ _ Fit El) (fit_distinct _ _ Fit DA) (labelled_NoDup _)
    ltac:(discriminate) Fe).
  intros b' y' I Nz. destruct (T b' y' I Nz) as (b & y & Iy & Ey & [_ F]). exists b, y. split; auto. split; auto.
  rewrite F.
  - destruct (visits_below _ _ _ Iy) as (l & El' & Hl). unfold type_read, type_named, type_read.
    destruct (attr_of xsi_type (head y)) as [u|]; auto. destruct (split_char ":" u) as [|a [|n [|]]]; auto. cbn [option_map in_successor fst snd].
    rewrite El'. unfold in_successor. cbn [fst snd]. f_equal. f_equal. apply meaning_rooted.
    + assert (X : replaced stix_1_2_ns_map [erase (labelled (erase t))] = true).
      { unfold labelled. rewrite numbered_erase, erase_idem, replaced_erase. exact R. }
      rewrite replaced_erase in X. exact X.
    + intros x Hx. apply (on_root_labelled (erase t)); [apply on_root_erase; exact Ro|]. auto.
  - intros v Hv. destruct (update_vocabularies _) in Hv; destruct Hv.
Qed.
