(** * The checks as functions of the document. *)

From Coq Require Import String Ascii List Bool Arith Lia.
From Verif Require Import Str Xml XPath Utils Base Tables Cybox Stix Spec SpecDoc SpecPass SpecStep
  SpecCheck Lib Api Scripts Refine RefineBase RefineTrans RefineLists RefineSteps Versions.
Import ListNotations.
Local Open Scope string_scope.

(** A program that only reads the document [T] (and leaves the memory as it is). *)
Definition reads {A} (m : nat -> M A) (f : tree -> res A) : Prop :=
  forall s T, wf_state s -> In T (heap s) -> m (tid T) s = (f T, s).

Lemma reads_ext {A} (m : nat -> M A) f g : (forall t, f t = g t) -> reads m f -> reads m g.
Proof. intros E R s T W HT. rewrite <- E. apply R; auto. Qed.

Lemma reads_bind {A B} (m : nat -> M A) (k : A -> nat -> M B) f g :
  reads m f -> (forall a, reads (k a) (g a)) ->
  reads (fun r => bind (m r) (fun a => k a r)) (fun t => rbind (f t) (fun a => g a t)).
Proof.
  intros H1 H2 s T W HT. rewrite bind_run, (H1 s T W HT). destruct (f T); simpl; auto.
  apply H2; auto.
Qed.

Lemma reads_ret {A} (a : A) : reads (fun _ => ret a) (fun _ => Ok a).
Proof. intros s T W HT. reflexivity. Qed.

Lemma reads_res {A} (r : res A) : reads (fun _ => fun s => (r, s)) (fun _ => r).
Proof. intros s T W HT. reflexivity. Qed.

Lemma in_turn_cons f l t : in_turn (f :: l) t = rbind (f t) (fun _ => in_turn l t).
Proof.
  unfold in_turn. simpl. destruct (f t) as [[]|e]; simpl; auto.
  induction l as [|g l IH]; simpl; auto.
Qed.

Lemma reads_turn m1 m2 f l : reads m1 f -> reads m2 (in_turn l) ->
  reads (fun r => m1 r ;;; m2 r) (in_turn (f :: l)).
Proof.
  intros H1 H2. eapply reads_ext; [intro; symmetry; apply in_turn_cons|].
  apply (reads_bind m1 (fun _ => m2) f (fun _ => in_turn l)); auto.
Qed.

Lemma reads_turn_one m f : reads m f -> reads m (in_turn [f]).
Proof. intro H. eapply reads_ext; [|exact H]. intro t. rewrite in_turn_cons. destruct (f t) as [[]|]; auto. Qed.

Lemma reads_if (b : bool) m f : reads m f -> reads (fun r => if b then m r else ret tt) (if_asked b f).
Proof. destruct b; simpl; auto. intros _. apply reads_ret. Qed.

(** ** Versions *)

Lemma is_version_equal_sym x y : is_version_equal x y = is_version_equal y x.
Proof.
  destruct (version_equality_full x y) as (A & B & C), (version_equality_full y x) as (A' & B' & C').
  destruct (is_version_equal_cases x y) as [E|[E|E]]; rewrite E; symmetry.
  - apply A'. apply A in E as (v & p & H1 & H2). eauto.
  - apply B'. apply B in E as (v & p & w & q & H1 & H2 & H3). exists w, q, v, p. auto.
  - apply C'. apply C in E as [E|E]; auto.
Qed.

Lemma xpath_reads path ns l q :
  xcompile ns path = Some l -> pure_alts l = true -> (forall anc x, pathf l anc x = q anc x) ->
  reads (fun r => xpath r path ns) (fun t => Ok (map (fun c => tid (snd c)) (selected q t))).
Proof.
  intros C P H s T W HT. rewrite (xpath_root s T path ns l) by auto. do 2 f_equal.
  unfold select_ids, select, selected. f_equal. apply filter_ext. intros [a x]. apply H.
Qed.

Lemma given_truthy (o : option string) :
  given o = match o with Some _ => if truthy o then o else None | None => None end.
Proof. destruct o as [[|]|]; reflexivity. Qed.

Lemma stix_check_version_reads u :
  c_x_root u = STIX_XPATH_ROOT ->
  xcompile (c_nsmap u) STIX_XPATH_ROOT = Some (anywhere_path [stix "STIX_Package"]) ->
  reads (stix_check_version u) (stix_version_check (c_version u)).
Proof.
  intros X C s T W HT. unfold stix_check_version, get_root_nodes. rewrite bind_run, X.
  rewrite (xpath_reads _ _ _ (anywhere [stix "STIX_Package"]) C eq_refl) by (auto using anywhere_path_ok).
  unfold stix_version_check.
  assert (I : incl (selected (anywhere [stix "STIX_Package"]) T) (visits [] T)).
  { intros c Hc. apply filter_In in Hc. tauto. }
  destruct (selected _ T) as [|[a x] l]; [reflexivity|]. cbn [map snd]. cbv beta iota.
  unfold stix_node_version. rewrite !bind_run, (get_hdr_in s T a x) by (auto; apply I; left; auto).
  unfold ret at 1. rewrite given_truthy.
  destruct (attr_get (lq "version") (h_attr (head x))) as [f|]; auto.
  destruct (truthy (Some f)); cbn [negb]; cbv iota; [|reflexivity].
  rewrite bind_run. unfold liftr, version_is. rewrite (is_version_equal_sym f).
  destruct (is_version_equal (c_version u) f) as [[|]|e]; reflexivity.
Qed.

Lemma cybox_hdr_version_declared x :
  cybox_hdr_version (head x) = match cybox_declared x with Some v => Ok v | None => Err UnknownVersionError end.
Proof.
  unfold cybox_hdr_version, cybox_declared. rewrite !given_truthy.
  change TAG_CYBOX_MAJOR with (lq "cybox_major_version").
  change TAG_CYBOX_MINOR with (lq "cybox_minor_version").
  change TAG_CYBOX_UPDATE with (lq "cybox_update_version").
  destruct (attr_get (lq "cybox_major_version") _) as [a|]; auto.
  destruct (attr_get (lq "cybox_minor_version") _) as [b|].
  - destruct (truthy (Some a)); auto. destruct (truthy (Some b)); auto.
    destruct (attr_get (lq "cybox_update_version") _) as [c|]; auto.
    destruct (truthy (Some c)); auto.
  - destruct (truthy (Some a)); auto.
Qed.

Lemma for_each_read (f : nat -> M unit) (G : ctx -> res unit) l s :
  (forall c, In c l -> f (tid (snd c)) s = (G c, s)) ->
  for_each (map (fun c => tid (snd c)) l) f s =
  (match first_err G l with Some e => Err e | None => Ok tt end, s).
Proof.
  induction l as [|c l IH]; intro H; simpl; auto. rewrite bind_run, H by (left; auto).
  destruct (G c); auto. apply IH. intros; apply H; right; auto.
Qed.

Lemma cybox_check_version_reads u path l marked :
  c_x_root u = path -> xcompile (c_nsmap u) path = Some l -> pure_alts l = true ->
  (forall anc x, pathf l anc x = marked anc x) ->
  reads (cybox_check_version u) (cybox_version_check (c_version u) marked).
Proof.
  intros X C P H s T W HT. unfold cybox_check_version, get_root_nodes. rewrite bind_run, X.
  rewrite (xpath_reads _ _ _ marked C P H) by auto. unfold cybox_version_check.
  apply for_each_read. intros [a x] Hc. apply filter_In in Hc as [Hc _]. cbn [snd].
  unfold cybox_node_version. rewrite !bind_run, (get_hdr_in s T a x) by auto.
  unfold liftr. rewrite cybox_hdr_version_declared. unfold cybox_version_of.
  destruct (cybox_declared x) as [v|]; auto. rewrite bind_run. unfold version_is.
  destruct (is_version_equal (c_version u) v) as [[|]|e]; reflexivity.
Qed.

(** ** Disallowed content *)

Definition dreads (o : oracle) (ns : nsmap_t) (d : dfield) (r : rule) : Prop :=
  reads (fun root => dfind o d ns root None) (offenders r).

Lemma dfind_here o d ns f :
  d_ctx_types d = [] ->
  reads (fun r => bind (xpath r (d_xpath d) ns) (interrogate o (d_interrogate d))) f ->
  reads (fun r => dfind o d ns r None) f.
Proof.
  intros D R s T W HT. unfold dfind, get_contexts. rewrite D, bind_run. unfold ret at 1. cbn [find_in].
  specialize (R s T W HT). cbv beta in R. rewrite bind_run in R. rewrite bind_run.
  destruct (xpath (tid T) (d_xpath d) ns s) as [[l|e] s1]; auto.
  rewrite bind_run, R. destruct (f T); auto. rewrite bind_run. unfold ret.
  rewrite app_nil_r. auto.
Qed.

Lemma dfind_all o ns path l q :
  xcompile ns path = Some l -> pure_alts l = true -> (forall anc x, pathf l anc x = q anc x) ->
  dreads o ns (DField [] path IAll) (Elements q).
Proof.
  intros C P H. apply dfind_here; auto. simpl d_xpath. simpl d_interrogate.
  intros s T W HT. rewrite bind_run, (xpath_reads _ _ _ q C P H) by auto. reflexivity.
Qed.

Lemma map_filter_keys (g : ctx -> bool) (p : list tree -> tree -> bool) T (f : nat -> M bool) s :
  (forall c, In c (visits [] T) -> f (tid (snd c)) s = (Ok (g c), s)) ->
  filter_m f (map (fun c => tid (snd c)) (selected p T)) s =
  (Ok (map (fun c => tid (snd c)) (selected (fun a x => p a x && g (a, x)) T)), s).
Proof.
  intro H. change (map (fun c => tid (snd c)) (selected p T)) with (keys (selected p T)).
  rewrite (filter_m_err f (fun c => Ok tt) g).
  - assert (E : forall l : list ctx, first_err (fun _ => Ok tt) l = None) by (induction l; auto).
    rewrite E. unfold selected, keys. rewrite filter_filter. do 3 f_equal.
    apply filter_ext. intros [a x]. reflexivity.
  - intros c Hc. apply filter_In in Hc as [Hc _]. auto.
Qed.

Lemma forallb_filter {A} (f g : A -> bool) l : forallb f (filter g l) = forallb (fun x => negb (g x) || f x) l.
Proof. induction l as [|x l IH]; simpl; auto. destruct (g x); simpl; rewrite IH; auto. Qed.

Lemma only_ext_spec ns a x :
  only_ext ns (a, x) = forallb (fun k => negb (is_elem k) || type_in ns (x :: a) k) (kids x).
Proof.
  unfold only_ext, elem_children. rewrite forallb_filter. apply forallb_ext. intros k _. f_equal.
  unfold ext_namespace, type_in. cbn [fst snd].
  destruct (attr_get TAG_XSI_TYPE _) as [v|]; auto. destruct (env_get _ _); auto.
Qed.

Lemma dfind_only o ns path q uri :
  xcompile ns path = Some (inside_path [q]) ->
  dreads o ns (DField [] path (IOnlyExt uri)) (Elements (only_holds q uri)).
Proof.
  intro C. apply dfind_here; auto. simpl d_xpath. simpl d_interrogate.
  intros s T W HT. rewrite bind_run.
  rewrite (xpath_reads _ _ _ (any_inside [q]) C eq_refl (inside_path_ok [q])) by auto.
  unfold interrogate. rewrite (map_filter_keys (only_ext uri)).
  - unfold offenders, selected. do 3 f_equal. apply filter_ext. intros [a x]. cbn [fst snd].
    rewrite only_ext_spec. reflexivity.
  - intros [a x] Hx. cbn [snd]. rewrite bind_run, (deref_in s T a x) by auto. reflexivity.
Qed.

Lemma dfind_many o ns path l q : 
  xcompile ns path = Some l -> pure_alts l = true -> (forall anc x, pathf l anc x = q anc x) ->
  dreads o ns (DField [] path IManyKids)
    (Elements (fun anc t => q anc t && Nat.ltb 1 (length (kids t)))).
Proof.
  intros C P H. apply dfind_here; auto. simpl d_xpath. simpl d_interrogate.
  intros s T W HT. rewrite bind_run, (xpath_reads _ _ _ q C P H) by auto.
  unfold interrogate. rewrite (map_filter_keys (fun c => Nat.ltb 1 (length (kids (snd c))))).
  - reflexivity.
  - intros [a x] Hx. cbn [snd]. rewrite bind_run, (deref_in s T a x) by auto. reflexivity.
Qed.

Lemma valid_datetime_spec o t : valid_datetime o t = date_time o t.
Proof.
  unfold valid_datetime, date_time. rewrite given_truthy. destruct (h_text (head t)) as [v|]; auto.
  destruct (truthy (Some v)); reflexivity.
Qed.

Lemma map_parents l s T : wf_state s -> In T (heap s) ->
  (forall c, In c l -> In c (visits [] T) /\ inside (fst c) = true) ->
  map_m (fun i => c <- deref i ;; match parent c with
                                  | Some p => ret (tid p)
                                  | None => raise AttributeError
                                  end) (map (fun c => tid (snd c)) l) s =
  (Ok (flat_map (fun c : ctx => match fst c with q :: _ => [tid q] | [] => [] end) l), s).
Proof.
  intros W HT. induction l as [|[a x] l IH]; intro H; simpl; auto.
  destruct (H (a, x) (or_introl eq_refl)) as [H1 H2].
  rewrite !bind_run, (deref_in s T a x) by auto. destruct a as [|p a]; [discriminate|].
  cbn [parent fst]. unfold ret at 1. rewrite bind_run, IH by (intros; apply H; right; auto). reflexivity.
Qed.

Lemma dfind_datetime o ns path l q :
  xcompile ns path = Some l -> pure_alts l = true -> (forall anc x, pathf l anc x = q anc x) ->
  (forall anc x, q anc x = true -> inside anc = true) ->
  dreads o ns (DField [] path IBadDateTime) (Parents (fun anc t => q anc t && negb (date_time o t))).
Proof.
  intros C P H I. apply dfind_here; auto. simpl d_xpath. simpl d_interrogate.
  intros s T W HT. rewrite bind_run, (xpath_reads _ _ _ q C P H) by auto.
  unfold interrogate. rewrite bind_run, (map_filter_keys (fun c => negb (valid_datetime o (snd c)))).
  - rewrite (map_parents _ s T) by (auto; intros [a x] Hc; apply filter_In in Hc as [H1 H2]; split; auto;
      cbn [fst snd] in *; apply andb_true_iff in H2 as [H2 _]; eauto).
    unfold offenders, selected. do 3 f_equal. apply filter_ext. intros [a x]. cbn [fst snd].
    rewrite valid_datetime_spec. reflexivity.
  - intros [a x] Hx. cbn [snd]. rewrite bind_run, (deref_in s T a x) by auto. reflexivity.
Qed.

Lemma context_read name ns s T : wf_state s -> In T (heap s) ->
  filter_m (fun i => ti <- get_type_info i ;; u <- get_ext_namespace i ;;
                     ret (ostr_eqb (dict_get (snd ti) [(name, ns)]) (Some u))) (select_ids typed T) s =
  match first_err type_of (filter typed (visits [] T)) with
  | Some e => (Err e, s)
  | None => (Ok (keys (filter (of_type name ns) (visits [] T))), s)
  end.
Proof.
  intros W HT. change (select_ids typed T) with (keys (filter typed (visits [] T))).
  rewrite (filter_m_err _ type_of (fun c => match type_of c with
             | Ok (_, n, u) => String.eqb n name && String.eqb u ns | Err _ => false end)).
  - destruct (first_err _ _); auto. rewrite filter_filter. reflexivity.
  - intros [a x] Hc. apply filter_In in Hc as [Hx _]. simpl snd.
    unfold get_type_info, get_ext_namespace. rewrite !bind_run, (get_hdr_in s T a x) by auto.
    unfold liftr. rewrite type_of_parts. simpl snd.
    destruct (type_info (head x)) as [[al nm]|e]; simpl; auto.
    rewrite !bind_run, (deref_in s T a x) by auto.
    destruct (ext_namespace (a, x)) as [n|e]; simpl; auto. unfold ret. do 2 f_equal.
    rewrite (String.eqb_sym n ns). destruct (String.eqb nm name); reflexivity.
Qed.

Lemma find_self_read o ns cts s T : wf_state s -> In T (heap s) -> forall cs, incl cs (visits [] T) ->
  find_in o (DField cts "." IAll) ns (keys cs) s = (Ok (keys cs), s).
Proof.
  intros W HT. induction cs as [|[a x] cs IH]; intro HI; auto.
  assert (Hx : In (a, x) (visits [] T)) by (apply HI; left; auto).
  cbn [keys map find_in snd d_xpath d_interrogate interrogate]. fold (keys cs).
  rewrite bind_run, (xpath_read s T a x "." ns [RSelf]) by (auto; reflexivity).
  rewrite bind_run. unfold ret at 1.
  rewrite bind_run, IH by (intros c Hc; apply HI; right; auto). unfold ret. do 2 f_equal.
  assert (E : select_ids (match_path [RSelf]) x = [tid x]); [|rewrite E; reflexivity].
  destruct x as [h ks]. unfold select_ids, select. simpl. f_equal.
  assert (N : forall l : list ctx, (forall c, In c l -> fst c <> []) -> filter (match_path [RSelf]) l = []).
  { induction l as [|[b y] l IHl]; intro Hl; simpl; auto. unfold match_path at 1. simpl.
    pose proof (Hl (b, y) (or_introl eq_refl)) as Hb. simpl in Hb. destruct b; [congruence|].
    simpl. apply IHl. intros; apply Hl; right; auto. }
  rewrite N; auto. intros [b y] Hc E. apply in_flat_map in Hc as (k & _ & Hc). simpl in E. subst b.
  apply visits_anc_app in Hc as (b & Hb). destruct b; discriminate.
Qed.

Lemma dfind_instances o ns name uri :
  dreads o ns (DField [(name, uri)] "." IAll) (Instances name uri).
Proof.
  intros s T W HT. unfold dfind, get_contexts. cbn [d_ctx_types].
  rewrite bind_run, bind_run, (get_typed_nodes_read s T) by auto.
  rewrite (context_read name uri s T) by auto. unfold offenders.
  destruct (first_err type_of _); auto.
  apply (find_self_read o ns _ s T W HT). intros c Hc. apply filter_In in Hc. tauto.
Qed.

Lemma find_disallowed_reads o ns l rules : Forall2 (dreads o ns) l rules ->
  reads (fun r => find_disallowed o ns l r) (untranslatable rules).
Proof.
  induction 1 as [|d r l rules H F IH]; [apply reads_ret|].
  simpl find_disallowed. simpl untranslatable.
  apply (reads_bind (fun r => dfind o d ns r None)
           (fun found r => rest <- find_disallowed o ns l r ;; ret (found ++ rest)%list)); auto.
  intro a. apply (reads_bind (fun r => find_disallowed o ns l r) (fun rest _ => ret (a ++ rest)%list)); auto.
  intro b. apply reads_ret.
Qed.

Lemma find_disallowed_app o ns ns2 l1 l2 rules1 rules2 :
  Forall2 (dreads o ns) l1 rules1 -> Forall2 (dreads o ns2) l2 rules2 ->
  reads (fun r => a <- find_disallowed o ns l1 r ;; b <- find_disallowed o ns2 l2 r ;; ret (a ++ b)%list)
        (untranslatable (rules1 ++ rules2)).
Proof.
  intros F1 F2. eapply reads_ext; [|apply (reads_bind (fun r => find_disallowed o ns l1 r)
     (fun a r => b <- find_disallowed o ns2 l2 r ;; ret (a ++ b)%list) (untranslatable rules1)
     (fun a t => rbind (untranslatable rules2 t) (fun b => Ok (a ++ b)%list)))].
  - intro t. clear. induction rules1 as [|r rs IH]; simpl.
    + destruct (untranslatable rules2 t); auto.
    + destruct (offenders r t) as [a|e]; simpl; auto. rewrite <- IH.
      destruct (untranslatable rs t) as [b|e]; simpl; auto.
      destruct (untranslatable rules2 t) as [c|e]; simpl; auto. rewrite app_assoc. auto.
  - apply find_disallowed_reads; auto.
  - intro a. apply (reads_bind (fun r => find_disallowed o ns2 l2 r) (fun b _ => ret (a ++ b)%list)).
    + apply find_disallowed_reads; auto.
    + intro b. apply reads_ret.
Qed.

Lemma stix_1_0_disallowed o : Forall2 (dreads o (c_klass_nsmap STIX_1_0)) (c_disallowed STIX_1_0) stix_1_0_rules.
Proof.
  repeat constructor.
  - apply dfind_instances.
  - apply dfind_instances.
  - apply dfind_only. compiled.
  - apply dfind_only. compiled.
Qed.

Definition mailslot_path : list ralt :=
  [RDesc false (RStep (Some (object_name "WinMailslot" "Handle"))
                      (Some (RChild (object_name "WinHandle" "Handle")))) None].

Lemma mailslot_path_ok anc t : pathf mailslot_path anc t =
  any_inside [object_name "WinMailslot" "Handle"] anc t
  && existsb (named (object_name "WinHandle" "Handle")) (kids t).
Proof.
  unfold pathf, match_path, mailslot_path. cbn [existsb fst snd]. rewrite orb_false_r.
  unfold any_inside, named_in. cbn [existsb]. rewrite orb_false_r, <- andb_assoc.
  cbn [match_alt orb]. f_equal. unfold match_step, named at 1, is_elem. cbn [r_test r_pred].
  destruct (h_kind (head t)); auto. cbn [andb]. f_equal.
  apply existsb_ext. intros k _. unfold has_tag, named, is_elem. destruct (h_kind (head k)); auto.
Qed.

Lemma cybox_2_0_1_disallowed o :
  Forall2 (dreads o (c_klass_nsmap Cybox_2_0_1)) (c_disallowed Cybox_2_0_1) cybox_2_0_1_rules.
Proof.
  repeat constructor.
  - apply (dfind_all _ _ _ (inside_path [http_name "X_Forwarded_Proto"])); try compiled. apply inside_path_ok.
  - apply (dfind_all _ _ _ (inside_path [object_name "WinTask" "Trigger_Type"])); try compiled. apply inside_path_ok.
  - eapply (dfind_all _ _ _ (child_path [object_name "WinExecutableFile" "Section"]
              (object_name "WinExecutableFile" "Type"))); try compiled. apply child_path_ok.
  - apply (dfind_many _ _ _ mailslot_path); try compiled. apply mailslot_path_ok.
Qed.

Lemma stix_1_0_1_disallowed o :
  Forall2 (dreads o (c_klass_nsmap STIX_1_0_1)) (c_disallowed STIX_1_0_1)
    (firstn 5 (stix_1_0_1_rules o)).
Proof.
  repeat constructor.
  - apply dfind_instances.
  - apply dfind_instances.
  - apply (dfind_datetime _ _ _ (child_path [campaign "Activity"] (common "Date_Time"))); try compiled.
    + apply child_path_ok.
    + intros anc x H. unfold child_in, child_of in H. destruct anc; [discriminate|reflexivity].
  - apply dfind_only. compiled.
  - apply dfind_only. compiled.
Qed.

Lemma stix_1_0_1_get_disallowed_reads o :
  reads (stix_1_0_1_get_disallowed o) (untranslatable (stix_1_0_1_rules o)).
Proof.
  apply (find_disallowed_app o _ _ _ _ (firstn 5 (stix_1_0_1_rules o)) cybox_2_0_1_rules).
  - apply stix_1_0_1_disallowed.
  - apply cybox_2_0_1_disallowed.
Qed.

Lemma stix_1_0_get_disallowed_reads o :
  reads (stix_1_0_get_disallowed o) (untranslatable stix_1_0_rules).
Proof. apply find_disallowed_reads, stix_1_0_disallowed. Qed.

Lemma cybox_2_0_1_get_disallowed_reads o :
  reads (cybox_2_0_1_get_disallowed o Cybox_2_0_1) (untranslatable cybox_2_0_1_rules).
Proof. apply find_disallowed_reads, cybox_2_0_1_disallowed. Qed.

(** ** Duplicate ids *)

Definition group_step (acc : dict (list nat)) (p : string * nat) : dict (list nat) :=
  dict_set (fst p) (match dict_get (fst p) acc with
                    | Some l => (l ++ [snd p])%list
                    | None => [snd p]
                    end) acc.

Definition dict_of {A} (g : string -> A) (l : list string) : dict A := map (fun i => (i, g i)) l.

Lemma dict_get_of {A} (g : string -> A) l i :
  dict_get i (dict_of g l) = if mem_str i l then Some (g i) else None.
Proof.
  induction l as [|x l IH]; simpl; auto. unfold mem_str. simpl. fold (mem_str i l).
  destruct (String.eqb_spec i x) as [->|E]; simpl; auto.
Qed.

Lemma mem_str_In x l : mem_str x l = true <-> In x l.
Proof.
  unfold mem_str. rewrite existsb_exists. split.
  - intros (y & H & E). apply String.eqb_eq in E. subst; auto.
  - intro H. exists x. split; auto. apply String.eqb_refl.
Qed.

Lemma mem_str_app x l1 l2 : mem_str x (l1 ++ l2) = mem_str x l1 || mem_str x l2.
Proof. apply existsb_app. Qed.

Lemma dict_set_of {A} (g g' : string -> A) l i v : NoDup l ->
  g' i = v -> (forall j, j <> i -> g' j = g j) ->
  dict_set i v (dict_of g l) = dict_of g' (if mem_str i l then l else l ++ [i]).
Proof.
  intros N Hi Hj. induction l as [|x l IH]; simpl.
  - rewrite Hi. reflexivity.
  - inversion N as [|? ? N1 N2]; subst. unfold mem_str. simpl. fold (mem_str i l).
    destruct (String.eqb_spec i x) as [->|E].
    + simpl. f_equal. apply map_ext_in. intros j Hjl. rewrite Hj; auto. intro; subst; auto.
    + rewrite IH by auto. simpl. destruct (mem_str i l); simpl; rewrite Hj by auto; auto.
Qed.

Lemma firsts_snoc l : forall seen x,
  firsts seen (l ++ [x]) = if mem_str x (seen ++ l) then firsts seen l else (firsts seen l ++ [x])%list.
Proof.
  induction l as [|y l IH]; intros seen x; simpl.
  - rewrite app_nil_r. destruct (mem_str x seen); auto.
  - destruct (mem_str y seen) eqn:E.
    + rewrite IH. rewrite !mem_str_app. unfold mem_str at 4. simpl. fold (mem_str x l).
      destruct (mem_str x seen) eqn:Ex; simpl; auto. destruct (String.eqb_spec x y) as [->|]; simpl; auto.
      congruence.
    + rewrite IH. simpl. unfold mem_str at 1. simpl. fold (mem_str x (seen ++ l)).
      rewrite !mem_str_app. unfold mem_str at 4. simpl. fold (mem_str x l).
      destruct (String.eqb x y), (mem_str x seen), (mem_str x l); reflexivity.
Qed.

Lemma firsts_spec l : forall seen x, In x (firsts seen l) <-> In x l /\ mem_str x seen = false.
Proof.
  induction l as [|y l IH]; intros seen x; simpl; [tauto|].
  destruct (mem_str y seen) eqn:E.
  - rewrite IH. split; [tauto|]. intros [[->|H] H2]; auto. congruence.
  - simpl. rewrite IH. unfold mem_str at 1. simpl. fold (mem_str x seen).
    destruct (String.eqb_spec x y) as [->|Ne]; simpl.
    + split; auto. 
    + split; [intros [H|[H1 H2]]; auto; congruence|]. intros [[H|H] H2]; auto; try congruence.
Qed.

Lemma firsts_NoDup l : forall seen, NoDup (firsts seen l).
Proof.
  induction l as [|y l IH]; intro seen; simpl; [constructor|].
  destruct (mem_str y seen); auto. constructor; auto.
  rewrite firsts_spec. intros [_ H]. unfold mem_str in H. simpl in H. rewrite String.eqb_refl in H. discriminate.
Qed.

Definition picks (P : list (string * nat)) (i : string) : list nat :=
  map snd (filter (fun p => String.eqb (fst p) i) P).

Lemma group_fold P :
  fold_left group_step P [] = dict_of (picks P) (firsts [] (map fst P)).
Proof.
  induction P as [|[i n] P IH] using rev_ind; auto.
  rewrite fold_left_app, IH. simpl. unfold group_step. simpl fst. simpl snd.
  rewrite dict_get_of, map_app. simpl map. rewrite firsts_snoc.
  change (@nil string ++ map fst P)%list with (map fst P).
  assert (M : mem_str i (firsts [] (map fst P)) = mem_str i (map fst P)).
  { apply eq_true_iff_eq. rewrite !mem_str_In, firsts_spec. simpl. tauto. }
  rewrite <- M. rewrite (dict_set_of (picks P) (picks (P ++ [(i, n)]))).
  - reflexivity.
  - apply firsts_NoDup.
  - unfold picks. rewrite filter_app, map_app. simpl. rewrite String.eqb_refl. simpl.
    rewrite M. destruct (mem_str i (map fst P)) eqn:E; auto.
    replace (filter (fun p => String.eqb (fst p) i) P) with (@nil (string * nat)); auto.
    symmetry. clear -E. induction P as [|[j m] P IH]; simpl; auto. unfold mem_str in E. simpl in E.
    apply orb_false_iff in E as [E1 E2]. rewrite String.eqb_sym, E1. auto.
  - intros j Hj. unfold picks. rewrite filter_app, map_app. simpl.
    destruct (String.eqb_spec i j); [congruence|]. simpl. rewrite app_nil_r. auto.
Qed.

Definition pairs_of (l : list tree) : list (string * nat) :=
  flat_map (fun x => match id_of x with Some i => [(i, tid x)] | None => [] end) l.

Lemma id_groups_fold nss t : id_groups nss t = fold_left group_step (pairs_of (counted nss t)) [].
Proof.
  unfold id_groups, counted. generalize (@nil (string * list nat)).
  induction (tl (visits [] t)) as [|[a x] l IH]; intro acc; auto. simpl.
  rewrite IH. unfold id_of. destruct (is_elem x); simpl; auto.
  destruct (attr_get (lq "id") (h_attr (head x))) as [i|] eqn:Ei, (q_ns (h_tag (head x))) as [ns|]; auto.
  - destruct (mem_str ns nss); simpl; auto. unfold id_of. rewrite Ei. reflexivity.
  - destruct (mem_str ns nss); simpl; auto. unfold id_of. rewrite Ei. reflexivity.
Qed.

Lemma picks_pairs l i : picks (pairs_of l) i = map tid (filter (fun x => ostr_eqb (id_of x) (Some i)) l).
Proof.
  induction l as [|x l IH]; simpl; auto. unfold picks in *. rewrite filter_app, map_app, IH.
  destruct (id_of x) as [j|]; simpl; auto. destruct (String.eqb j i); reflexivity.
Qed.

Lemma fst_pairs l : map fst (pairs_of l) =
  flat_map (fun x => match id_of x with Some i => [i] | None => [] end) l.
Proof. induction l as [|x l IH]; simpl; auto. rewrite map_app, IH. destruct (id_of x); auto. Qed.

Lemma dict_of_ext {A} (g h : string -> A) l : (forall i, In i l -> g i = h i) -> dict_of g l = dict_of h l.
Proof. intro H. apply map_ext_in. intros i Hi. rewrite H; auto. Qed.

Lemma duplicate_groups_spec nss t :
  duplicate_groups nss t = with_bearers nss t (shared nss t).
Proof.
  unfold duplicate_groups. rewrite id_groups_fold, group_fold, fst_pairs.
  unfold shared, with_bearers, ids_in_use. unfold dict_of.
  assert (E : forall i, picks (pairs_of (counted nss t)) i = bearers nss i t) by (intro; apply picks_pairs).
  induction (firsts _ _) as [|i l IH]; simpl; auto. rewrite E.
  destruct (Nat.ltb 1 (length (bearers nss i t))); simpl; rewrite IH; rewrite ?E; auto.
Qed.

Lemma counted_ext nss nss' t : (forall n, mem_str n nss = mem_str n nss') -> counted nss t = counted nss' t.
Proof.
  intro H. apply filter_ext. intro x. f_equal. destruct (q_ns _); auto.
Qed.

Lemma get_duplicates_reads u nss :
  (forall n, mem_str n (map snd (c_nsmap u)) = mem_str n nss) ->
  reads (get_duplicates u) (fun t => Ok (with_bearers nss t (shared nss t))).
Proof.
  intros H s T W HT. unfold get_duplicates. rewrite bind_run, (deref_root s T) by auto.
  unfold ret. cbn [snd]. do 2 f_equal. rewrite duplicate_groups_spec.
  unfold with_bearers, shared, ids_in_use, bearers. rewrite (counted_ext _ nss) by auto. reflexivity.
Qed.

Lemma mem_str_same l1 l2 : forallb (fun x => mem_str x l2) l1 = true -> forallb (fun x => mem_str x l1) l2 = true ->
  forall n, mem_str n l1 = mem_str n l2.
Proof.
  rewrite !forallb_forall. intros H1 H2 n. apply eq_true_iff_eq. rewrite !mem_str_In.
  split; intro H; apply mem_str_In; auto.
Qed.

(** Merging the STIX groups with the groups over all namespaces. *)
Lemma dict_update_of {A} (g h : string -> A) l2 : forall l1, NoDup l1 -> NoDup l2 ->
  dict_update (dict_of g l1) (dict_of h l2) =
  dict_of (fun i => if mem_str i l2 then h i else g i)
    (l1 ++ filter (fun i => negb (mem_str i l1)) l2).
Proof.
  induction l2 as [|i l2 IH] using rev_ind; intros l1 N1 N2.
  - simpl. rewrite app_nil_r. reflexivity.
  - apply NoDup_app in N2 as (N2 & _ & N3). unfold dict_update, dict_of in *.
    rewrite map_app, fold_left_app. simpl fold_left.
    rewrite (IH l1 N1 N2). clear IH.
    change (dict_set i (h i) (dict_of (fun i => if mem_str i l2 then h i else g i)
              (l1 ++ filter (fun i => negb (mem_str i l1)) l2)) =
            dict_of (fun i0 => if mem_str i0 (l2 ++ [i]) then h i0 else g i0)
              (l1 ++ filter (fun i => negb (mem_str i l1)) (l2 ++ [i]))).
    assert (Hi : mem_str i l2 = false).
    { destruct (mem_str i l2) eqn:E; auto. apply mem_str_In in E. exfalso. apply (N3 i E). left; auto. }
    rewrite (dict_set_of _ (fun i0 => if mem_str i0 (l2 ++ [i]) then h i0 else g i0)).
    + f_equal. rewrite filter_app, mem_str_app. simpl filter.
      assert (Hf : mem_str i (filter (fun i => negb (mem_str i l1)) l2) = false).
      { destruct (mem_str i (filter _ l2)) eqn:E; auto. apply mem_str_In, filter_In in E as [E _].
        apply mem_str_In in E. congruence. }
      rewrite Hf, orb_false_r. destruct (mem_str i l1); simpl.
      * rewrite app_nil_r. auto.
      * rewrite app_assoc. auto.
    + apply NoDup_app. split; auto. split; [apply NoDup_filter; auto|].
      intros x H1 H2. apply filter_In in H2 as [_ H2]. apply mem_str_In in H1. rewrite H1 in H2. discriminate.
    + rewrite mem_str_app. unfold mem_str. cbn [existsb]. rewrite String.eqb_refl, orb_true_r. auto.
    + intros j Hj. rewrite mem_str_app. unfold mem_str. cbn [existsb].
      destruct (String.eqb_spec j i); [congruence|]. rewrite !orb_false_r. auto.
Qed.

Lemma filter_length_le {A} (f g : A -> bool) l : (forall x, f x = true -> g x = true) ->
  length (filter f l) <= length (filter g l).
Proof.
  intro H. induction l as [|x l IH]; simpl; auto. destruct (f x) eqn:E.
  - rewrite (H x E). simpl. lia.
  - destruct (g x); simpl; lia.
Qed.

Lemma shared_spec nss t i : In i (shared nss t) <-> 1 < length (bearers nss i t).
Proof.
  unfold shared. rewrite filter_In, Nat.ltb_lt. split; [tauto|]. intro H. split; auto.
  unfold ids_in_use. apply firsts_spec. split; auto.
  unfold bearers in H. rewrite map_length in H.
  destruct (filter _ (counted nss t)) as [|x l] eqn:E; [simpl in H; lia|].
  assert (Hx : In x (filter (fun x => ostr_eqb (id_of x) (Some i)) (counted nss t))) by (rewrite E; left; auto).
  apply filter_In in Hx as [Hx Hi]. apply in_flat_map. exists x. split; auto.
  destruct (id_of x) as [j|]; [|discriminate]. simpl in Hi. apply String.eqb_eq in Hi. subst; left; auto.
Qed.

Lemma shared_mono nss nss' t i : (forall n, mem_str n nss = true -> mem_str n nss' = true) ->
  In i (shared nss t) -> In i (shared nss' t).
Proof.
  intros H. rewrite !shared_spec. unfold bearers. rewrite !map_length. intro L.
  eapply Nat.lt_le_trans; [exact L|]. unfold counted. rewrite !filter_filter.
  apply filter_length_le. intros x E. apply andb_true_iff in E as [E1 E2]. rewrite E2, andb_true_r.
  apply andb_true_iff in E1 as [E1 E3]. rewrite E1. simpl. destruct (q_ns _); auto.
Qed.

Lemma shared_NoDup nss t : NoDup (shared nss t).
Proof. apply NoDup_filter, firsts_NoDup. Qed.

Lemma merged_namespaces n :
  mem_str n (map snd (c_nsmap Cybox_in_1_0_1)) = mem_str n (stix_namespaces ++ cybox_namespaces).
Proof. apply mem_str_same; vm_compute; reflexivity. Qed.

Lemma stix_1_0_1_get_duplicates_reads :
  reads stix_1_0_1_get_duplicates (fun t => Ok (stix_duplicates t)).
Proof.
  intros s T W HT. unfold stix_1_0_1_get_duplicates.
  rewrite bind_run, (get_duplicates_reads STIX_1_0_1 stix_namespaces (fun n => eq_refl) s T) by auto.
  rewrite bind_run, (get_duplicates_reads Cybox_in_1_0_1 _ merged_namespaces s T) by auto.
  unfold ret, stix_duplicates. do 2 f_equal. unfold with_bearers.
  change (dict_update (dict_of (fun i => bearers stix_namespaces i T) (shared stix_namespaces T))
            (dict_of (fun i => bearers (stix_namespaces ++ cybox_namespaces) i T)
               (shared (stix_namespaces ++ cybox_namespaces) T)) =
          dict_of (fun i => bearers (stix_namespaces ++ cybox_namespaces) i T)
            (shared stix_namespaces T ++ filter (fun i => negb (mem_str i (shared stix_namespaces T)))
               (shared (stix_namespaces ++ cybox_namespaces) T))).
  rewrite dict_update_of by apply shared_NoDup. apply dict_of_ext. intros i Hi.
  assert (E : mem_str i (shared (stix_namespaces ++ cybox_namespaces) T) = true); [|rewrite E; auto].
  apply mem_str_In. apply in_app_iff in Hi as [Hi|Hi].
  - eapply shared_mono; [|exact Hi]. intros n Hn. rewrite mem_str_app, Hn. auto.
  - apply filter_In in Hi. tauto.
Qed.

Lemma cybox_2_0_1_get_duplicates_reads :
  reads (get_duplicates Cybox_2_0_1) (fun t => Ok (cybox_duplicates t)).
Proof. apply get_duplicates_reads. intro; reflexivity. Qed.

(** ** The checks *)

Lemma reads_both (b : bool) m1 m2 m3 f1 f2 f3 :
  reads m1 f1 -> reads m2 f2 -> reads m3 f3 ->
  reads (fun r => (if b then m1 r ;;; m2 r else ret tt) ;;; m3 r) (in_turn [if_asked b f1; if_asked b f2; f3]).
Proof.
  intros H1 H2 H3 s T W HT. rewrite !in_turn_cons, bind_run. destruct b; simpl if_asked.
  - rewrite bind_run, (H1 s T W HT). destruct (f1 T) as [[]|e]; simpl; auto.
    rewrite (H2 s T W HT). destruct (f2 T) as [[]|e]; simpl; auto.
    rewrite (H3 s T W HT). destruct (f3 T) as [[]|e]; simpl; auto.
  - simpl. rewrite (H3 s T W HT). destruct (f3 T) as [[]|e]; simpl; auto.
Qed.

Lemma report_reads o_get d_get rules dups :
  reads o_get (untranslatable rules) -> reads d_get (fun t => Ok (dups t)) ->
  reads (fun r => d <- d_get r ;; l <- o_get r ;; report l d) (nothing_to_clean rules dups).
Proof.
  intros H1 H2 s T W HT. rewrite bind_run, (H2 s T W HT), bind_run, (H1 s T W HT).
  unfold nothing_to_clean. destruct (untranslatable rules T) as [[|x l]|e]; simpl; auto;
    destruct (dups T); reflexivity.
Qed.

Lemma stix_version_reads_1_0 : reads (stix_check_version STIX_1_0) (stix_version_check "1.0").
Proof. apply (stix_check_version_reads STIX_1_0); compiled. Qed.
Lemma stix_version_reads_1_0_1 : reads (stix_check_version STIX_1_0_1) (stix_version_check "1.0.1").
Proof. apply (stix_check_version_reads STIX_1_0_1); compiled. Qed.

Lemma stix_checks o opts v up f : dict_get v (STIX_UPDATERS o) = Some up ->
  stix_check o opts v = Some f -> reads (fun r => up_check up r opts) f.
Proof.
  unfold STIX_UPDATERS, stix_check, dict_get.
  repeat match goal with |- context [String.eqb v ?x] => destruct (String.eqb v x) end;
    intros H1 H2; try discriminate; injection H1 as <-; injection H2 as <-; cbn [up_check STIX_1_0_Updater
      STIX_1_0_1_Updater STIX_1_1_Updater STIX_1_1_1_Updater STIX_1_2_Updater].
  - unfold stix_1_0_check. apply (reads_both (check_versions opts) (stix_check_version STIX_1_0)
       (cybox_check_version Cybox_in_1_0)
       (fun root => disallowed <- stix_1_0_get_disallowed o root ;;
          match disallowed with [] => ret tt | _ => raise (UpdateError (Some disallowed) None) end)).
    + apply stix_version_reads_1_0.
    + apply (cybox_check_version_reads Cybox_in_1_0 CYBOX_SELECTORS_1_0 (anywhere_path cybox_in_stix_1_0)); try compiled.
      apply anywhere_path_ok.
    + intros s T W HT. rewrite bind_run, (stix_1_0_get_disallowed_reads o s T W HT).
      unfold nothing_untranslatable. destruct (untranslatable stix_1_0_rules T) as [[|]|]; reflexivity.
  - unfold stix_1_0_1_check. apply (reads_both (check_versions opts) (stix_check_version STIX_1_0_1)
       (cybox_check_version Cybox_in_1_0_1)
       (fun root => duplicates <- stix_1_0_1_get_duplicates root ;;
          disallowed <- stix_1_0_1_get_disallowed o root ;; report disallowed duplicates)).
    + apply stix_version_reads_1_0_1.
    + apply (cybox_check_version_reads Cybox_in_1_0_1 CYBOX_SELECTORS_1_0_1 (inside_path cybox_in_stix_1_0_1)); try compiled.
      apply inside_path_ok.
    + apply report_reads; [apply stix_1_0_1_get_disallowed_reads|apply stix_1_0_1_get_duplicates_reads].
  - unfold stix_1_1_check. apply reads_if. apply (stix_check_version_reads STIX_1_1); compiled.
  - unfold stix_1_1_1_check. apply reads_if. apply (stix_check_version_reads STIX_1_1_1); compiled.
  - unfold stix_1_2_check. apply reads_if. apply (stix_check_version_reads STIX_1_2); compiled.
Qed.

Lemma cybox_checks o opts v up f : dict_get v (CYBOX_UPDATERS o) = Some up ->
  cybox_check opts v = Some f -> reads (fun r => up_check up r opts) f.
Proof.
  unfold CYBOX_UPDATERS, cybox_check, dict_get.
  repeat match goal with |- context [String.eqb v ?x] => destruct (String.eqb v x) end;
    intros H1 H2; try discriminate; injection H1 as <-; injection H2 as <-; cbn [up_check Cybox_2_0_Updater
      Cybox_2_0_1_Updater].
  - unfold cybox_2_0_check. apply reads_if.
    apply (cybox_check_version_reads Cybox_2_0 CYBOX_XPATH_NODES (anywhere_path [cybox "Observables"])); try compiled.
    apply anywhere_path_ok.
  - unfold cybox_2_0_1_check. apply reads_turn.
    + apply reads_if.
      apply (cybox_check_version_reads Cybox_2_0_1 CYBOX_XPATH_NODES (anywhere_path [cybox "Observables"])); try compiled.
      apply anywhere_path_ok.
    + apply reads_turn_one. apply (report_reads (cybox_2_0_1_get_disallowed o Cybox_2_0_1)
        (get_duplicates Cybox_2_0_1)).
      * apply cybox_2_0_1_get_disallowed_reads.
      * apply cybox_2_0_1_get_duplicates_reads.
Qed.
