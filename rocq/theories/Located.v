(** * Schema locations through a step. *)

From Coq Require Import String Ascii List Bool Arith Lia.
From Verif Require Import Str Xml XPath Utils Base Tables Spec SpecDoc SpecPass SpecStep
  SpecCheck SpecClean SpecUpdate SpecNs SpecTrace SpecField SpecLocation Lib Refine RefineBase RefineTrans RefineLists RefineSteps Relabel Cybox Stix RefineUpdate Natural Updates Reports UpdateFacts Trace Fields Carried Follow Vocab Worked Marks Root Scripts.
Import ListNotations.
Local Open Scope string_scope.

(** ** Words *)

Lemma app_empty_r (s : string) : s ++ "" = s.
Proof. induction s as [|a s IH]; simpl; auto. rewrite IH. reflexivity. Qed.

Lemma app_string_assoc (a b c : string) : (a ++ b) ++ c = a ++ (b ++ c).
Proof. induction a as [|x a IH]; simpl; auto. rewrite IH. reflexivity. Qed.

Lemma separator_space a : separator a = is_space a.
Proof. destruct a as [[] [] [] [] [] [] [] []]; vm_compute; reflexivity. Qed.

Lemma every_solid s : s <> "" -> every (fun a => negb (separator a)) s = true -> solid s = true.
Proof.
  intros N H. unfold solid. apply andb_true_iff. split; [destruct s; [congruence|reflexivity]|].
  clear N. induction s as [|a s IH]; auto. simpl in *. apply andb_true_iff in H as [A B]. rewrite separator_space in A.
  rewrite A. auto.
Qed.

Lemma solid_every s : solid s = true -> s <> "" /\ every (fun a => negb (separator a)) s = true.
Proof.
  unfold solid. intro H. apply andb_true_iff in H as [N H]. split; [intros ->; discriminate|].
  clear N. induction s as [|a s IH]; auto. simpl in *. apply andb_true_iff in H as [A B]. rewrite separator_space, A. auto.
Qed.

Lemma split_ws_blank s r : every separator s = true -> split_ws (s ++ r) = split_ws r.
Proof.
  induction s as [|a s IH]; auto. intro H. simpl in H. apply andb_true_iff in H as [A B]. rewrite separator_space in A.
  cbn [append split_ws]. rewrite A. auto.
Qed.

Lemma words_split s l : words s l -> split_ws s = l.
Proof.
  induction 1 as [s H|sp w rest l Hs Nw Hw Hr W IH].
  - rewrite <- (app_empty_r s), split_ws_blank by auto. reflexivity.
  - rewrite split_ws_blank by auto. pose proof (every_solid w Nw Hw) as Sw. destruct rest as [|a rest].
    + rewrite app_empty_r, split_ws_solid by auto. simpl in IH. subst l. reflexivity.
    + rewrite separator_space in Hr. rewrite split_ws_app by auto. f_equal. rewrite <- IH. cbn [split_ws]. rewrite Hr. reflexivity.
Qed.

Lemma split_words s : words s (split_ws s).
Proof.
  assert (G : forall n s, String.length s <= n -> words s (split_ws s)).
  2:{ apply (G (String.length s)); auto. }
  clear s. induction n as [|n IH]; intros s L.
  { destruct s; [|simpl in L; lia]. apply words_none. reflexivity. }
  destruct s as [|a s]; [apply words_none; reflexivity|]. simpl in L.
  assert (W : words s (split_ws s)) by (apply IH; lia).
  cbn [split_ws]. destruct (is_space a) eqn:Ha.
  - inversion W as [s0 H E1 E2|sp w rest l Hs Nw Hw Hr W' E1 E2].
    + apply words_none. simpl. rewrite separator_space, Ha. exact H.
    + apply (words_one (String a sp) w rest l); auto. simpl. rewrite separator_space, Ha. exact Hs.
  - destruct s as [|b s].
    + apply (words_one "" (String a "") "" []); [reflexivity|discriminate| |exact I|apply words_none; reflexivity].
      simpl. rewrite separator_space, Ha. reflexivity.
    + destruct (is_space b) eqn:Hb.
      * apply (words_one "" (String a "") (String b s)); [reflexivity|discriminate| |rewrite separator_space; exact Hb|exact W].
        simpl. rewrite separator_space, Ha. reflexivity.
      * inversion W as [s0 H E1 E2|sp w rest l Hs Nw Hw Hr W' E1 E2].
        -- simpl in H. rewrite separator_space, Hb in H. discriminate.
        -- destruct sp as [|c sp].
           ++ apply (words_one "" (String a w) rest l); [reflexivity|discriminate| |exact Hr|exact W']. simpl. rewrite separator_space, Ha. exact Hw.
           ++ simpl in E1. injection E1 as -> _. simpl in Hs. rewrite separator_space, Hb in Hs. discriminate.
Qed.

(** ** Pairs *)

Definition flat (l : list (string * string)) : list string := flat_map (fun p => [fst p; snd p]) l.

Lemma pairs_flat l : in_pairs (flat l) = l.
Proof. induction l as [|[a b] l IH]; simpl; auto. rewrite IH. reflexivity. Qed.

Lemma flat_pairs ws : ws = flat (in_pairs ws) \/ exists w, ws = (flat (in_pairs ws) ++ [w])%list.
Proof.
  assert (G : forall n ws, length ws <= n -> ws = flat (in_pairs ws) \/ exists w, ws = (flat (in_pairs ws) ++ [w])%list).
  2:{ apply (G (length ws)); auto. }
  clear ws. induction n as [|n IH]; intros ws L; [destruct ws; [left; reflexivity|simpl in L; lia]|].
  destruct ws as [|a [|b ws]]; [left; reflexivity|right; exists a; reflexivity|]. simpl in L.
  destruct (IH ws) as [E|[w E]]; [lia| |]; cbn [in_pairs flat flat_map fst snd app].
  - left. f_equal. f_equal. exact E.
  - right. exists w. f_equal. f_equal. exact E.
Qed.

Lemma lists_pairs s : lists s (in_pairs (split_ws s)).
Proof. exists (split_ws s). split; [apply split_words|]. apply flat_pairs. Qed.

Lemma lists_unique s l : lists s l -> in_pairs (split_ws s) = l.
Proof.
  intros (ws & W & H). rewrite (words_split s ws W). clear W. destruct H as [->|[w ->]]; [apply pairs_flat|].
  induction l as [|[a b] l IH]; auto. cbn [flat_map app in_pairs fst snd]. f_equal. exact IH.
Qed.

(** ** What is written is read back *)

Definition solids (l : list (string * string)) : Prop := Forall (fun p => solid (fst p) = true /\ solid (snd p) = true) l.

Lemma solids_pairs ws : Forall (fun w => solid w = true) ws -> solids (in_pairs ws).
Proof.
  assert (G : forall n ws, length ws <= n -> Forall (fun w => solid w = true) ws -> solids (in_pairs ws)).
  2:{ apply (G (length ws)); auto. }
  clear ws. induction n as [|n IH]; intros ws L F; [destruct ws; [constructor|simpl in L; lia]|].
  destruct ws as [|a [|b ws]]; [constructor|constructor|]. simpl in L.
  inversion F as [|? ? Ha F']; inversion F' as [|? ? Hb F'']; subst. constructor; [auto|]. apply IH; auto; lia.
Qed.

Lemma split_joined l : solids l -> split_ws (join "   " (map (fun p => fst p ++ " " ++ snd p) l)) = flat l.
Proof.
  induction 1 as [|[a b] l [Ha Hb] F IH]; auto. cbn [fst snd] in *. cbn [map flat flat_map fst snd app].
  destruct l as [|p l].
  - cbn [map join flat_map]. change (" " ++ b) with (String " " b). rewrite split_ws_app by auto. f_equal. apply split_ws_solid; auto.
  - cbn [map] in *. change (join "   " (?x :: ?y :: ?z)) with (x ++ "   " ++ join "   " (y :: z)).
    set (J := join "   " _) in *. rewrite !app_string_assoc. change (" " ++ b ++ "   " ++ J) with (String " " (b ++ String " " (String " " (String " " J)))).
    rewrite split_ws_app by auto. f_equal. rewrite split_ws_app by auto. f_equal. simpl. exact IH.
Qed.

Definition entry_with (m loc : dict string) (p : string * string) : string * string :=
  let ns := lookup (fst p) (fst p) m in (ns, lookup ns (snd p) loc).

Definition kept (drop : list string) (p : string * string) : bool := negb (mem_str (fst p) drop).

Definition solid_dict (d : dict string) : bool := forallb (fun p => solid (snd p)) d.

Lemma dict_get_pair {A} k (v : A) d : dict_get k d = Some v -> In (k, v) d.
Proof.
  induction d as [|[k' v'] d IH]; [discriminate|]. cbn [dict_get]. destruct (String.eqb k k') eqn:E; intro H.
  - apply String.eqb_eq in E. injection H as ->. subst. left. reflexivity.
  - right. auto.
Qed.

Lemma lookup_solid k d m : solid_dict m = true -> solid d = true -> solid (lookup k d m) = true.
Proof.
  intros M D. unfold lookup. destruct (dict_get k m) as [v|] eqn:E; auto. unfold solid_dict in M. rewrite forallb_forall in M.
  apply (M (k, v)). apply dict_get_pair. exact E.
Qed.

Lemma solids_entries drop m loc l : solid_dict m = true -> solid_dict loc = true -> solids l ->
  solids (map (entry_with m loc) (filter (kept drop) l)).
Proof.
  intros M L F. induction F as [|p l [A B] F IH]; simpl; [constructor|]. destruct (kept drop p); auto. constructor; auto.
  unfold entry_with. cbn [fst snd]. split; repeat apply lookup_solid; auto.
Qed.

Lemma relocated_pairs drop m loc s : solid_dict m = true -> solid_dict loc = true ->
  split_ws (relocated drop m loc s) = flat (map (entry_with m loc) (filter (kept drop) (in_pairs (split_ws s)))).
Proof.
  intros M L. rewrite <- split_joined.
  - unfold relocated. rewrite map_map. reflexivity.
  - apply solids_entries; auto. apply solids_pairs, split_ws_tokens.
Qed.

(** ** Tables *)

Definition same_table (a b : dict string) : bool :=
  forallb (fun k => ostr_eqb (dict_get k a) (dict_get k b)) (map fst a ++ map fst b).

Lemma dict_get_none {A} k (d : dict A) : ~ In k (map fst d) -> dict_get k d = None.
Proof.
  induction d as [|[k' v] d IH]; intro N; auto. simpl in *. destruct (String.eqb k k') eqn:E; [apply String.eqb_eq in E; subst; tauto|]. apply IH. tauto.
Qed.

Lemma same_table_get a b : same_table a b = true -> forall k, dict_get k a = dict_get k b.
Proof.
  intros H k. unfold same_table in H. rewrite forallb_forall in H. destruct (in_dec string_dec k (map fst a ++ map fst b)) as [I|N].
  - apply ostr_eqb_eq. apply H. exact I.
  - rewrite !dict_get_none; auto; intro I; apply N, in_or_app; auto.
Qed.

Lemma same_table_lookup a b : same_table a b = true -> forall k d, lookup k d a = lookup k d b.
Proof. intros H k d. unfold lookup. rewrite (same_table_get a b H k). reflexivity. Qed.

Lemma lookup_app k d a b : lookup k d (a ++ b)%list = lookup k (lookup k d b) a.
Proof.
  unfold lookup. induction a as [|[k' v] a IH]; auto. cbn [app dict_get]. destruct (String.eqb k k'); auto.
Qed.

(** ** What the passes do *)

Definition loc_rel (F : string -> string) (h h' : hdr) : Prop :=
  h_id h' = h_id h /\
  attr_of TAG_SCHEMALOCATION h'
  = if Nat.eqb (h_id h) 1 then option_map F (attr_of TAG_SCHEMALOCATION h) else attr_of TAG_SCHEMALOCATION h.

Lemma loc_rel_stems F t : rooted t -> forall drop m loc, F = relocated drop m loc ->
  stems (loc_rel F) t (schemaloc_pass drop m loc t).
Proof.
  intros Ro drop m loc ->. apply stems_on_root; auto.
  - apply loc_keeps_id.
  - destruct Ro as [A _]. unfold loc_rel. change (h_id (head t)) with (tid t). rewrite A. cbn [Nat.eqb]. unfold attr_of at 2.
    destruct (attr_get TAG_SCHEMALOCATION (h_attr (head t))) as [v|] eqn:G; split; auto; try (rewrite attr_of_set_same; reflexivity).
  - intros h N. split; auto. apply Nat.eqb_neq in N. rewrite N. reflexivity.
Qed.

Lemma loc_rel_same F T m e : stems (loc_rel F) T m ->
  stems (fun h h' => attr_of TAG_SCHEMALOCATION h' = attr_of TAG_SCHEMALOCATION h) m e -> stems (loc_rel F) T e.
Proof.
  intros H H'. eapply stems_impl; [|exact (stems_trans _ _ _ _ _ H (stems_id _ _ _ H'))].
  simpl. intros h h' (h0 & [A B] & C & D). split; congruence.
Qed.

Lemma loc_rel_before F T m e : stems (fun h h' => attr_of TAG_SCHEMALOCATION h' = attr_of TAG_SCHEMALOCATION h) T m ->
  stems (loc_rel F) m e -> stems (loc_rel F) T e.
Proof.
  intros H H'. eapply stems_impl; [|exact (stems_trans _ _ _ _ _ (stems_id _ _ _ H) H')].
  simpl. intros h h' (h0 & [A B] & C & D). split; [congruence|]. rewrite D, A, B. reflexivity.
Qed.

Lemma loc_rel_trans F G T m e : stems (loc_rel F) T m -> stems (loc_rel G) m e -> stems (loc_rel (fun s => G (F s))) T e.
Proof.
  intros H H'. eapply stems_impl; [|exact (stems_trans _ _ _ _ _ H H')].
  simpl. intros h h' (h0 & [A B] & C & D). split; [congruence|]. rewrite D, B, A. destruct (Nat.eqb (h_id h) 1); auto.
  destruct (attr_of TAG_SCHEMALOCATION h); reflexivity.
Qed.

Ltac keeps_sl :=
  keeps_attrs; try (apply keeps_edit_where; [intros []; reflexivity|]; intros;
    first [apply stamp_2_0_1_attr | apply stamp_2_1_attr | apply stamp_stix_attr];
    first [discriminate | simpl; intros [X|[X|[X|[]]]]; discriminate X]);
  try (apply keeps_passes, Forall_forall; intros ? _); try (apply keeps_vocab_attr; intros [X|[X|[X|[]]]]; discriminate X);
  try (apply keeps_on_root; [intros []; reflexivity|intros; apply attr_of_set; discriminate]).

Lemma cybox_2_0_loc p opts t e : rooted t -> cybox_2_0_step p opts t = Ok e ->
  stems (loc_rel (relocated [] [] cybox_2_0_schemaloc_map)) t e.
Proof.
  intros Ro E. unfold cybox_2_0_step in E. apply in_order_ok in E as (m & E1 & E). injection E1 as <-.
  eapply loc_rel_same; [eapply loc_rel_stems; auto|].
  refine ((_ : keeps (attr_of TAG_SCHEMALOCATION) _) _ _ E). keeps_sl.
Qed.

Lemma cybox_2_0_1_loc p opts t e : rooted t -> distinct_attributes t -> cybox_2_0_1_step p opts t = Ok e ->
  stems (loc_rel (relocated [] driver_ns cybox_2_0_1_schemaloc_map)) t e.
Proof.
  intros Ro DA E. unfold cybox_2_0_1_step in E. apply in_order_ok in E as (m0 & E0 & E). apply in_order_ok in E as (m & E1 & E). injection E1 as <-.
  eapply loc_rel_before; [exact (keepsd_ns_attr TAG_SCHEMALOCATION _ _ t m0 DA E0)|].
  eapply loc_rel_same; [eapply loc_rel_stems; auto|].
  - eapply (rooted_step (namespaces_pass [] driver_ns)); [apply orderly_ns| |exact E0|exact Ro]. apply root_ns. reflexivity.
  - refine ((_ : keeps (attr_of TAG_SCHEMALOCATION) _) _ _ E). keeps_sl.
Qed.

(** The change of the attribute, by step. *)
Definition stix_relocated (v : string) : option (string -> string) :=
  dict_get v
    [("1.0", fun s => relocated ["http://stix.mitre.org/extensions/AP#CAPEC2.5-1"; "http://stix.mitre.org/extensions/Malware#MAEC4.0-1"]
                        [] stix_1_0_schemaloc_map (relocated [] [] cybox_2_0_schemaloc_map s));
     ("1.0.1", fun s => relocated ["http://stix.mitre.org/extensions/AP#CAPEC2.6-1"; "http://stix.mitre.org/extensions/Malware#MAEC4.0-1"]
                        [] stix_1_0_1_schemaloc_map (relocated [] driver_ns cybox_2_0_1_schemaloc_map s));
     ("1.1", fun s => relocated [] [] stix_1_1_schemaloc_map (relocated [] driver_ns cybox_2_0_1_schemaloc_map s));
     ("1.1.1", relocated [] [] stix_1_1_1_schemaloc_map);
     ("1.2", relocated [] stix_1_2_ns_map [])].

Definition cybox_relocated (v : string) : option (string -> string) :=
  dict_get v
    [("2.0", relocated [] [] cybox_2_0_schemaloc_map); ("2.0.1", relocated [] driver_ns cybox_2_0_1_schemaloc_map)].

Lemma stix_step_loc o opts v f t e F : stix_step o opts v = Some f -> stix_relocated v = Some F -> rooted t -> distinct_attributes t ->
  f t = Ok e -> stems (loc_rel F) t e.
Proof.
  intros H HF Ro DA E. unfold stix_step in H. by_version H; apply some_inj in HF; subst F.
  - unfold stix_1_0_step in E. apply in_order_ok in E as (m & E1 & E). apply in_order_ok in E as (m2 & E2 & E). injection E2 as <-.
    eapply (loc_rel_trans (relocated [] [] cybox_2_0_schemaloc_map)); [eapply cybox_2_0_loc; eauto|].
    eapply loc_rel_same; [eapply loc_rel_stems; auto|].
    + eapply rooted_step; [|apply root_id_2_0|exact E1|exact Ro]. unfold cybox_2_0_step; orderlies.
    + refine ((_ : keeps (attr_of TAG_SCHEMALOCATION) _) _ _ E). keeps_sl.
  - unfold stix_1_0_1_step in E. apply in_order_ok in E as (m & E1 & E). apply in_order_ok in E as (m2 & E2 & E). injection E2 as <-.
    eapply (loc_rel_trans (relocated [] driver_ns cybox_2_0_1_schemaloc_map)); [eapply cybox_2_0_1_loc; eauto|].
    eapply loc_rel_same; [eapply loc_rel_stems; auto|].
    + eapply rooted_step; [|apply root_id_2_0_1|exact E1|exact Ro]. unfold cybox_2_0_1_step; orderlies.
    + refine ((_ : keeps (attr_of TAG_SCHEMALOCATION) _) _ _ E). keeps_sl.
  - unfold stix_1_1_step in E. apply in_order_ok in E as (m & E1 & E). apply in_order_ok in E as (m2 & E2 & E). injection E2 as <-. 
    eapply (loc_rel_trans (relocated [] driver_ns cybox_2_0_1_schemaloc_map) _ t m).
    { injection E1 as <-. eapply loc_rel_stems; auto. }
    eapply loc_rel_same; [eapply loc_rel_stems; auto|].
    + eapply (rooted_step (always (schemaloc_pass [] driver_ns cybox_2_0_1_schemaloc_map))); [apply orderly_loc| |exact E1|exact Ro].
      apply root_loc. reflexivity.
    + refine ((_ : keeps (attr_of TAG_SCHEMALOCATION) _) _ _ E). keeps_sl.
  - unfold stix_1_1_1_step in E. apply in_order_ok in E as (m & E1 & E). injection E1 as <-.
    eapply loc_rel_same; [eapply loc_rel_stems; auto|].
    refine ((_ : keeps (attr_of TAG_SCHEMALOCATION) _) _ _ E). keeps_sl.
  - unfold stix_1_2_step in E. apply in_order_ok in E as (m0 & E0 & E). apply in_order_ok in E as (m & E1 & E). injection E1 as <-.
    eapply loc_rel_before; [exact (keepsd_ns_attr TAG_SCHEMALOCATION _ _ t m0 DA E0)|].
    eapply loc_rel_same; [eapply loc_rel_stems; auto|].
    + eapply (rooted_step (namespaces_pass [] stix_1_2_ns_map)); [apply orderly_ns| |exact E0|exact Ro]. apply root_ns. reflexivity.
    + refine ((_ : keeps (attr_of TAG_SCHEMALOCATION) _) _ _ E). keeps_sl.
Qed.

Lemma cybox_step_loc opts v f t e F : cybox_step opts v = Some f -> cybox_relocated v = Some F -> rooted t -> distinct_attributes t ->
  f t = Ok e -> stems (loc_rel F) t e.
Proof.
  intros H HF Ro DA E. unfold cybox_step in H. by_version H; apply some_inj in HF; subst F.
  - eapply cybox_2_0_loc; eauto.
  - eapply cybox_2_0_1_loc; eauto.
Qed.

(** ** In words *)

Lemma mem_kept d m : forallb (fun p => negb (mem_str (fst p) d) && negb (mem_str (snd p) d)) m = true ->
  forall ns, mem_str (lookup ns ns m) d = mem_str ns d.
Proof.
  intros H ns. unfold lookup. destruct (dict_get ns m) as [v|] eqn:E; auto. apply dict_get_pair in E.
  rewrite forallb_forall in H. apply H in E. cbn [fst snd] in E. apply andb_true_iff in E as [A B].
  apply negb_true_iff in A, B. congruence.
Qed.

Lemma filter_map_comm {A B} (p : B -> bool) (f : A -> B) l : filter p (map f l) = map f (filter (fun x => p (f x)) l).
Proof. induction l as [|x l IH]; simpl; auto. destruct (p (f x)); simpl; rewrite IH; reflexivity. Qed.

Lemma filter_true {A} (p : A -> bool) l : (forall x, p x = true) -> filter p l = l.
Proof. intro H. induction l as [|x l IH]; simpl; auto. rewrite H, IH. reflexivity. Qed.

(** One relocation, or two. *)
Lemma one_relocation v drop m loc s :
  forallb solid (map snd m) = true -> forallb solid (map snd loc) = true ->
  drop = dropped v -> same_table m (successors v) = true -> same_table loc (locations v) = true ->
  split_ws (relocated drop m loc s) = flat (map (entry v) (filter (kept (dropped v)) (in_pairs (split_ws s)))).
Proof.
  intros Sm Sl -> Tm Tl. rewrite relocated_pairs by (unfold solid_dict; rewrite forallb_map in *; auto). f_equal.
  apply map_ext. intro p. unfold entry_with, entry. cbv zeta. rewrite (same_table_lookup _ _ Tm), (same_table_lookup _ _ Tl). reflexivity.
Qed.

Lemma two_relocations v drop m loc loc' s :
  forallb solid (map snd m) = true -> forallb solid (map snd loc) = true -> forallb solid (map snd loc') = true ->
  drop = dropped v -> same_table m (successors v) = true -> same_table (loc' ++ loc)%list (locations v) = true ->
  forallb (fun p => negb (mem_str (fst p) drop) && negb (mem_str (snd p) drop)) m = true ->
  split_ws (relocated drop [] loc' (relocated [] m loc s)) = flat (map (entry v) (filter (kept (dropped v)) (in_pairs (split_ws s)))).
Proof.
  intros Sm Sl Sl' -> Tm Tl D. rewrite !forallb_map in *. rewrite relocated_pairs by auto. f_equal.
  rewrite relocated_pairs by auto. rewrite pairs_flat, filter_map_comm, map_map.
  rewrite (filter_true (kept [])) by reflexivity.
  rewrite (filter_ext (fun x => kept (dropped v) (entry_with m loc x)) (kept (dropped v))).
  - apply map_ext. intro p. unfold entry_with, entry. cbv zeta. cbn [fst snd].
    rewrite <- (same_table_lookup _ _ Tl), lookup_app, <- (same_table_lookup _ _ Tm). reflexivity.
  - intro p. unfold kept, entry_with. cbn [fst]. rewrite mem_kept; auto.
Qed.

Definition relists (v : string) (F : string -> string) : Prop :=
  forall s, split_ws (F s) = flat (map (entry v) (filter (kept (dropped v)) (in_pairs (split_ws s)))).

Lemma stix_relists v F : stix_relocated v = Some F -> relists v F.
Proof.
  intro H. unfold stix_relocated in H. by_version H; intro s.
  - apply two_relocations; vm_compute; reflexivity.
  - apply two_relocations; vm_compute; reflexivity.
  - apply two_relocations; vm_compute; reflexivity.
  - apply one_relocation; vm_compute; reflexivity.
  - apply one_relocation; vm_compute; reflexivity.
Qed.

Lemma cybox_relists v F : cybox_relocated v = Some F -> relists v F.
Proof.
  intro H. unfold cybox_relocated in H. by_version H; intro s; apply one_relocation; vm_compute; reflexivity.
Qed.

Lemma relists_root v F h h' : relists v F -> loc_rel F h h' -> relocated_root v h h'.
Proof.
  intros RF [_ A]. unfold relocated_root. change schema_location with TAG_SCHEMALOCATION. destruct (Nat.eqb (h_id h) 1); auto. rewrite A. unfold relisted.
  destruct (attr_of TAG_SCHEMALOCATION h) as [s|]; [|reflexivity]. cbn [option_map].
  exists (F s), (in_pairs (split_ws s)). split; auto. split; [apply lists_pairs|].
  pose proof (split_words (F s)) as W. rewrite RF in W. unfold flat in W. rewrite flat_map_map in W. exact W.
Qed.

(** ** By updater *)

Lemma stix_locations o opts v up d force s t r s' :
  dict_get v (STIX_UPDATERS o) = Some up -> wf_state s -> denotes s d t -> distinct_attributes t ->
  updater_update o up d opts force s = (Ok r, s') ->
  exists t1 e, worked_on o up d opts force s t t1 /\ document s' (r_document r) (erase e) /\
    carried (stix_gone (or_default o opts) v) (labelled t1) e /\ tid e = 1 /\ stems (relocated_root v) (labelled t1) e.
Proof.
  intros U W Dn DA E. on_step U W Dn E f Ef t1 e Wk Fit Fe Doc. exists t1, e. split; auto. split; auto.
  split; [eapply stix_step_carries; eauto|].
  assert (X : exists F, stix_relocated v = Some F).
  { unfold stix_step in Ef. clear -Ef. by_version Ef; eexists; reflexivity. }
  destruct X as [F HF]. split.
  - exact (eq_trans (stix_root_id _ _ _ _ Ef (labelled t1) e Fe) (labelled_root t1)).
  - eapply stems_impl; [|eapply (stix_step_loc _ _ _ _ _ _ F Ef HF (rooted_labelled t1) (fit_distinct _ _ Fit DA) Fe)].
    intros h h'. apply relists_root. apply stix_relists. exact HF.
Qed.

Lemma cybox_locations o opts v up d force s t r s' :
  dict_get v (CYBOX_UPDATERS o) = Some up -> wf_state s -> denotes s d t -> distinct_attributes t ->
  updater_update o up d opts force s = (Ok r, s') ->
  exists t1 e, worked_on o up d opts force s t t1 /\ document s' (r_document r) (erase e) /\
    carried (cybox_gone (or_default o opts) v) (labelled t1) e /\ tid e = 1 /\ stems (relocated_root v) (labelled t1) e.
Proof.
  intros U W Dn DA E. on_step U W Dn E f Ef t1 e Wk Fit Fe Doc. exists t1, e. split; auto. split; auto.
  split; [eapply cybox_step_carries; eauto|].
  assert (X : exists F, cybox_relocated v = Some F).
  { unfold cybox_step in Ef. clear -Ef. by_version Ef; eexists; reflexivity. }
  destruct X as [F HF]. split.
  - exact (eq_trans (cybox_root_id _ _ _ Ef (labelled t1) e Fe) (labelled_root t1)).
  - eapply stems_impl; [|eapply (cybox_step_loc _ _ _ _ _ F Ef HF (rooted_labelled t1) (fit_distinct _ _ Fit DA) Fe)].
    intros h h'. apply relists_root. apply cybox_relists. exact HF.
Qed.
