(** * Property theorems: removal of empty optional elements. *)

From Coq Require Import String Ascii List Bool Arith NArith.
From Verif Require Import Str Xml XPath Utils Base Tables Cybox Stix Ramrod Spec SpecDoc SpecPass SpecStep
  SpecCheck SpecClean SpecUpdate SpecTrace SpecField SpecLocation SpecName Lib Samples Worked Marks Moved Optional.
Import ListNotations.
Local Open Scope string_scope.

(** ** C20: optional elements are removed exactly when they are empty *)

(** With the option on, the new document is the one made with the option off
    without the empty listed elements.  (A step that lists none: nothing
    removed.) *)
Theorem C20_stix_removed : forall o opts v up d force s t r s',
  dict_get v (STIX_UPDATERS o) = Some up -> v <> "1.0.1" -> wf_state s -> denotes s d t ->
  updater_update o up d (Some (removing true opts)) force s = (Ok r, s') ->
  exists r0 s0 old, updater_update o up d (Some (removing false opts)) force s = (Ok r0, s0) /\
    document s0 (r_document r0) old /\
    document s' (r_document r) (prune (fun anc x => listed_optional v anc x && blank x) old).
Proof. exact stix_optionals. Qed.
Print Assumptions C20_stix_removed.

Theorem C20_cybox_removed : forall o opts v up d force s t r s',
  dict_get v (CYBOX_UPDATERS o) = Some up -> wf_state s -> denotes s d t ->
  updater_update o up d (Some (removing true opts)) force s = (Ok r, s') ->
  exists r0 s0 old, updater_update o up d (Some (removing false opts)) force s = (Ok r0, s0) /\
    document s0 (r_document r0) old /\
    document s' (r_document r) (prune (fun anc x => listed_optional v anc x && blank x) old).
Proof. exact cybox_optionals. Qed.
Print Assumptions C20_cybox_removed.

(** The step from STIX 1.0.1 first makes the changes of CybOX, removals
    included, then its own. *)
Theorem C20_stix_1_0_1_removed : forall o b opts up d force s t r s',
  dict_get "1.0.1" (STIX_UPDATERS o) = Some up -> wf_state s -> denotes s d t ->
  updater_update o up d (Some (removing b opts)) force s = (Ok r, s') ->
  exists t1 c e, worked_on o up d (Some (removing b opts)) force s t t1 /\
    cybox_2_0_1_step (any_inside cybox_in_stix_1_0_1) (removing false opts) (labelled t1) = Ok c /\
    stix_1_0_1_rest opts (if b then prune (fun anc x => listed_optional "2.0.1" anc x && blank x) c else c) = Ok e /\
    document s' (r_document r) (erase (if b then prune (fun anc x => listed_optional "1.0.1" anc x && blank x) e else e)).
Proof. exact stix_1_0_1_optionals. Qed.
Print Assumptions C20_stix_1_0_1_removed.

(** What [prune] leaves: the nodes that are not, and are not in, an element
    that satisfies the predicate. *)
Theorem C20_left_exactly : forall p t, NoDup (ids t) -> forall anc x, In (anc, x) (visits [] t) ->
  ((exists y, In y (nodes (prune p t)) /\ head y = head x) <-> spared p (x :: anc)).
Proof. exact prune_exact. Qed.
Print Assumptions C20_left_exactly.

Theorem C20_empty : forall x, blank x = true <-> empty_field x.
Proof. exact blank_iff. Qed.
Print Assumptions C20_empty.

(** ** C21: no text is lost by it *)

(** Provided no text follows the elements that are removed or a node in them. *)
Theorem C21_stix_text_kept_partial : forall o opts v up d force s t r s',
  dict_get v (STIX_UPDATERS o) = Some up -> v <> "1.0.1" -> wf_state s -> denotes s d t ->
  updater_update o up d (Some (removing true opts)) force s = (Ok r, s') ->
  exists r0 s0 old new, updater_update o up d (Some (removing false opts)) force s = (Ok r0, s0) /\
    document s0 (r_document r0) old /\ document s' (r_document r) new /\
    ((forall anc x, In (anc, x) (visits [] old) -> listed_optional v anc x = true -> empty_field x -> nothing_follows x) ->
     pieces new = pieces old).
Proof.
  intros o opts v up d force s t r s' U N W D E. destruct (stix_optionals o opts v up d force s t r s' U N W D E) as (r0 & s0 & old & E0 & D0 & D1).
  exists r0, s0, old, (prune (fun anc x => listed_optional v anc x && blank x) old). repeat (split; [assumption|]).
  intro H. apply pieces_prune. intros anc x I P. apply andb_true_iff in P as [L B]. split; [exact B|].
  apply (H anc x I L). apply blank_iff. exact B.
Qed.
Print Assumptions C21_stix_text_kept_partial.

Theorem C21_cybox_text_kept_partial : forall o opts v up d force s t r s',
  dict_get v (CYBOX_UPDATERS o) = Some up -> wf_state s -> denotes s d t ->
  updater_update o up d (Some (removing true opts)) force s = (Ok r, s') ->
  exists r0 s0 old new, updater_update o up d (Some (removing false opts)) force s = (Ok r0, s0) /\
    document s0 (r_document r0) old /\ document s' (r_document r) new /\
    ((forall anc x, In (anc, x) (visits [] old) -> listed_optional v anc x = true -> empty_field x -> nothing_follows x) ->
     pieces new = pieces old).
Proof.
  intros o opts v up d force s t r s' U W D E. destruct (cybox_optionals o opts v up d force s t r s' U W D E) as (r0 & s0 & old & E0 & D0 & D1).
  exists r0, s0, old, (prune (fun anc x => listed_optional v anc x && blank x) old). repeat (split; [assumption|]).
  intro H. apply pieces_prune. intros anc x I P. apply andb_true_iff in P as [L B]. split; [exact B|].
  apply (H anc x I L). apply blank_iff. exact B.
Qed.
Print Assumptions C21_cybox_text_kept_partial.

(** Exactly: the text is all there when no removed element has text in it
    (behind a comment) or behind it. *)
Theorem C21_stix_text_kept_exactly : forall o opts v up d force s t r s',
  dict_get v (STIX_UPDATERS o) = Some up -> v <> "1.0.1" -> wf_state s -> denotes s d t ->
  updater_update o up d (Some (removing true opts)) force s = (Ok r, s') ->
  exists r0 s0 old new, updater_update o up d (Some (removing false opts)) force s = (Ok r0, s0) /\
    document s0 (r_document r0) old /\ document s' (r_document r) new /\
    (pieces new = pieces old <->
     (forall anc x, In (anc, x) (visits [] old) -> anc <> [] -> listed_optional v anc x = true -> empty_field x ->
      pieces x = [] /\ piece (h_tail (head x)) = [])).
Proof.
  intros o opts v up d force s t r s' U N W D E. destruct (stix_optionals o opts v up d force s t r s' U N W D E) as (r0 & s0 & old & E0 & D0 & D1).
  exists r0, s0, old, (prune (fun anc x => listed_optional v anc x && blank x) old). repeat (split; [assumption|]).
  rewrite pieces_prune_iff. split; intros H anc x I N' L.
  - intro B. apply (H anc x I N'). apply blank_iff in B. rewrite L, B. reflexivity.
  - apply andb_true_iff in L as [L B]. apply (H anc x I N' L). apply blank_iff. exact B.
Qed.
Print Assumptions C21_stix_text_kept_exactly.

Theorem C21_cybox_text_kept_exactly : forall o opts v up d force s t r s',
  dict_get v (CYBOX_UPDATERS o) = Some up -> wf_state s -> denotes s d t ->
  updater_update o up d (Some (removing true opts)) force s = (Ok r, s') ->
  exists r0 s0 old new, updater_update o up d (Some (removing false opts)) force s = (Ok r0, s0) /\
    document s0 (r_document r0) old /\ document s' (r_document r) new /\
    (pieces new = pieces old <->
     (forall anc x, In (anc, x) (visits [] old) -> anc <> [] -> listed_optional v anc x = true -> empty_field x ->
      pieces x = [] /\ piece (h_tail (head x)) = [])).
Proof.
  intros o opts v up d force s t r s' U W D E. destruct (cybox_optionals o opts v up d force s t r s' U W D E) as (r0 & s0 & old & E0 & D0 & D1).
  exists r0, s0, old, (prune (fun anc x => listed_optional v anc x && blank x) old). repeat (split; [assumption|]).
  rewrite pieces_prune_iff. split; intros H anc x I N' L.
  - intro B. apply (H anc x I N'). apply blank_iff in B. rewrite L, B. reflexivity.
  - apply andb_true_iff in L as [L B]. apply (H anc x I N' L). apply blank_iff. exact B.
Qed.
Print Assumptions C21_cybox_text_kept_exactly.

Theorem C21_removal_keeps_text_partial : forall p t,
  (forall anc x, In (anc, x) (visits [] t) -> p anc x = true -> blank x = true /\ nothing_follows x) ->
  pieces (prune p t) = pieces t.
Proof. exact pieces_prune. Qed.
Print Assumptions C21_removal_keeps_text_partial.

(** Without the proviso it is false: what stands behind a removed element is
    lost with it, and an element whose value stands behind a comment counts as
    empty. *)
Definition uri (ks : list tree) : tree :=
  observables [(lq "cybox_major_version", "2"); (lq "cybox_minor_version", "0"); (lq "cybox_update_version", "1")]
    [el (qn CYBOX_NS "Object") [] [] None [el (qn CYBOX_NS "Properties") [] [] None ks]].

Definition followed : tree :=
  uri [Node (Hdr 0 KElem (object_name "URI" "Value") [] [] None false (Some "behind")) [];
                 el (object_name "URI" "Value") [] [] (Some "kept") []].

Definition behind_comment : tree :=
  uri [el (object_name "URI" "Value") [] [] None
                   [Node (Hdr 0 KComment (lq "") [] [] (Some "note") false (Some "http://x")) []]].

Definition loses (t : tree) : Prop :=
  ~ (forall o opts up d force s r s' new r0 s0 old,
       dict_get "2.0.1" (CYBOX_UPDATERS o) = Some up -> wf_state s -> denotes s d t ->
       updater_update o up d (Some (removing true opts)) force s = (Ok r, s') -> document s' (r_document r) new ->
       updater_update o up d (Some (removing false opts)) force s = (Ok r0, s0) -> document s0 (r_document r0) old ->
       pieces new = pieces old).

Theorem C21_following_text_refuted : loses followed.
Proof.
  intro H. assert (W : wf_state (memory [])) by (split; [constructor|intros i []]).
  destruct (run_document (updater_update o0 (Cybox_2_0_1_Updater o0) (DFile (Some followed)) (Some (removing true (default_options o0))) false (memory []))
    (fun new => Nat.eqb (length (pieces new)) 1)) as (r & s' & new & E & D & B); [vm_compute; reflexivity|].
  destruct (run_document (updater_update o0 (Cybox_2_0_1_Updater o0) (DFile (Some followed)) (Some (removing false (default_options o0))) false (memory []))
    (fun new => Nat.eqb (length (pieces new)) 2)) as (r0 & s0 & old & E0 & D0 & B0); [vm_compute; reflexivity|].
  rewrite (H o0 (default_options o0) (Cybox_2_0_1_Updater o0) (DFile (Some followed)) false (memory []) r s' new r0 s0 old eq_refl W eq_refl E D E0 D0) in B.
  apply Nat.eqb_eq in B, B0. rewrite B in B0. discriminate B0.
Qed.
Print Assumptions C21_following_text_refuted.

Theorem C21_text_behind_comment_refuted : loses behind_comment.
Proof.
  intro H. assert (W : wf_state (memory [])) by (split; [constructor|intros i []]).
  destruct (run_document (updater_update o0 (Cybox_2_0_1_Updater o0) (DFile (Some behind_comment)) (Some (removing true (default_options o0))) false (memory []))
    (fun new => Nat.eqb (length (pieces new)) 0)) as (r & s' & new & E & D & B); [vm_compute; reflexivity|].
  destruct (run_document (updater_update o0 (Cybox_2_0_1_Updater o0) (DFile (Some behind_comment)) (Some (removing false (default_options o0))) false (memory []))
    (fun new => Nat.eqb (length (pieces new)) 1)) as (r0 & s0 & old & E0 & D0 & B0); [vm_compute; reflexivity|].
  rewrite (H o0 (default_options o0) (Cybox_2_0_1_Updater o0) (DFile (Some behind_comment)) false (memory []) r s' new r0 s0 old eq_refl W eq_refl E D E0 D0) in B.
  apply Nat.eqb_eq in B, B0. rewrite B in B0. discriminate B0.
Qed.
Print Assumptions C21_text_behind_comment_refuted.

(** One empty URI value (white space and an empty child element), one with an
    attribute deep inside, one with text, and an empty element that is not
    listed. *)
Definition uris : tree :=
  uri
    [el (object_name "URI" "Value") [] [] (Some "  ") [el (qn "urn:x" "a") [] [] None []];
     el (object_name "URI" "Value") [] [] None [el (qn "urn:x" "b") [] [(lq "k", "v")] None []];
     el (object_name "URI" "Value") [] [] (Some "c") [];
     el (object_name "URI" "Other") [] [] None []].

Definition names (t : tree) : list string := map (fun x => q_local (h_tag (head x))) (nodes t).

Example C20_case :
  wf_state (memory []) /\ denotes (memory []) (DFile (Some uris)) uris /\
  (exists r s' new, updater_update o0 (Cybox_2_0_1_Updater o0) (DFile (Some uris)) (Some (removing true (default_options o0))) false (memory []) = (Ok r, s') /\
     document s' (r_document r) new /\ names new = ["Observables"; "Object"; "Properties"; "Value"; "b"; "Value"; "Other"]) /\
  (exists r s' new, updater_update o0 (Cybox_2_0_1_Updater o0) (DFile (Some uris)) (Some (removing false (default_options o0))) false (memory []) = (Ok r, s') /\
     document s' (r_document r) new /\ names new = names uris).
Proof.
  split; [split; [constructor|intros i []]|]. split; [reflexivity|]. split.
  - destruct (run_document (updater_update o0 (Cybox_2_0_1_Updater o0) (DFile (Some uris)) (Some (removing true (default_options o0))) false (memory []))
      (fun new => if list_eq_dec string_dec (names new) ["Observables"; "Object"; "Properties"; "Value"; "b"; "Value"; "Other"] then true else false))
      as (r & s' & new & E & D & B); [vm_compute; reflexivity|].
    exists r, s', new. split; auto. split; auto. destruct (list_eq_dec _ _ _); [assumption|discriminate].
  - destruct (run_document (updater_update o0 (Cybox_2_0_1_Updater o0) (DFile (Some uris)) (Some (removing false (default_options o0))) false (memory []))
      (fun new => if list_eq_dec string_dec (names new) (names uris) then true else false))
      as (r & s' & new & E & D & B); [vm_compute; reflexivity|].
    exists r, s', new. split; auto. split; auto. destruct (list_eq_dec _ _ _); [assumption|discriminate].
Qed.

(** Two empty fields of a generic test mechanism, one with a value; packages
    with empty and filled marking structures. *)
Definition NS_GENERIC := "http://stix.mitre.org/extensions/TestMechanism#Generic-1".
Definition mechanism : tree :=
  package "1.1"
    [indicator_elem
       [el (qn INDICATOR_NS "Test_Mechanism") [(Some "g", NS_GENERIC)] [(TAG_XSI_TYPE, "g:GenericTestMechanismType")] None
          [el (qn NS_GENERIC "Description") [] [] None []; el (qn NS_GENERIC "Type") [] [] (Some " ") [];
           el (qn NS_GENERIC "Specification") [] [] (Some "x") []]]].

Definition NS_MARKING := "http://data-marking.mitre.org/Marking-1".
Definition marked (ks : list tree) : tree :=
  package "1.0.1" [el (qn STIX_NS "STIX_Header") [] [] None
    [el (qn STIX_NS "Handling") [] [] None [el (qn NS_MARKING "Marking") [] [] None ks]]].
Definition markings : tree :=
  marked [el (qn NS_MARKING "Controlled_Structure") [] [] (Some "//node()") [];
          el (qn NS_MARKING "Marking_Structure") [] [] None []].

Example C20_stix_case :
  (exists r s' new, updater_update o0 (STIX_1_1_Updater o0) (DFile (Some mechanism)) (Some (removing true (default_options o0))) false (memory []) = (Ok r, s') /\
     document s' (r_document r) new /\ names new = ["STIX_Package"; "Indicator"; "Test_Mechanism"; "Specification"]) /\
  (exists r s' new, updater_update o0 (STIX_1_0_1_Updater o0) (DFile (Some markings)) (Some (removing true (default_options o0))) false (memory []) = (Ok r, s') /\
     document s' (r_document r) new /\ names new = ["STIX_Package"; "STIX_Header"; "Handling"; "Marking"; "Controlled_Structure"]).
Proof.
  split.
  - destruct (run_document (updater_update o0 (STIX_1_1_Updater o0) (DFile (Some mechanism)) (Some (removing true (default_options o0))) false (memory []))
      (fun new => if list_eq_dec string_dec (names new) ["STIX_Package"; "Indicator"; "Test_Mechanism"; "Specification"] then true else false))
      as (r & s' & new & E & D & B); [vm_compute; reflexivity|].
    exists r, s', new. split; auto. split; auto. destruct (list_eq_dec _ _ _); [assumption|discriminate].
  - destruct (run_document (updater_update o0 (STIX_1_0_1_Updater o0) (DFile (Some markings)) (Some (removing true (default_options o0))) false (memory []))
      (fun new => if list_eq_dec string_dec (names new) ["STIX_Package"; "STIX_Header"; "Handling"; "Marking"; "Controlled_Structure"] then true else false))
      as (r & s' & new & E & D & B); [vm_compute; reflexivity|].
    exists r, s', new. split; auto. split; auto. destruct (list_eq_dec _ _ _); [assumption|discriminate].
Qed.

Example C21_case : pieces uris = ["c"] /\ nothing_follows uris /\ pieces followed = ["behind"; "kept"] /\ pieces behind_comment = ["http://x"].
Proof.
  split; [reflexivity|]. split; [|vm_compute; auto]. intros y Hy. repeat (destruct Hy as [<-|Hy]; [reflexivity|]). destruct Hy.
Qed.
