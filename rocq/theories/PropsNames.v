(** * Property theorems: names and text.

    As in PropsFields, [t1] is the document the step works on, [e] the new
    document with its nodes labelled by their place in [t1]. *)

From Coq Require Import String Ascii List Bool Arith NArith.
From Verif Require Import Str Xml XPath Utils Base Tables Cybox Stix Ramrod Spec SpecDoc SpecPass SpecStep
  SpecCheck SpecClean SpecUpdate SpecTrace SpecField SpecLocation SpecName Lib Samples Worked Marks Moved Codec ListText.
Import ListNotations.
Local Open Scope string_scope.

(** ** C23: the namespaces of STIX 1.2.1 *)

(** No node is lost or moved to another place, and [moved] tells the name,
    declarations and text of each. *)
Theorem C23_names_moved : forall o opts up d force s t r s',
  dict_get "1.2" (STIX_UPDATERS o) = Some up -> wf_state s -> denotes s d t -> is_elem t = true ->
  updater_update o up d opts force s = (Ok r, s') ->
  exists t1 e, worked_on o up d opts force s t t1 /\ document s' (r_document r) (erase e) /\
    carried (fun _ => false) (labelled t1) e /\
    stems_at (fun anc x h' => among_elements anc -> moved oasis_namespaces anc x h') (labelled t1) e.
Proof. exact stix_1_2_names. Qed.
Print Assumptions C23_names_moved.

(** Every attribute keeps its name and value. *)
Theorem C23_attributes_stay : forall o opts up d force s t r s',
  dict_get "1.2" (STIX_UPDATERS o) = Some up -> wf_state s -> denotes s d t -> is_elem t = true -> distinct_attributes t ->
  updater_update o up d opts force s = (Ok r, s') ->
  exists t1 e, worked_on o up d opts force s t t1 /\ document s' (r_document r) (erase e) /\
    carried (fun _ => false) (labelled t1) e /\
    stems_at (fun anc x h' => among_elements anc -> attributes_stay anc x h') (labelled t1) e.
Proof. exact stix_1_2_attributes. Qed.
Print Assumptions C23_attributes_stay.

(** A package with elements in old namespaces, in a foreign one and in none. *)
Definition pkg_1_2 : tree :=
  package "1.2"
    [el (qn STIX_NS "Indicators") [] [] None
       [el (qn STIX_NS "Indicator") [(Some "v", STIX_VOCAB_NS); (Some "f", "urn:f")] [(lq "id", "ex:i1")] None
          [el (qn INDICATOR_NS "Title") [] [] (Some "hello") [];
           el (qn "urn:f" "Other") [] [(TAG_XSI_TYPE, "v:T-1.0")] (Some "x") [comment "c"];
           el (lq "bare") [] [] None [el (qn COMMON_NS "Name") [] [] (Some "n") []]]]].

Example C23_case :
  wf_state (memory []) /\ is_elem pkg_1_2 = true /\ distinct_attributes pkg_1_2 /\
  (exists r s', updater_update o0 STIX_1_2_Updater (DFile (Some pkg_1_2)) None false (memory []) = (Ok r, s')) /\
  map (successor oasis_namespaces) (nodes pkg_1_2)
  = [Some (oasis "core-1"); Some (oasis "core-1"); Some (oasis "core-1"); Some (oasis "indicator-1"); None; None; None; Some (oasis "common-1")] /\
  length oasis_namespaces = 26.
Proof.
  split; [split; [constructor|intros i []]|]. split; [reflexivity|]. split; [apply distinct_decided; reflexivity|].
  split; [eexists _, _; vm_compute; reflexivity|]. split; vm_compute; reflexivity.
Qed.

(** ** C24: text through a change of namespaces *)

(** [pieces]: all text that is not blank, in document order. *)
Theorem C24_leaf_text_kept_partial : forall o opts up d force s t r s',
  dict_get "1.2" (STIX_UPDATERS o) = Some up -> wf_state s -> denotes s d t -> is_elem t = true ->
  updater_update o up d opts force s = (Ok r, s') ->
  exists t1 new, worked_on o up d opts force s t t1 /\ document s' (r_document r) new /\
    (no_mixed_text oasis_namespaces t1 -> pieces new = pieces t1).
Proof. exact stix_1_2_text. Qed.
Print Assumptions C24_leaf_text_kept_partial.

(** For every document, exactly the text [pieces_left] tells is left. *)
Theorem C24_text_left : forall o opts up d force s t r s',
  dict_get "1.2" (STIX_UPDATERS o) = Some up -> wf_state s -> denotes s d t -> is_elem t = true ->
  updater_update o up d opts force s = (Ok r, s') ->
  exists t1 new, worked_on o up d opts force s t t1 /\ document s' (r_document r) new /\
    pieces new = pieces_left oasis_namespaces t1.
Proof. exact stix_1_2_text_left. Qed.
Print Assumptions C24_text_left.

(** Without the condition it is false: text beside child elements disappears,
    and so does text after an element. *)
Definition mixed_inside : tree :=
  package "1.2" [el (qn STIX_NS "Description") [] [] (Some "before") [el (qn "urn:x" "b") [] [] (Some "in") []]].

Definition mixed_after : tree :=
  package "1.2" [el (qn "urn:x" "p") [] [] None
    [Node (Hdr 0 KElem (qn STIX_NS "i") [] [] (Some "in") false (Some "after")) []]].

Theorem C24_mixed_text_refuted :
  ~ (forall o opts up d force s t r s' new,
       dict_get "1.2" (STIX_UPDATERS o) = Some up -> wf_state s -> denotes s d t -> is_elem t = true ->
       updater_update o up d opts force s = (Ok r, s') -> document s' (r_document r) new ->
       pieces new = pieces t).
Proof.
  intro H.
  destruct (run_document (updater_update o0 STIX_1_2_Updater (DFile (Some mixed_inside)) None false (memory []))
    (fun new => match pieces new with ["in"] => true | _ => false end)) as (r & s' & new & E & D & B); [vm_compute; reflexivity|].
  assert (W : wf_state (memory [])) by (split; [constructor|intros i []]).
  rewrite (H o0 None STIX_1_2_Updater (DFile (Some mixed_inside)) false (memory []) mixed_inside r s' new eq_refl W eq_refl eq_refl E D) in B.
  discriminate B.
Qed.
Print Assumptions C24_mixed_text_refuted.

Theorem C24_following_text_refuted :
  ~ (forall o opts up d force s t r s' new,
       dict_get "1.2" (STIX_UPDATERS o) = Some up -> wf_state s -> denotes s d t -> is_elem t = true ->
       (forall x, In x (nodes t) -> kids x <> [] -> blank_text (h_text (head x)) = true) ->
       updater_update o up d opts force s = (Ok r, s') -> document s' (r_document r) new ->
       pieces new = pieces t).
Proof.
  intro H.
  destruct (run_document (updater_update o0 STIX_1_2_Updater (DFile (Some mixed_after)) None false (memory []))
    (fun new => match pieces new with ["in"] => true | _ => false end)) as (r & s' & new & E & D & B); [vm_compute; reflexivity|].
  assert (W : wf_state (memory [])) by (split; [constructor|intros i []]).
  assert (K : forall x, In x (nodes mixed_after) -> kids x <> [] -> blank_text (h_text (head x)) = true).
  { intros x [<-|[<-|[<-|[]]]] K; reflexivity || (exfalso; apply K; reflexivity). }
  rewrite (H o0 None STIX_1_2_Updater (DFile (Some mixed_after)) false (memory []) mixed_after r s' new eq_refl W eq_refl eq_refl K E D) in B.
  discriminate B.
Qed.
Print Assumptions C24_following_text_refuted.

Example C24_case :
  is_elem pkg_1_2 = true /\ no_mixed_text oasis_namespaces pkg_1_2 /\ pieces pkg_1_2 = ["hello"; "x"; "n"] /\
  pieces mixed_inside = ["before"; "in"] /\ pieces mixed_after = ["in"; "after"] /\
  pieces_left oasis_namespaces pkg_1_2 = ["hello"; "x"; "n"] /\
  pieces_left oasis_namespaces mixed_inside = ["in"] /\ pieces_left oasis_namespaces mixed_after = ["in"].
Proof.
  split; [reflexivity|]. split; [|vm_compute; repeat split; reflexivity].
  intros x Hx Sx. repeat (destruct Hx as [<-|Hx]; [split; intros; reflexivity || (exfalso; auto; fail)|]). destruct Hx.
Qed.

(** ** C25: lists in object properties *)

(** [list_kept]: the value is written anew once for each Properties element
    around it; with one such element the items are the same afterwards exactly
    when they can be told apart. *)
Theorem C25_cybox_lists_partial : forall o opts up d force s t r s',
  dict_get "2.0" (CYBOX_UPDATERS o) = Some up -> wf_state s -> denotes s d t -> is_elem t = true -> distinct_attributes t ->
  updater_update o up d opts force s = (Ok r, s') ->
  exists t1 e, worked_on o up d opts force s t t1 /\ document s' (r_document r) (erase e) /\
    carried (cybox_gone (or_default o opts) "2.0") (labelled t1) e /\
    stems_at (list_kept (if update_vocabularies (or_default o opts) then cybox_vocabularies "2.0" else [])) (labelled t1) e.
Proof. exact cybox_2_0_lists. Qed.
Print Assumptions C25_cybox_lists_partial.

Theorem C25_stix_lists_partial : forall o opts up d force s t r s',
  dict_get "1.0" (STIX_UPDATERS o) = Some up -> wf_state s -> denotes s d t -> is_elem t = true -> distinct_attributes t ->
  updater_update o up d opts force s = (Ok r, s') ->
  exists t1 e, worked_on o up d opts force s t t1 /\ document s' (r_document r) (erase e) /\
    carried (stix_gone (or_default o opts) "1.0") (labelled t1) e /\
    stems_at (list_kept (if update_vocabularies (or_default o opts) then stix_vocabularies "1.0" else [])) (labelled t1) e.
Proof. exact stix_1_0_lists. Qed.
Print Assumptions C25_stix_lists_partial.

(** The items can be told apart if the value contains no "##comma". *)
Theorem C25_unmarked_items : forall s l l',
  (forall a b, s <> a ++ "##comma" ++ b) -> split_at "," s l -> Forall2 decoded l l' -> unmistakable l'.
Proof. exact unmarked_items. Qed.
Print Assumptions C25_unmarked_items.

(** They can be told apart exactly when splitting what was joined gives them back. *)
Theorem C25_items_told_apart : forall l, l <> [] -> (split_at "##comma##" (join "##comma##" l) l <-> unmistakable l).
Proof. exact join_split_exact. Qed.
Print Assumptions C25_items_told_apart.

(** The items are determined by the text. *)
Theorem C25_items_determined : forall sep s l l', split_at sep s l -> split_at sep s l' -> l = l'.
Proof. exact split_unique. Qed.
Print Assumptions C25_items_determined.

Theorem C25_items_exist : forall sep s, sep <> "" -> exists l, split_at sep s l.
Proof. exact split_exists. Qed.
Print Assumptions C25_items_exist.

(** Neither condition can be dropped.  The document has one node with text. *)
Definition one_property (wrap : tree -> tree) (s : string) : tree :=
  observables [(lq "cybox_major_version", "2"); (lq "cybox_minor_version", "0")]
    [wrap (el (qn "urn:p" "Value") [] [] (Some s) [])].
Definition in_properties (t : tree) : tree :=
  el (qn CYBOX_NS "Object") [] [] None [el (qn CYBOX_NS "Properties") [] [] None [t]].

Definition texts (t : tree) : list string :=
  flat_map (fun x => match h_text (head x) with Some s => [s] | None => [] end) (nodes t).

Ltac nowhere a X :=
  repeat (destruct a as [|? a]; [discriminate X|first [discriminate X|injection X as _ X]]).

Theorem C25_marked_items_refuted :
  ~ (forall o opts up d force s0 t r s' new s l s1 l1,
       dict_get "2.0" (CYBOX_UPDATERS o) = Some up -> wf_state s0 -> denotes s0 d t -> is_elem t = true -> distinct_attributes t ->
       t = one_property in_properties s -> split_at "," s l ->
       updater_update o up d opts force s0 = (Ok r, s') -> document s' (r_document r) new -> texts new = [s1] ->
       split_at "##comma##" s1 l1 -> length l1 = length l).
Proof.
  intro H. pose (s := "a##comma##b"). pose (t := one_property in_properties s).
  destruct (run_document (updater_update o0 Cybox_2_0_Updater (DFile (Some t)) None false (memory []))
    (fun new => match texts new with [x] => String.eqb x s | _ => false end)) as (r & s' & new & E & D & B); [vm_compute; reflexivity|].
  destruct (texts new) as [|x [|? ?]] eqn:T; try discriminate B. apply String.eqb_eq in B. subst x.
  assert (W : wf_state (memory [])) by (split; [constructor|intros i []]).
  assert (DA : distinct_attributes t) by (apply distinct_decided; reflexivity).
  assert (S1 : split_at "," s [s]).
  { constructor. intros a b X. nowhere a X. }
  assert (S2 : split_at "##comma##" s ["a"; "b"]).
  { change s with ("a" ++ "##comma##" ++ "b"). constructor.
    - intros [|? a'] b' X; [discriminate X|simpl; apply le_n_S, Nat.le_0_l].
    - constructor. intros a b X. nowhere a X. }
  pose proof (H o0 None Cybox_2_0_Updater (DFile (Some t)) false (memory []) t r s' new s [s] s ["a"; "b"] eq_refl W eq_refl eq_refl DA eq_refl S1 E D T S2) as X.
  discriminate X.
Qed.
Print Assumptions C25_marked_items_refuted.

Theorem C25_nested_properties_refuted :
  ~ (forall o opts up d force s0 t r s' new s l s1 l1,
       dict_get "2.0" (CYBOX_UPDATERS o) = Some up -> wf_state s0 -> denotes s0 d t -> is_elem t = true -> distinct_attributes t ->
       t = one_property (fun x => in_properties (in_properties x)) s ->
       (forall a b, s <> a ++ "##comma" ++ b) -> split_at "," s l ->
       updater_update o up d opts force s0 = (Ok r, s') -> document s' (r_document r) new -> texts new = [s1] ->
       split_at "##comma##" s1 l1 -> length l1 = length l).
Proof.
  intro H. pose (s := "a&comma;b"). pose (t := one_property (fun x => in_properties (in_properties x)) s).
  destruct (run_document (updater_update o0 Cybox_2_0_Updater (DFile (Some t)) None false (memory []))
    (fun new => match texts new with [x] => String.eqb x "a##comma##b" | _ => false end)) as (r & s' & new & E & D & B); [vm_compute; reflexivity|].
  destruct (texts new) as [|x [|? ?]] eqn:T; try discriminate B. apply String.eqb_eq in B. subst x.
  assert (W : wf_state (memory [])) by (split; [constructor|intros i []]).
  assert (DA : distinct_attributes t) by (apply distinct_decided; reflexivity).
  assert (Nm : forall a b, s <> a ++ "##comma" ++ b).
  { intros a b X. nowhere a X. }
  assert (S1 : split_at "," s [s]).
  { constructor. intros a b X. nowhere a X. }
  assert (S2 : split_at "##comma##" "a##comma##b" ["a"; "b"]).
  { change "a##comma##b" with ("a" ++ "##comma##" ++ "b"). constructor.
    - intros [|? a'] b' X; [discriminate X|simpl; apply le_n_S, Nat.le_0_l].
    - constructor. intros a b X. nowhere a X. }
  pose proof (H o0 None Cybox_2_0_Updater (DFile (Some t)) false (memory []) t r s' new s [s] _ ["a"; "b"] eq_refl W eq_refl eq_refl DA eq_refl Nm S1 E D T S2) as X.
  discriminate X.
Qed.
Print Assumptions C25_nested_properties_refuted.

(** Three items, one with an escaped comma, in one Properties element. *)
Example C25_case :
  let t := one_property in_properties "a,b&comma;c,d" in
  wf_state (memory []) /\ is_elem t = true /\ distinct_attributes t /\
  (exists r s', updater_update o0 Cybox_2_0_Updater (DFile (Some t)) None false (memory []) = (Ok r, s')) /\
  map (fun c => properties_above (cybox "Object") (cybox "Properties") (fst c)) (visits [] t) = [0; 0; 0; 1] /\
  (exists l l', split_at "," "a,b&comma;c,d" l /\ Forall2 decoded l l' /\ l' = ["a"; "b,c"; "d"]).
Proof.
  split; [split; [constructor|intros i []]|]. split; [reflexivity|]. split; [apply distinct_decided; reflexivity|].
  split; [eexists _, _; vm_compute; reflexivity|]. split; [reflexivity|].
  destruct (split_exists "," "a,b&comma;c,d") as (l & H); [discriminate|]. destruct (Forall2_decoded l) as (l' & D).
  exists l, l'. split; auto. split; auto. rewrite (Forall2_replace _ _ D).
  assert (L : split_at "," "a,b&comma;c,d" ["a"; "b&comma;c"; "d"]).
  { change "a,b&comma;c,d" with ("a" ++ "," ++ ("b&comma;c" ++ "," ++ "d")). constructor; [|constructor].
    - intros [|? a'] b' X; [discriminate X|simpl; apply le_n_S, Nat.le_0_l].
    - intros a' b' X. do 9 (destruct a' as [|? a']; [discriminate X|injection X as _ X]). simpl. do 9 apply le_n_S. apply Nat.le_0_l.
    - constructor. intros a b X. nowhere a X. }
  rewrite (split_unique _ _ _ _ H L). reflexivity.
Qed.

(** Items with single marks can be told apart, those ending in most of the
    separator cannot, unless they come last. *)
Example C25_told_apart_case :
  unmistakable ["a#"; "b"; "##comma#"] /\ ~ unmistakable ["##comma#"; "b"] /\ ~ unmistakable ["x##comma"; "b"].
Proof.
  split; [|split].
  - split.
    + intros x a b I E. repeat (destruct I as [<-|I]; [nowhere a E|]). destruct I.
    + intros x a I. split; intro E; repeat (destruct I as [<-|I]; [nowhere a E|]); destruct I.
  - intros [_ B]. destruct (B "##comma#" "") as [_ N]; [left; reflexivity|]. exact (N eq_refl).
  - intros [_ B]. destruct (B "x##comma" "x") as [N _]; [left; reflexivity|]. exact (N eq_refl).
Qed.
