(** * Property theorems: nodes and attributes through a whole update.

    [labelled t] is the given document with every node numbered by its place;
    [e] is the document the update returns with every node that comes from [t]
    labelled by its place in [t], [erase e] is that document itself.  [vs] are
    the versions the update passes through. *)

From Coq Require Import String Ascii List Bool Arith NArith Relation_Operators.
From Verif Require Import Str Xml XPath Utils Base Tables Cybox Stix Ramrod Spec SpecDoc SpecPass SpecStep
  SpecCheck SpecClean SpecUpdate SpecTrace SpecField SpecWhole Lib Samples Worked Api Whole.
Import ListNotations.
Local Open Scope string_scope.

(** ** C40, C41: an update without force, or one that reports no removed nodes *)

Theorem C40_C41_stix_update : forall o d from to opts force s t a vs r s',
  wf_state s -> denotes s d t -> distinct_attributes t -> stix_start from t = Some a ->
  between ["1.0"; "1.0.1"; "1.1"; "1.1.1"; "1.2"; "1.2.1"] a (match given to with Some b => b | None => "1.2.1" end) vs ->
  stix_update o d from to opts force s = (Ok r, s') -> (force = true -> removed_nodes r = []) ->
  exists e, document s' (r_document r) (erase e) /\
    carried (stix_gone_by (or_default o opts) vs) (labelled t) e /\
    stems (fun h h' => forall k, ~ In k (flat_map stix_attributes vs) ->
             (update_vocabularies (or_default o opts) = true -> ~ In k vocabulary_attributes) ->
             (force = true -> k <> lq "id") -> attr_of k h' = attr_of k h) (labelled t) e.
Proof. exact stix_update_carried. Qed.
Print Assumptions C40_C41_stix_update.

Theorem C40_C41_cybox_update : forall o d from to opts force s t a vs r s',
  wf_state s -> denotes s d t -> distinct_attributes t -> cybox_start from t = Some a ->
  between ["2.0"; "2.0.1"; "2.1"] a (match given to with Some b => b | None => "2.1" end) vs ->
  cybox_update o d from to opts force s = (Ok r, s') -> (force = true -> removed_nodes r = []) ->
  exists e, document s' (r_document r) (erase e) /\
    carried (cybox_gone_by (or_default o opts) vs) (labelled t) e /\
    stems (fun h h' => forall k, ~ In k cybox_attributes ->
             (update_vocabularies (or_default o opts) = true -> ~ In k vocabulary_attributes) ->
             (force = true -> k <> lq "id") -> attr_of k h' = attr_of k h) (labelled t) e.
Proof. exact cybox_update_carried. Qed.
Print Assumptions C40_C41_cybox_update.

(** The same of [ramrod.update]. *)
Theorem C40_C41_update : forall o d from to opts force s t r s',
  wf_state s -> denotes s d t -> distinct_attributes t ->
  ramrod_update o d from to opts force s = (Ok r, s') -> (force = true -> removed_nodes r = []) ->
  (forall a vs, q_local (h_tag (head t)) = "STIX_Package" -> stix_start from t = Some a ->
     between ["1.0"; "1.0.1"; "1.1"; "1.1.1"; "1.2"; "1.2.1"] a (match given to with Some b => b | None => "1.2.1" end) vs ->
     exists e, document s' (r_document r) (erase e) /\
       carried (stix_gone_by (or_default o opts) vs) (labelled t) e /\
       stems (fun h h' => forall k, ~ In k (flat_map stix_attributes vs) ->
                (update_vocabularies (or_default o opts) = true -> ~ In k vocabulary_attributes) ->
                (force = true -> k <> lq "id") -> attr_of k h' = attr_of k h) (labelled t) e) /\
  (forall a vs, q_local (h_tag (head t)) = "Observables" -> cybox_start from t = Some a ->
     between ["2.0"; "2.0.1"; "2.1"] a (match given to with Some b => b | None => "2.1" end) vs ->
     exists e, document s' (r_document r) (erase e) /\
       carried (cybox_gone_by (or_default o opts) vs) (labelled t) e /\
       stems (fun h h' => forall k, ~ In k cybox_attributes ->
                (update_vocabularies (or_default o opts) = true -> ~ In k vocabulary_attributes) ->
                (force = true -> k <> lq "id") -> attr_of k h' = attr_of k h) (labelled t) e).
Proof.
  intros o d from to opts force s t r s' W Dn D E Rm. split; intros a vs N A B.
  - rewrite (ramrod_is_stix o d from to opts force s t W Dn N) in E. eapply stix_update_carried; eauto.
  - rewrite (ramrod_is_cybox o d from to opts force s t W Dn N) in E. eapply cybox_update_carried; eauto.
Qed.
Print Assumptions C40_C41_update.

(** ** C40, C41: any update, with or without force

    Every node outside the fields that a step replaces is in the new document or
    in one of the subtrees reported as removed, never in both; the attributes of both are the
    ones of the given document, with the exceptions named in [kept_but]. *)

Theorem C40_C41_stix_nothing_lost : forall o d from to opts force s t a vs r s',
  wf_state s -> denotes s d t -> distinct_attributes t -> stix_start from t = Some a ->
  between ["1.0"; "1.0.1"; "1.1"; "1.1.1"; "1.2"; "1.2.1"] a (match given to with Some b => b | None => "1.2.1" end) vs ->
  stix_update o d from to opts force s = (Ok r, s') ->
  exists e L, document s' (r_document r) (erase e) /\ Forall2 (document s') (removed_nodes r) (map erase L) /\ (force = false -> L = []) /\
    conserved (stix_gone_by (or_default o opts) vs) (labelled t) e L /\
    forall z, In z (e :: L) -> stems (kept_but (flat_map stix_attributes vs) (or_default o opts) force) (labelled t) z.
Proof.
  intros o d from to opts force s t a vs r s' W Dn D A B E.
  destruct (stix_update_conserved o d from to opts force s t a vs r s' W Dn D A B E) as (e & L & H1 & H2 & H3 & H4 & H5 & _). exists e, L. auto.
Qed.
Print Assumptions C40_C41_stix_nothing_lost.

Theorem C40_C41_cybox_nothing_lost : forall o d from to opts force s t a vs r s',
  wf_state s -> denotes s d t -> distinct_attributes t -> cybox_start from t = Some a ->
  between ["2.0"; "2.0.1"; "2.1"] a (match given to with Some b => b | None => "2.1" end) vs ->
  cybox_update o d from to opts force s = (Ok r, s') ->
  exists e L, document s' (r_document r) (erase e) /\ Forall2 (document s') (removed_nodes r) (map erase L) /\ (force = false -> L = []) /\
    conserved (cybox_gone_by (or_default o opts) vs) (labelled t) e L /\
    forall z, In z (e :: L) -> stems (kept_but cybox_attributes (or_default o opts) force) (labelled t) z.
Proof.
  intros o d from to opts force s t a vs r s' W Dn D A B E.
  destruct (cybox_update_conserved o d from to opts force s t a vs r s' W Dn D A B E) as (e & L & H1 & H2 & H3 & H4 & H5 & _). exists e, L. auto.
Qed.
Print Assumptions C40_C41_cybox_nothing_lost.

(** The same of [ramrod.update]. *)
Theorem C40_C41_nothing_lost : forall o d from to opts force s t r s',
  wf_state s -> denotes s d t -> distinct_attributes t ->
  ramrod_update o d from to opts force s = (Ok r, s') ->
  (forall a vs, q_local (h_tag (head t)) = "STIX_Package" -> stix_start from t = Some a ->
     between ["1.0"; "1.0.1"; "1.1"; "1.1.1"; "1.2"; "1.2.1"] a (match given to with Some b => b | None => "1.2.1" end) vs ->
     exists e L, document s' (r_document r) (erase e) /\ Forall2 (document s') (removed_nodes r) (map erase L) /\ (force = false -> L = []) /\
       conserved (stix_gone_by (or_default o opts) vs) (labelled t) e L /\
       forall z, In z (e :: L) -> stems (kept_but (flat_map stix_attributes vs) (or_default o opts) force) (labelled t) z) /\
  (forall a vs, q_local (h_tag (head t)) = "Observables" -> cybox_start from t = Some a ->
     between ["2.0"; "2.0.1"; "2.1"] a (match given to with Some b => b | None => "2.1" end) vs ->
     exists e L, document s' (r_document r) (erase e) /\ Forall2 (document s') (removed_nodes r) (map erase L) /\ (force = false -> L = []) /\
       conserved (cybox_gone_by (or_default o opts) vs) (labelled t) e L /\
       forall z, In z (e :: L) -> stems (kept_but cybox_attributes (or_default o opts) force) (labelled t) z).
Proof.
  intros o d from to opts force s t r s' W Dn D E. split; intros a vs N A B.
  - rewrite (ramrod_is_stix o d from to opts force s t W Dn N) in E. eapply C40_C41_stix_nothing_lost; eauto.
  - rewrite (ramrod_is_cybox o d from to opts force s t W Dn N) in E. eapply C40_C41_cybox_nothing_lost; eauto.
Qed.
Print Assumptions C40_C41_nothing_lost.

(** Four steps on a package with contributors, an exploit target and a driver;
    all steps with force on a package with a shared id; both CybOX steps. *)
Definition pkg_shared : tree :=
  package "1.0"
    [el (qn STIX_NS "TTP") [] [(lq "id", "ex:t1"); (lq "note", "n")] None [comment "c"];
     el (qn STIX_NS "TTP") [] [(lq "id", "ex:t1")] None []].

Definition none_removed (m : res results * st) : bool :=
  match fst m with Ok r => match removed_nodes r with [] => true | _ => false end | Err _ => false end.

Lemma none_removed_ok m : none_removed m = true -> exists r s', m = (Ok r, s') /\ removed_nodes r = [].
Proof.
  destruct m as [[r|x] s']; cbn [none_removed fst]; [|discriminate]. destruct (removed_nodes r) eqn:E; [|discriminate]. intros _. eauto.
Qed.

Example C40_C41_update_case :
  (wf_state (memory []) /\ distinct_attributes pkg_1_0_1 /\ stix_start None pkg_1_0_1 = Some "1.0.1" /\
   between ["1.0"; "1.0.1"; "1.1"; "1.1.1"; "1.2"; "1.2.1"] "1.0.1" "1.2.1" ["1.0.1"; "1.1"; "1.1.1"; "1.2"] /\
   existsb (fun x => stix_gone_by (default_options o0) ["1.0.1"; "1.1"; "1.1.1"; "1.2"] (head x)) (nodes pkg_1_0_1) = true /\
   exists r s', ramrod_update o0 (DFile (Some pkg_1_0_1)) None None None false (memory []) = (Ok r, s') /\ removed_nodes r = []) /\
  (distinct_attributes pkg_shared /\ stix_start None pkg_shared = Some "1.0" /\
   exists r s', ramrod_update o0 (DFile (Some pkg_shared)) None None None true (memory []) = (Ok r, s') /\ removed_nodes r = []) /\
  (distinct_attributes obs_2_0 /\ cybox_start None obs_2_0 = Some "2.0" /\
   between ["2.0"; "2.0.1"; "2.1"] "2.0" "2.1" ["2.0"; "2.0.1"] /\
   exists r s', ramrod_update o0 (DFile (Some obs_2_0)) None None None false (memory []) = (Ok r, s') /\ removed_nodes r = []).
Proof.
  split; [|split].
  - split; [apply memory_wf|]. split; [apply distinct_decided; vm_compute; reflexivity|]. split; [reflexivity|].
    split; [exists ["1.0"], ["1.1"; "1.1.1"; "1.2"], []; split; reflexivity|]. split; [vm_compute; reflexivity|].
    apply none_removed_ok. vm_compute. reflexivity.
  - split; [apply distinct_decided; vm_compute; reflexivity|]. split; [reflexivity|]. apply none_removed_ok. vm_compute. reflexivity.
  - split; [apply distinct_decided; vm_compute; reflexivity|]. split; [reflexivity|].
    split; [exists [], ["2.0.1"], []; split; reflexivity|]. apply none_removed_ok. vm_compute. reflexivity.
Qed.

(** A forced update that removes a node, on its way through four versions. *)
Definition some_removed (m : res results * st) : bool :=
  match fst m with Ok r => match removed_nodes r with [] => false | _ => true end | Err _ => false end.

Lemma some_removed_ok m : some_removed m = true -> exists r s', m = (Ok r, s') /\ removed_nodes r <> [].
Proof.
  destruct m as [[r|x] s']; cbn [some_removed fst]; [|discriminate]. destruct (removed_nodes r) eqn:E; [discriminate|]. intros _.
  exists r, s'. split; auto. rewrite E. discriminate.
Qed.

Example C40_C41_nothing_lost_case :
  wf_state (memory []) /\ distinct_attributes pkg_1_0_1_bad /\ q_local (h_tag (head pkg_1_0_1_bad)) = "STIX_Package" /\
  stix_start None pkg_1_0_1_bad = Some "1.0.1" /\
  between ["1.0"; "1.0.1"; "1.1"; "1.1.1"; "1.2"; "1.2.1"] "1.0.1" "1.2.1" ["1.0.1"; "1.1"; "1.1.1"; "1.2"] /\
  exists r s', ramrod_update o0 (DFile (Some pkg_1_0_1_bad)) None None None true (memory []) = (Ok r, s') /\ removed_nodes r <> [].
Proof.
  split; [apply memory_wf|]. split; [apply distinct_decided; vm_compute; reflexivity|]. split; [reflexivity|]. split; [reflexivity|].
  split; [exists ["1.0"], ["1.1"; "1.1.1"; "1.2"], []; split; reflexivity|]. apply some_removed_ok. vm_compute. reflexivity.
Qed.

(** ** C71: elements keep their names

    In the new document and in the removed subtrees every element that comes
    from the given document has its name, or the one that the steps of the
    update give to that name. *)

Theorem C71_stix : forall o d from to opts force s t a vs r s',
  wf_state s -> denotes s d t -> distinct_attributes t -> stix_start from t = Some a ->
  between ["1.0"; "1.0.1"; "1.1"; "1.1.1"; "1.2"; "1.2.1"] a (match given to with Some b => b | None => "1.2.1" end) vs ->
  stix_update o d from to opts force s = (Ok r, s') ->
  exists e L, document s' (r_document r) (erase e) /\ Forall2 (document s') (removed_nodes r) (map erase L) /\
    conserved (stix_gone_by (or_default o opts) vs) (labelled t) e L /\
    forall z, In z (e :: L) -> stems (called (through stix_name vs)) (labelled t) z.
Proof.
  intros o d from to opts force s t a vs r s' W Dn D A B E.
  destruct (stix_update_conserved o d from to opts force s t a vs r s' W Dn D A B E) as (e & L & H1 & H2 & H3 & H4 & _ & H5 & _). exists e, L. auto.
Qed.
Print Assumptions C71_stix.

Theorem C71_cybox : forall o d from to opts force s t a vs r s',
  wf_state s -> denotes s d t -> distinct_attributes t -> cybox_start from t = Some a ->
  between ["2.0"; "2.0.1"; "2.1"] a (match given to with Some b => b | None => "2.1" end) vs ->
  cybox_update o d from to opts force s = (Ok r, s') ->
  exists e L, document s' (r_document r) (erase e) /\ Forall2 (document s') (removed_nodes r) (map erase L) /\
    conserved (cybox_gone_by (or_default o opts) vs) (labelled t) e L /\
    forall z, In z (e :: L) -> stems (called (through cybox_name vs)) (labelled t) z.
Proof.
  intros o d from to opts force s t a vs r s' W Dn D A B E.
  destruct (cybox_update_conserved o d from to opts force s t a vs r s' W Dn D A B E) as (e & L & H1 & H2 & H3 & H4 & _ & H5 & _). exists e, L. auto.
Qed.
Print Assumptions C71_cybox.

Theorem C71_update : forall o d from to opts force s t r s',
  wf_state s -> denotes s d t -> distinct_attributes t ->
  ramrod_update o d from to opts force s = (Ok r, s') ->
  (forall a vs, q_local (h_tag (head t)) = "STIX_Package" -> stix_start from t = Some a ->
     between ["1.0"; "1.0.1"; "1.1"; "1.1.1"; "1.2"; "1.2.1"] a (match given to with Some b => b | None => "1.2.1" end) vs ->
     exists e L, document s' (r_document r) (erase e) /\ Forall2 (document s') (removed_nodes r) (map erase L) /\
       conserved (stix_gone_by (or_default o opts) vs) (labelled t) e L /\
       forall z, In z (e :: L) -> stems (called (through stix_name vs)) (labelled t) z) /\
  (forall a vs, q_local (h_tag (head t)) = "Observables" -> cybox_start from t = Some a ->
     between ["2.0"; "2.0.1"; "2.1"] a (match given to with Some b => b | None => "2.1" end) vs ->
     exists e L, document s' (r_document r) (erase e) /\ Forall2 (document s') (removed_nodes r) (map erase L) /\
       conserved (cybox_gone_by (or_default o opts) vs) (labelled t) e L /\
       forall z, In z (e :: L) -> stems (called (through cybox_name vs)) (labelled t) z).
Proof.
  intros o d from to opts force s t r s' W Dn D E. split; intros a vs N A B.
  - rewrite (ramrod_is_stix o d from to opts force s t W Dn N) in E. eapply C71_stix; eauto.
  - rewrite (ramrod_is_cybox o d from to opts force s t W Dn N) in E. eapply C71_cybox; eauto.
Qed.
Print Assumptions C71_update.

(** The hypotheses are those of [C40_C41_nothing_lost_case].  Names that change
    on the way, in one step and in two, and one that does not. *)
Example C71_case :
  through stix_name ["1.0.1"; "1.1"; "1.1.1"; "1.2"] (http_name "X_Requested_For") (http_name "X_Forwarded_For") /\
  through stix_name ["1.0.1"; "1.1"; "1.1.1"; "1.2"] (indicator "Related_Campaign")
    (qn "http://docs.oasis-open.org/cti/ns/stix/common-1" "Campaign") /\
  (forall q, through stix_name ["1.1"; "1.1.1"] (stix "TTPs") q -> q = stix "TTPs").
Proof.
  split; [|split].
  - eexists. split; [right; left; split; [reflexivity|left; left; reflexivity]|]. do 3 (eexists; split; [left; reflexivity|]). reflexivity.
  - eexists. split; [left; reflexivity|]. eexists. split; [right; right; left; auto|]. eexists. split; [left; reflexivity|].
    eexists. split; [right; right; right; split; [reflexivity|constructor; reflexivity]|]. reflexivity.
  - intros q (a & A & b & B & ->).
    assert (a = stix "TTPs") as ->.
    { destruct A as [-> |[[E _]|[(_ & E & _)|[E _]]]]; auto; discriminate E. }
    destruct B as [-> |[[E _]|[(E & _ & _)|[E _]]]]; auto; discriminate E.
Qed.

(** ** C72: nodes keep their texts

    In the new document and in the removed subtrees every element, comment and
    processing instruction that comes from the given document has the text it
    had, and the text behind it, but for the documented changes: the lists
    written anew, the terms replaced if vocabularies are updated, and what an
    element that moves to another namespace loses. *)

Theorem C72_stix : forall o d from to opts force s t a vs r s',
  wf_state s -> denotes s d t -> distinct_attributes t -> stix_start from t = Some a ->
  between ["1.0"; "1.0.1"; "1.1"; "1.1.1"; "1.2"; "1.2.1"] a (match given to with Some b => b | None => "1.2.1" end) vs ->
  stix_update o d from to opts force s = (Ok r, s') ->
  exists e L, document s' (r_document r) (erase e) /\ Forall2 (document s') (removed_nodes r) (map erase L) /\
    conserved (stix_gone_by (or_default o opts) vs) (labelled t) e L /\
    forall z, In z (e :: L) -> stems (fun h h' => along (stix_change (or_default o opts)) vs (told h) (told h')) (labelled t) z.
Proof.
  intros o d from to opts force s t a vs r s' W Dn D A B E.
  destruct (stix_update_conserved o d from to opts force s t a vs r s' W Dn D A B E) as (e & L & H1 & H2 & H3 & H4 & _ & _ & H5 & _). exists e, L. auto.
Qed.
Print Assumptions C72_stix.

Theorem C72_cybox : forall o d from to opts force s t a vs r s',
  wf_state s -> denotes s d t -> distinct_attributes t -> cybox_start from t = Some a ->
  between ["2.0"; "2.0.1"; "2.1"] a (match given to with Some b => b | None => "2.1" end) vs ->
  cybox_update o d from to opts force s = (Ok r, s') ->
  exists e L, document s' (r_document r) (erase e) /\ Forall2 (document s') (removed_nodes r) (map erase L) /\
    conserved (cybox_gone_by (or_default o opts) vs) (labelled t) e L /\
    forall z, In z (e :: L) -> stems (fun h h' => along (cybox_change (or_default o opts)) vs (told h) (told h')) (labelled t) z.
Proof.
  intros o d from to opts force s t a vs r s' W Dn D A B E.
  destruct (cybox_update_conserved o d from to opts force s t a vs r s' W Dn D A B E) as (e & L & H1 & H2 & H3 & H4 & _ & _ & H5 & _). exists e, L. auto.
Qed.
Print Assumptions C72_cybox.

Theorem C72_update : forall o d from to opts force s t r s',
  wf_state s -> denotes s d t -> distinct_attributes t ->
  ramrod_update o d from to opts force s = (Ok r, s') ->
  (forall a vs, q_local (h_tag (head t)) = "STIX_Package" -> stix_start from t = Some a ->
     between ["1.0"; "1.0.1"; "1.1"; "1.1.1"; "1.2"; "1.2.1"] a (match given to with Some b => b | None => "1.2.1" end) vs ->
     exists e L, document s' (r_document r) (erase e) /\ Forall2 (document s') (removed_nodes r) (map erase L) /\
       conserved (stix_gone_by (or_default o opts) vs) (labelled t) e L /\
       forall z, In z (e :: L) -> stems (fun h h' => along (stix_change (or_default o opts)) vs (told h) (told h')) (labelled t) z) /\
  (forall a vs, q_local (h_tag (head t)) = "Observables" -> cybox_start from t = Some a ->
     between ["2.0"; "2.0.1"; "2.1"] a (match given to with Some b => b | None => "2.1" end) vs ->
     exists e L, document s' (r_document r) (erase e) /\ Forall2 (document s') (removed_nodes r) (map erase L) /\
       conserved (cybox_gone_by (or_default o opts) vs) (labelled t) e L /\
       forall z, In z (e :: L) -> stems (fun h h' => along (cybox_change (or_default o opts)) vs (told h) (told h')) (labelled t) z).
Proof.
  intros o d from to opts force s t r s' W Dn D E. split; intros a vs N A B.
  - rewrite (ramrod_is_stix o d from to opts force s t W Dn N) in E. eapply C72_stix; eauto.
  - rewrite (ramrod_is_cybox o d from to opts force s t W Dn N) in E. eapply C72_cybox; eauto.
Qed.
Print Assumptions C72_update.

(** What the changes leave alone: a text without commas that is no term. *)
Lemma change_text ren m ls terms k q x y k' q' x' y' :
  (forall s, x = Some s -> replace "&comma;" "," (replace "," "##comma##" s) = s /\ ~ In s (map fst terms)) ->
  change ren m ls terms (k, q, x, y) (k', q', x', y') -> (x' = x \/ m <> [] /\ x' = None) /\ (y' = y \/ m <> [] /\ y' = None).
Proof.
  intros H C. inversion C; subst; auto.
  - destruct (H s eq_refl) as [E _]. rewrite E. auto.
  - destruct (H s eq_refl) as [_ E]. exfalso. apply E. apply in_map_iff. exists (s, s'). auto.
  - assert (M : m <> []) by (intros ->; match goal with X : moved_by _ _ _ |- _ => inversion X; discriminate end).
    split; [|auto]. match goal with X : _ \/ _ |- _ => destruct X as [-> | ->]; auto end.
Qed.

(** A text that is neither a list nor a term of the vocabularies stays as it
    is up to version 1.2, except that it may leave with its driver. *)
Theorem C72_plain : forall opts vs k q x y k' q' x' y',
  (forall s, x = Some s -> replace "&comma;" "," (replace "," "##comma##" s) = s /\
     ~ In s (map fst (flat_map v_terms [event_type; motivation_1_0_1; operational_support; object_relationship; tool_type;
       action_name; motivation_1_1; indicator_type; availability_loss; discovery_method]))) ->
  along (stix_change opts) vs (k, q, x, y) (k', q', x', y') ->
  (x' = x \/ x' = None) /\ (y' = y \/ y' = None) /\
  (~ In "1.0.1" vs -> ~ In "1.2" vs -> x' = x /\ y' = y).
Proof.
  intros opts vs k q x y k' q' x' y' H A.
  set (T := flat_map v_terms [event_type; motivation_1_0_1; operational_support; object_relationship; tool_type;
       action_name; motivation_1_1; indicator_type; availability_loss; discovery_method]) in *.
  assert (Tm : forall l, (forall v, In v l -> In v [event_type; motivation_1_0_1; operational_support; object_relationship; tool_type;
       action_name; motivation_1_1; indicator_type; availability_loss; discovery_method]) ->
     forall s, In s (map fst (terms_of opts l)) -> In s (map fst T)).
  { intros l Hl s Hs. unfold terms_of in Hs. destruct (update_vocabularies opts); [|destruct Hs].
    apply in_map_iff in Hs as (p & <- & Hp). apply in_flat_map in Hp as (v & Hv & Hp). apply in_map. apply in_flat_map. eauto. }
  assert (One : forall v c c', (snd (fst c) = x \/ snd (fst c) = None) -> stix_change opts v c c' ->
      (snd (fst c') = snd (fst c) \/ (v = "1.0.1" \/ v = "1.2") /\ snd (fst c') = None) /\ (snd c' = snd c \/ (v = "1.0.1" \/ v = "1.2") /\ snd c' = None)).
  { intros v [[[k0 q0] x0] y0] [[[k1 q1] x1] y1] Hx C. cbn [fst snd] in *.
    assert (H0 : forall s, x0 = Some s -> replace "&comma;" "," (replace "," "##comma##" s) = s /\ ~ In s (map fst T)).
    { intros s ->. destruct Hx as [Hx|Hx]; [|discriminate]. apply H. congruence. }
    assert (Use : forall ren m ls l, (forall v, In v l -> In v [event_type; motivation_1_0_1; operational_support; object_relationship; tool_type;
         action_name; motivation_1_1; indicator_type; availability_loss; discovery_method]) ->
       change ren m ls (terms_of opts l) (k0, q0, x0, y0) (k1, q1, x1, y1) -> (x1 = x0 \/ m <> [] /\ x1 = None) /\ (y1 = y0 \/ m <> [] /\ y1 = None)).
    { intros ren m ls l Hl. apply change_text. intros s Es. destruct (H0 s Es) as [Z1 Z2]. split; [exact Z1|]. intro I. apply Z2. eapply Tm; eauto. }
    destruct C as [[Ev C]|[[Ev C]|[[Ev C]|[[Ev C]|[Ev C]]]]].
    - apply Use in C; [|cbn [In]; tauto]. destruct C as [[C|[C _]] [C'|[C' _]]]; try (exfalso; auto; fail); auto.
    - apply Use in C; [|cbn [In]; tauto]. tauto.
    - apply Use in C; [|cbn [In]; tauto]. destruct C as [[C|[C _]] [C'|[C' _]]]; try (exfalso; auto; fail); auto.
    - apply Use in C; [|cbn [In]; tauto]. destruct C as [[C|[C _]] [C'|[C' _]]]; try (exfalso; auto; fail); auto.
    - apply change_text in C; [tauto|]. intros s Es. destruct (H0 s Es) as [Z1 _]. split; [exact Z1|]. intros []. }
  assert (Many : forall v c c', clos_refl_trans told_of (stix_change opts v) c c' -> (snd (fst c) = x \/ snd (fst c) = None) ->
      (snd (fst c') = snd (fst c) \/ (v = "1.0.1" \/ v = "1.2") /\ snd (fst c') = None) /\ (snd c' = snd c \/ (v = "1.0.1" \/ v = "1.2") /\ snd c' = None)).
  { intros v c c' C. induction C as [c c' C|c|c d e _ IH1 _ IH2]; intro Hx; [apply One; auto|auto|].
    destruct (IH1 Hx) as [P1 P2]. destruct IH2 as [Q1 Q2]; [destruct P1 as [P1|[_ P1]]; rewrite P1; auto|].
    split.
    - destruct Q1 as [Q1|Q1]; auto. rewrite Q1. exact P1.
    - destruct Q2 as [Q2|Q2]; auto. rewrite Q2. exact P2. }
  change x' with (snd (fst (k', q', x', y'))) at 1 2 3. change y' with (snd (k', q', x', y')) at 1 2 3.
  assert (S0 : snd (fst (k, q, x, y)) = x \/ snd (fst (k, q, x, y)) = None) by auto.
  change y with (snd (k, q, x, y)). assert (Y0 : snd (k, q, x, y) = snd (k, q, x, y) \/ snd (k, q, x, y) = None) by auto.
  assert (G : forall vs c d, along (stix_change opts) vs c d -> (snd (fst c) = x \/ snd (fst c) = None) ->
    (snd (fst d) = snd (fst c) \/ snd (fst d) = None) /\ (snd d = snd c \/ snd d = None) /\
    (~ In "1.0.1" vs -> ~ In "1.2" vs -> snd (fst d) = snd (fst c) /\ snd d = snd c)).
  { clear - Many. induction vs as [|v vs IH]; intros c d A Hx; [cbn in A; subst d; auto|].
    destruct A as (c1 & A & B). apply Many in A as [P1 P2]; auto.
    destruct (IH c1 d B) as (Q1 & Q2 & Q3); [destruct P1 as [P1|[_ P1]]; rewrite P1; auto|].
    split; [|split].
    - destruct Q1 as [Q1|Q1]; auto. rewrite Q1. tauto.
    - destruct Q2 as [Q2|Q2]; auto. rewrite Q2. tauto.
    - intros N1 N2. cbn [In] in N1, N2. destruct Q3 as [-> ->]; tauto. }
  destruct (G _ _ _ A S0) as (G1 & G2 & G3). auto.
Qed.
Print Assumptions C72_plain.

(** Comments, processing instructions and entities (which are in no namespace)
    come out as they were, with the text behind them. *)
Lemma change_other ren m ls terms k q x y c : k <> KElem -> q_ns q = None -> ~ change ren m ls terms (k, q, x, y) c.
Proof.
  intros K Q C. inversion C; subst; try (destruct K; reflexivity).
  match goal with X : moved_by _ _ _ |- _ => inversion X; subst; discriminate Q end.
Qed.

Lemma along_other (one : string -> told_of -> told_of -> Prop) a : (forall v c, ~ one v a c) -> forall vs b, along one vs a b -> b = a.
Proof.
  intros H. assert (G : forall v a' c, clos_refl_trans told_of (one v) a' c -> a' = a -> c = a).
  { intros v a' c K. induction K as [a' c K| |a' b c _ I1 _ I2]; intro E; auto. subst a'. destruct (H v c K). }
  induction vs as [|v vs IH]; intros b A; [exact A|]. destruct A as (c & A & B). rewrite (G v a c A eq_refl) in B. auto.
Qed.

Theorem C72_comments : forall opts vs k q x y b, k <> KElem -> q_ns q = None ->
  along (stix_change opts) vs (k, q, x, y) b \/ along (cybox_change opts) vs (k, q, x, y) b -> b = (k, q, x, y).
Proof.
  intros opts vs k q x y b K Q [A|A]; eapply along_other; try exact A; intros v c C.
  - destruct C as [[_ C]|[[_ C]|[[_ C]|[[_ C]|[_ C]]]]]; eapply change_other; eauto.
  - destruct C as [[_ C]|[_ C]]; eapply change_other; eauto.
Qed.
Print Assumptions C72_comments.

Theorem C72_stix_comments : forall o d from to opts force s t a vs r s',
  wf_state s -> denotes s d t -> distinct_attributes t -> stix_start from t = Some a ->
  between ["1.0"; "1.0.1"; "1.1"; "1.1.1"; "1.2"; "1.2.1"] a (match given to with Some b => b | None => "1.2.1" end) vs ->
  stix_update o d from to opts force s = (Ok r, s') ->
  exists e L, document s' (r_document r) (erase e) /\ Forall2 (document s') (removed_nodes r) (map erase L) /\
    conserved (stix_gone_by (or_default o opts) vs) (labelled t) e L /\
    forall z, In z (e :: L) -> stems (fun h h' => h_kind h <> KElem -> q_ns (h_tag h) = None -> told h' = told h) (labelled t) z.
Proof.
  intros o d from to opts force s t a vs r s' W Dn D A B E.
  destruct (C72_stix o d from to opts force s t a vs r s' W Dn D A B E) as (e & L & H1 & H2 & H3 & H4). exists e, L. split; auto. split; auto. split; auto.
  intros z Hz x Hx N. destruct (H4 z Hz x Hx N) as (y & Hy & Ey & R). exists y. split; auto. split; auto. intros K Q.
  eapply (C72_comments (or_default o opts)); [exact K|exact Q|]. left. exact R.
Qed.
Print Assumptions C72_stix_comments.

Theorem C72_cybox_comments : forall o d from to opts force s t a vs r s',
  wf_state s -> denotes s d t -> distinct_attributes t -> cybox_start from t = Some a ->
  between ["2.0"; "2.0.1"; "2.1"] a (match given to with Some b => b | None => "2.1" end) vs ->
  cybox_update o d from to opts force s = (Ok r, s') ->
  exists e L, document s' (r_document r) (erase e) /\ Forall2 (document s') (removed_nodes r) (map erase L) /\
    conserved (cybox_gone_by (or_default o opts) vs) (labelled t) e L /\
    forall z, In z (e :: L) -> stems (fun h h' => h_kind h <> KElem -> q_ns (h_tag h) = None -> told h' = told h) (labelled t) z.
Proof.
  intros o d from to opts force s t a vs r s' W Dn D A B E.
  destruct (C72_cybox o d from to opts force s t a vs r s' W Dn D A B E) as (e & L & H1 & H2 & H3 & H4). exists e, L. split; auto. split; auto. split; auto.
  intros z Hz x Hx N. destruct (H4 z Hz x Hx N) as (y & Hy & Ey & R). exists y. split; auto. split; auto. intros K Q.
  eapply (C72_comments (or_default o opts)); [exact K|exact Q|]. right. exact R.
Qed.
Print Assumptions C72_cybox_comments.

(** The hypotheses of the updates are those of [C40_C41_nothing_lost_case].  A list and a
    term that change, and a text that [C72_plain] is about. *)
Example C72_case :
  existsb (fun x => match h_kind (head x), q_ns (h_tag (head x)) with KComment, None => true | _, _ => false end) (nodes pkg_shared) = true /\
  stix_change (default_options o0) "1.0" (KElem, qn CYBOX_NS "Value", Some "a,b", None) (KElem, qn CYBOX_NS "Value", Some "a##comma##b", None) /\
  (exists s s', In (s, s') (terms_of (default_options o0) [discovery_method]) /\ s <> s' /\
     stix_change (default_options o0) "1.1.1" (KElem, qn CYBOX_NS "Value", Some s, None) (KElem, qn CYBOX_NS "Value", Some s', None)) /\
  replace "&comma;" "," (replace "," "##comma##" "plain text") = "plain text" /\
  existsb (String.eqb "plain text") (map fst (flat_map v_terms [event_type; motivation_1_0_1; operational_support; object_relationship; tool_type;
       action_name; motivation_1_1; indicator_type; availability_loss; discovery_method])) = false.
Proof.
  split; [vm_compute; reflexivity|]. split; [|split; [|split]].
  - left. split; [reflexivity|]. apply (ch_list _ _ _ _ _ "a,b" None). reflexivity.
  - destruct (terms_of (default_options o0) [discovery_method]) as [|[s s'] l] eqn:E; [vm_compute in E; discriminate|].
    exists s, s'. assert (I : In (s, s') ((s, s') :: l)) by (left; reflexivity). split; [exact I|]. split.
    + vm_compute in E. injection E as <- <- _. discriminate.
    + right. right. right. left. split; [reflexivity|]. apply ch_term. rewrite E. exact I.
  - vm_compute. reflexivity.
  - vm_compute. reflexivity.
Qed.

(** ** C73: nothing is invented

    Every node of the new document and of the removed subtrees that does not
    come from the given document is one of the elements that a step of the
    update makes: the fields put in place of others, the wrappers, the parts of
    a structured source; or it was in the text of a Source as markup. *)

Theorem C73_stix : forall o d from to opts force s t a vs r s',
  wf_state s -> denotes s d t -> distinct_attributes t -> stix_start from t = Some a ->
  between ["1.0"; "1.0.1"; "1.1"; "1.1.1"; "1.2"; "1.2.1"] a (match given to with Some b => b | None => "1.2.1" end) vs ->
  stix_update o d from to opts force s = (Ok r, s') ->
  exists e L, document s' (r_document r) (erase e) /\ Forall2 (document s') (removed_nodes r) (map erase L) /\
    conserved (stix_gone_by (or_default o opts) vs) (labelled t) e L /\
    forall z, In z (e :: L) -> new_nodes (arises (stix_new o) (stix_change (or_default o opts)) vs) z.
Proof.
  intros o d from to opts force s t a vs r s' W Dn D A B E.
  destruct (stix_update_conserved o d from to opts force s t a vs r s' W Dn D A B E) as (e & L & H1 & H2 & H3 & H4 & _ & _ & _ & H5). exists e, L. auto.
Qed.
Print Assumptions C73_stix.

Theorem C73_cybox : forall o d from to opts force s t a vs r s',
  wf_state s -> denotes s d t -> distinct_attributes t -> cybox_start from t = Some a ->
  between ["2.0"; "2.0.1"; "2.1"] a (match given to with Some b => b | None => "2.1" end) vs ->
  cybox_update o d from to opts force s = (Ok r, s') ->
  exists e L, document s' (r_document r) (erase e) /\ Forall2 (document s') (removed_nodes r) (map erase L) /\
    conserved (cybox_gone_by (or_default o opts) vs) (labelled t) e L /\
    forall z, In z (e :: L) -> new_nodes (arises cybox_new (cybox_change (or_default o opts)) vs) z.
Proof.
  intros o d from to opts force s t a vs r s' W Dn D A B E.
  destruct (cybox_update_conserved o d from to opts force s t a vs r s' W Dn D A B E) as (e & L & H1 & H2 & H3 & H4 & _ & _ & _ & H5). exists e, L. auto.
Qed.
Print Assumptions C73_cybox.

Theorem C73_update : forall o d from to opts force s t r s',
  wf_state s -> denotes s d t -> distinct_attributes t ->
  ramrod_update o d from to opts force s = (Ok r, s') ->
  (forall a vs, q_local (h_tag (head t)) = "STIX_Package" -> stix_start from t = Some a ->
     between ["1.0"; "1.0.1"; "1.1"; "1.1.1"; "1.2"; "1.2.1"] a (match given to with Some b => b | None => "1.2.1" end) vs ->
     exists e L, document s' (r_document r) (erase e) /\ Forall2 (document s') (removed_nodes r) (map erase L) /\
       conserved (stix_gone_by (or_default o opts) vs) (labelled t) e L /\
       forall z, In z (e :: L) -> new_nodes (arises (stix_new o) (stix_change (or_default o opts)) vs) z) /\
  (forall a vs, q_local (h_tag (head t)) = "Observables" -> cybox_start from t = Some a ->
     between ["2.0"; "2.0.1"; "2.1"] a (match given to with Some b => b | None => "2.1" end) vs ->
     exists e L, document s' (r_document r) (erase e) /\ Forall2 (document s') (removed_nodes r) (map erase L) /\
       conserved (cybox_gone_by (or_default o opts) vs) (labelled t) e L /\
       forall z, In z (e :: L) -> new_nodes (arises cybox_new (cybox_change (or_default o opts)) vs) z).
Proof.
  intros o d from to opts force s t r s' W Dn D E. split; intros a vs N A B.
  - rewrite (ramrod_is_stix o d from to opts force s t W Dn N) in E. eapply C73_stix; eauto.
  - rewrite (ramrod_is_cybox o d from to opts force s t W Dn N) in E. eapply C73_cybox; eauto.
Qed.
Print Assumptions C73_update.

(** Updates that pass through neither 1.0.1 nor 1.1 make no new nodes. *)
Theorem C73_none_new : forall o opts vs a, ~ In "1.0.1" vs -> ~ In "1.1" vs -> ~ arises (stix_new o) (stix_change opts) vs a.
Proof.
  intros o opts vs a N1 N2. induction vs as [|v vs IH]; intro A; [exact A|]. cbn [In] in N1, N2.
  destruct A as [(b & [[E _]|[E _]] & _)|A]; [apply N1; auto|apply N2; auto|]. apply IH; auto.
Qed.
Print Assumptions C73_none_new.

Theorem C73_cybox_none_new : forall opts vs a, ~ In "2.0.1" vs -> ~ arises cybox_new (cybox_change opts) vs a.
Proof.
  intros opts vs a N. induction vs as [|v vs IH]; intro A; [exact A|]. cbn [In] in N.
  destruct A as [(b & [E _] & _)|A]; [apply N; auto|]. apply IH; auto.
Qed.
Print Assumptions C73_cybox_none_new.

(** So every node of the result of such an update is one of the given document. *)
Theorem C73_stix_all_given : forall o d from to opts force s t a vs r s',
  wf_state s -> denotes s d t -> distinct_attributes t -> stix_start from t = Some a ->
  between ["1.0"; "1.0.1"; "1.1"; "1.1.1"; "1.2"; "1.2.1"] a (match given to with Some b => b | None => "1.2.1" end) vs ->
  ~ In "1.0.1" vs -> ~ In "1.1" vs ->
  stix_update o d from to opts force s = (Ok r, s') ->
  exists e L, document s' (r_document r) (erase e) /\ Forall2 (document s') (removed_nodes r) (map erase L) /\
    conserved (stix_gone_by (or_default o opts) vs) (labelled t) e L /\
    forall z x, In z (e :: L) -> In x (nodes z) -> tid x <> 0.
Proof.
  intros o d from to opts force s t a vs r s' W Dn D A B N1 N2 E.
  destruct (C73_stix o d from to opts force s t a vs r s' W Dn D A B E) as (e & L & H1 & H2 & H3 & H4).
  exists e, L. split; [exact H1|]. split; [exact H2|]. split; [exact H3|].
  intros z x Hz Hx Z. exact (C73_none_new _ _ _ _ N1 N2 (H4 z Hz x Hx Z)).
Qed.
Print Assumptions C73_stix_all_given.

Theorem C73_cybox_all_given : forall o d from to opts force s t a vs r s',
  wf_state s -> denotes s d t -> distinct_attributes t -> cybox_start from t = Some a ->
  between ["2.0"; "2.0.1"; "2.1"] a (match given to with Some b => b | None => "2.1" end) vs ->
  ~ In "2.0.1" vs ->
  cybox_update o d from to opts force s = (Ok r, s') ->
  exists e L, document s' (r_document r) (erase e) /\ Forall2 (document s') (removed_nodes r) (map erase L) /\
    conserved (cybox_gone_by (or_default o opts) vs) (labelled t) e L /\
    forall z x, In z (e :: L) -> In x (nodes z) -> tid x <> 0.
Proof.
  intros o d from to opts force s t a vs r s' W Dn D A B N E.
  destruct (C73_cybox o d from to opts force s t a vs r s' W Dn D A B E) as (e & L & H1 & H2 & H3 & H4).
  exists e, L. split; [exact H1|]. split; [exact H2|]. split; [exact H3|].
  intros z x Hz Hx Z. exact (C73_cybox_none_new _ _ _ N (H4 z Hz x Hx Z)).
Qed.
Print Assumptions C73_cybox_all_given.

(** A package with a shared id brought from 1.0 to 1.0.1, and observables from 2.0 to 2.0.1. *)
Example C73_all_given_case :
  (wf_state (memory []) /\ distinct_attributes pkg_shared /\ stix_start None pkg_shared = Some "1.0" /\
   between ["1.0"; "1.0.1"; "1.1"; "1.1.1"; "1.2"; "1.2.1"] "1.0" "1.0.1" ["1.0"] /\ ~ In "1.0.1" ["1.0"] /\ ~ In "1.1" ["1.0"] /\
   exists r s', stix_update o0 (DFile (Some pkg_shared)) None (Some "1.0.1") None true (memory []) = (Ok r, s')) /\
  (distinct_attributes obs_2_0 /\ cybox_start None obs_2_0 = Some "2.0" /\
   between ["2.0"; "2.0.1"; "2.1"] "2.0" "2.0.1" ["2.0"] /\ ~ In "2.0.1" ["2.0"] /\
   exists r s', cybox_update o0 (DFile (Some obs_2_0)) None (Some "2.0.1") None false (memory []) = (Ok r, s')).
Proof.
  assert (K : forall (m : res results * st), match fst m with Ok _ => true | Err _ => false end = true -> exists r s', m = (Ok r, s'))
    by (intros [[r|x] s'] H; [exists r, s'; reflexivity|discriminate]).
  split; [split; [apply memory_wf|]|].
  - split; [apply distinct_decided; vm_compute; reflexivity|]. split; [reflexivity|].
    split; [exists [], [], ["1.1"; "1.1.1"; "1.2"; "1.2.1"]; split; reflexivity|].
    split; [intros [E|[]]; discriminate|]. split; [intros [E|[]]; discriminate|]. apply K. vm_compute. reflexivity.
  - split; [apply distinct_decided; vm_compute; reflexivity|]. split; [reflexivity|].
    split; [exists [], [], ["2.1"]; split; reflexivity|]. split; [intros [E|[]]; discriminate|]. apply K. vm_compute. reflexivity.
Qed.

(** The hypotheses of the updates are those of [C40_C41_nothing_lost_case] and
    [C40_C41_update_case]; the package there gets new elements.  An element that arises and two that do not. *)
Example C73_case :
  existsb (fun x => Nat.eqb (tid x) 0)
    (match stix_step o0 (default_options o0) "1.0.1" with
     | Some f => match f (labelled pkg_1_0_1) with Ok e => nodes e | Err _ => [] end
     | None => []
     end) = true /\
  arises (stix_new o0) (stix_change (default_options o0)) ["1.0.1"; "1.1"; "1.1.1"]
    (KElem, common "Contributing_Sources", None, None) /\
  ~ arises (stix_new o0) (stix_change (default_options o0)) ["1.0"; "1.1.1"; "1.2"] (KElem, common "Contributing_Sources", None, None) /\
  ~ arises cybox_new (cybox_change (default_options o0)) ["2.0"; "2.0.1"] (KElem, stix "TTP", None, None).
Proof.
  split; [vm_compute; reflexivity|]. split; [|split].
  - left. exists (KElem, common "Contributing_Sources", None, None). split.
    + left. split; [reflexivity|]. right. eexists. split; [reflexivity|]. left. reflexivity.
    + do 3 (eexists; split; [apply rt_refl|]). reflexivity.
  - apply C73_none_new; cbn [In]; intuition discriminate.
  - intros [(b & [E _] & _)|[(b & [_ (q & x & -> & Hq)] & A)|[]]]; [discriminate E|].
    destruct A as (c & A & C). cbn [along] in C. subst c.
    remember (KElem, stix "TTP", None, None) as z eqn:Ez.
    assert (G : forall a b, clos_refl_trans told_of (cybox_change (default_options o0) "2.0.1") a b ->
      q_ns (snd (fst (fst a))) <> Some STIX_NS -> q_ns (snd (fst (fst b))) <> Some STIX_NS).
    { intros a b K. induction K as [a b K| |a b c _ I1 _ I2]; auto. intro N. destruct K as [[E _]|[_ K]]; [discriminate E|].
      destruct K as [q0 q' x0 y0 I|q0 s0 y0 I|q0 s0 s' y0 I|k q0 q' x0 x' y0 I _]; cbn [fst snd] in *; auto.
      - repeat (destruct I as [I|I]; [injection I as <- <-; discriminate|]). destruct I.
      - destruct I as [ns ns' l I]. unfold driver_ns, dict_get in I. destruct (String.eqb _ _); [injection I as <-; discriminate|discriminate]. }
    apply G in A; [apply A; rewrite Ez; reflexivity|]. cbn [fst snd].
    repeat (destruct Hq as [<-|Hq]; [discriminate|]). destruct Hq.
Qed.
