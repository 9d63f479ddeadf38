(** * Property theorems: ids and references survive an update. *)

From Coq Require Import String Ascii List Bool Arith.
From Verif Require Import Str Xml XPath Utils Base Tables Cybox Stix Ramrod Spec SpecDoc SpecPass SpecStep
  SpecTrace Lib Api Worked Samples PropsApi Ids Refs SpecIds.
Import ListNotations.
Local Open Scope string_scope.

(** ** C44: ids and references survive *)

(** Without force: an attribute that steps do not set is still in the document. *)
Theorem C44_attributes_kept : forall o update k w d from to opts s t r s' new,
  entry o update -> ~ In k set_by_steps -> wf_state s -> denotes s d t ->
  update d from to opts false s = (Ok r, s') -> document s' (r_document r) new ->
  retains k w t -> retains k w new.
Proof.
  intros o u k w d from to opts s t r s' new En Hk W D E Doc R.
  exact (proj2 (entry_retains o u k w d from to opts false s t r s' En Hk W D R E) eq_refl new Doc).
Qed.
Print Assumptions C44_attributes_kept.

(** Ids are such attributes; what [retains] says is visible. *)
Theorem C44_ids_kept : forall o update w d from to opts s t r s' new,
  entry o update -> wf_state s -> denotes s d t ->
  update d from to opts false s = (Ok r, s') -> document s' (r_document r) new ->
  retains (lq "id") w t -> shows (lq "id") w new.
Proof.
  intros o u w d from to opts s t r s' new En W D E Doc R. apply retains_shows.
  exact (proj2 (entry_retains o u _ w d from to opts false s t r s' En id_free W D R E) eq_refl new Doc).
Qed.
Print Assumptions C44_ids_kept.

(** With or without force: nothing new is referred to. *)
Theorem C44_no_new_references : forall o update ref w d from to opts force s t r s' new,
  entry o update -> ~ In ref set_by_steps -> ref <> lq "datatype" -> ref <> lq "id" ->
  wf_state s -> denotes s d t -> sources_without_markup t ->
  update d from to opts force s = (Ok r, s') -> document s' (r_document r) new ->
  names ref w new -> names ref w t.
Proof. intros. eapply entry_names; eauto. Qed.
Print Assumptions C44_no_new_references.

(** Without force: references that resolve before the update resolve after it. *)
Theorem C44_references_resolve : forall o update ref d from to opts s t r s' new,
  entry o update -> ~ In ref set_by_steps -> ref <> lq "datatype" ->
  wf_state s -> denotes s d t -> sources_without_markup t -> resolved ref t ->
  update d from to opts false s = (Ok r, s') -> document s' (r_document r) new -> resolved ref new.
Proof. exact entry_resolved. Qed.
Print Assumptions C44_references_resolve.

(** With force: it is in the document, in a node reported as removed, or it is
    an id reported as replaced. *)
Theorem C44_forced_accounted : forall o update k w d from to opts force s t r s',
  entry o update -> ~ In k set_by_steps -> wf_state s -> denotes s d t ->
  update d from to opts force s = (Ok r, s') -> retains k w t -> accounted_for k w s' r.
Proof.
  intros o u k w d from to opts force s t r s' En Hk W D E R.
  exact (proj1 (entry_retains o u k w d from to opts force s t r s' En Hk W D R E)).
Qed.
Print Assumptions C44_forced_accounted.

(** Two elements with the same id and a reference to it. *)
Definition pkg_shared_id : tree :=
  package "1.0.1"
    [el (qn STIX_NS "TTP") [] [(lq "id", "ex:t1")] None [];
     el (qn STIX_NS "TTP") [] [(lq "id", "ex:t1")] None [];
     el (qn STIX_NS "TTP") [] [(lq "idref", "ex:t1")] None []].

Lemma shared_retained : resolved (lq "idref") pkg_shared_id.
Proof.
  assert (R : retains (lq "id") "ex:t1" pkg_shared_id).
  { eapply retains_below; [reflexivity|left; reflexivity|apply plain_field, not_special; reflexivity|].
    apply retains_here; [reflexivity|discriminate|repeat constructor; simpl; tauto|reflexivity]. }
  intros w (x & Ix & H). vm_compute in Ix.
  repeat (destruct Ix as [<-|Ix]; [simpl in H; repeat (destruct H as [H|H]; [first [discriminate H|injection H as <-; exact R]|]); destruct H|]).
  destruct Ix.
Qed.

Lemma shared_sources : sources_without_markup pkg_shared_id.
Proof.
  intros x s Ix N E. vm_compute in Ix. repeat (destruct Ix as [<-|Ix]; [discriminate N|]). destruct Ix.
Qed.

(** With force a reference may be left without what it refers to: the ids are
    replaced, the references to them are not. *)
Theorem C44_forced_references_refuted :
  ~ (forall o d from to opts s t r s' new w,
       wf_state s -> denotes s d t -> sources_without_markup t -> resolved (lq "idref") t ->
       ramrod_update o d from to opts true s = (Ok r, s') -> document s' (r_document r) new ->
       names (lq "idref") w new -> shows (lq "id") w new).
Proof.
  intro H.
  destruct (run_document (ramrod_update o0 (DFile (Some pkg_shared_id)) None None None true (memory []))
    (fun new => existsb (fun x => ostr_eqb (attr_get (lq "idref") (h_attr (head x))) (Some "ex:t1")) (nodes new)
                && negb (existsb (fun x => ostr_eqb (attr_get (lq "id") (h_attr (head x))) (Some "ex:t1")) (nodes new))))
    as (r & s' & new & E & D & B); [vm_compute; reflexivity|].
  apply andb_true_iff in B as [B1 B2]. apply negb_true_iff in B2. apply existsb_exists in B1 as (x & Ix & X).
  apply ostr_eqb_eq in X.
  assert (N : names (lq "idref") "ex:t1" new).
  { exists x. split; [exact Ix|]. clear - X. induction (h_attr (head x)) as [|[a b] l IH]; [discriminate|]. simpl in X.
    destruct (qn_eqb (lq "idref") a) eqn:Q; [apply qn_eqb_eq in Q; left; congruence|right; auto]. }
  destruct (H o0 (DFile (Some pkg_shared_id)) None None None (memory []) pkg_shared_id r s' new "ex:t1") as (y & Iy & _ & Y); auto;
    [split; [constructor|intros i []]|reflexivity|apply shared_sources|apply shared_retained|].
  assert (Z : existsb (fun x => ostr_eqb (attr_get (lq "id") (h_attr (head x))) (Some "ex:t1")) (nodes new) = true).
  { apply existsb_exists. exists y. split; [exact Iy|]. apply ostr_eqb_eq. exact Y. }
  congruence.
Qed.
Print Assumptions C44_forced_references_refuted.

(** A document with ids and a reference, updated from 1.0.1 to 1.2.1; the
    forced update of the document above. *)
Definition pkg_refers : tree :=
  package "1.0.1"
    [el (qn STIX_NS "TTP") [] [(lq "id", "ex:t1")] None [];
     el (qn STIX_NS "TTP") [] [(lq "idref", "ex:t1")] None []].

Example C44_case :
  (exists r s' new, ramrod_update o0 (DFile (Some pkg_refers)) None None None false (memory []) = (Ok r, s') /\
     document s' (r_document r) new /\
     existsb (fun x => ostr_eqb (attr_get (lq "id") (h_attr (head x))) (Some "ex:t1")) (nodes new)
     && existsb (fun x => ostr_eqb (attr_get (lq "idref") (h_attr (head x))) (Some "ex:t1")) (nodes new) = true) /\
  retains (lq "id") "ex:t1" pkg_refers /\ resolved (lq "idref") pkg_refers /\ sources_without_markup pkg_refers /\
  ~ In (lq "id") set_by_steps /\ ~ In (lq "idref") set_by_steps.
Proof.
  split; [|split; [|split; [|split; [|split]]]].
  - refine (run_document (ramrod_update o0 (DFile (Some pkg_refers)) None None None false (memory []))
      (fun new => existsb (fun x => ostr_eqb (attr_get (lq "id") (h_attr (head x))) (Some "ex:t1")) (nodes new)
         && existsb (fun x => ostr_eqb (attr_get (lq "idref") (h_attr (head x))) (Some "ex:t1")) (nodes new)) _). vm_compute. reflexivity.
  - eapply retains_below; [reflexivity|left; reflexivity|apply plain_field, not_special; reflexivity|].
    apply retains_here; [reflexivity|discriminate|repeat constructor; simpl; tauto|reflexivity].
  - assert (R : retains (lq "id") "ex:t1" pkg_refers).
    { eapply retains_below; [reflexivity|left; reflexivity|apply plain_field, not_special; reflexivity|].
      apply retains_here; [reflexivity|discriminate|repeat constructor; simpl; tauto|reflexivity]. }
    intros w (x & Ix & H). vm_compute in Ix.
    repeat (destruct Ix as [<-|Ix]; [simpl in H; repeat (destruct H as [H|H]; [first [discriminate H|injection H as <-; exact R]|]); destruct H|]).
    destruct Ix.
  - intros x s Ix N E. vm_compute in Ix. repeat (destruct Ix as [<-|Ix]; [discriminate N|]). destruct Ix.
  - exact id_free.
  - unfold set_by_steps. simpl. intuition discriminate.
Qed.
