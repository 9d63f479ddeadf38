(** * Property theorems: text survives an update and none is invented. *)

From Coq Require Import String Ascii List Bool Arith.
From Verif Require Import Str Xml XPath Utils Base Tables Cybox Stix Ramrod Spec SpecDoc SpecPass SpecStep
  SpecTrace SpecIds SpecText Lib Api Worked Samples PropsApi Ids Refs Text Words.
Import ListNotations.
Local Open Scope string_scope.

(** ** C45: text survives and none is invented *)

(** Without force: ordinary text is still in the document. *)
Theorem C45_text_kept : forall o update w d from to opts s t r s' new,
  entry o update -> ordinary w -> wf_state s -> denotes s d t ->
  update d from to opts false s = (Ok r, s') -> document s' (r_document r) new ->
  says w t -> says w new.
Proof.
  intros o u w d from to opts s t r s' new En Hw W D E Doc R.
  exact (proj2 (entry_says w Hw o u d from to opts false s t r s' En W D R E) eq_refl new Doc).
Qed.
Print Assumptions C45_text_kept.

Lemma says_seen w t : says w t -> exists x, In x (nodes t) /\ h_kind (head x) = KElem /\ h_text (head x) = Some w.
Proof.
  induction 1 as [h K N E|h ks c K I N S (x & Ix & Kx & Ex)].
  - exists (Node h []). split; [left; reflexivity|]. split; assumption.
  - exists x. split; [|split; assumption]. simpl. right. apply in_flat_map. exists c. split; assumption.
Qed.

(** In particular some element of the new document has it. *)
Theorem C45_text_seen : forall o update w d from to opts s t r s' new,
  entry o update -> ordinary w -> wf_state s -> denotes s d t ->
  update d from to opts false s = (Ok r, s') -> document s' (r_document r) new ->
  says w t -> exists x, In x (nodes new) /\ h_kind (head x) = KElem /\ h_text (head x) = Some w.
Proof.
  intros o u w d from to opts s t r s' new En Hw W D E Doc R. apply says_seen.
  exact (proj2 (entry_says w Hw o u d from to opts false s t r s' En W D R E) eq_refl new Doc).
Qed.
Print Assumptions C45_text_seen.

(** With force: it is in the document or in a node reported as removed. *)
Theorem C45_forced_accounted : forall o update w d from to opts force s t r s',
  entry o update -> ordinary w -> wf_state s -> denotes s d t ->
  update d from to opts force s = (Ok r, s') -> says w t -> text_accounted_for w s' r.
Proof.
  intros o u w d from to opts force s t r s' En Hw W D E R.
  exact (proj1 (entry_says w Hw o u d from to opts force s t r s' En W D R E)).
Qed.
Print Assumptions C45_forced_accounted.

(** With or without force: every text of the new document comes from a text
    of the old one. *)
Theorem C45_no_new_text : forall o update d from to opts force s t r s' new x w,
  entry o update -> wf_state s -> denotes s d t -> sources_without_markup t ->
  update d from to opts force s = (Ok r, s') -> document s' (r_document r) new ->
  In x (nodes new) -> h_text (head x) = Some w -> text_from t w.
Proof.
  intros o u d from to opts force s t r s' new x w En W D S E Doc Ix Ex.
  exact (proj1 (entry_quoted o u d from to opts force s t r s' new En W D S E Doc x Ix) w Ex).
Qed.
Print Assumptions C45_no_new_text.

Theorem C45_no_new_tails : forall o update d from to opts force s t r s' new x w,
  entry o update -> wf_state s -> denotes s d t -> sources_without_markup t ->
  update d from to opts force s = (Ok r, s') -> document s' (r_document r) new ->
  In x (nodes new) -> h_tail (head x) = Some w -> tail_from t w.
Proof.
  intros o u d from to opts force s t r s' new x w En W D S E Doc Ix Ex.
  exact (proj1 (proj1 (proj2 (entry_quoted o u d from to opts force s t r s' new En W D S E Doc x Ix))) w Ex).
Qed.
Print Assumptions C45_no_new_tails.

(** A CDATA section of the new document is one of the old document, with the
    text it had: a text that is written anew is not one. *)
Theorem C45_no_new_sections : forall o update d from to opts force s t r s' new x,
  entry o update -> wf_state s -> denotes s d t -> sources_without_markup t ->
  update d from to opts force s = (Ok r, s') -> document s' (r_document r) new ->
  In x (nodes new) -> h_cdata (head x) = true -> section_from t (h_text (head x)).
Proof.
  intros o u d from to opts force s t r s' new x En W D S E Doc Ix Ex.
  exact (proj2 (proj1 (proj2 (entry_quoted o u d from to opts force s t r s' new En W D S E Doc x Ix))) Ex).
Qed.
Print Assumptions C45_no_new_sections.

Lemma contains_inside p a b : contains p (a ++ p ++ b) = true.
Proof.
  induction a as [|c a IH].
  - change (("" ++ p ++ b)%string) with (p ++ b)%string. replace (contains p (p ++ b)) with true; [reflexivity|].
    assert (S : starts_with p (p ++ b) = true).
    { unfold starts_with. enough (drop_prefix p (p ++ b) <> None) as X by (destruct (drop_prefix p (p ++ b)); congruence).
      induction p as [|x p IH]; simpl; [discriminate|]. rewrite Ascii.eqb_refl. exact IH. }
    destruct (p ++ b)%string; simpl; rewrite S; reflexivity.
  - cbn [append contains]. rewrite IH. apply orb_true_r.
Qed.

(** [ordinary] by computation. *)
Lemma ordinary_check w :
  blank_text (Some w) || existsb (String.eqb w) (map fst respelt) || contains "," w || contains "&comma;" w = false -> ordinary w.
Proof.
  intro H. apply orb_false_iff in H as [H H4]. apply orb_false_iff in H as [H H3]. apply orb_false_iff in H as [H1 H2].
  split; [exact H1|]. split.
  - intro I. assert (X : existsb (String.eqb w) (map fst respelt) = true); [|congruence].
    apply existsb_exists. exists w. split; [exact I|apply String.eqb_refl].
  - split; intros a b ->; rewrite contains_inside in *; discriminate.
Qed.

(** Text that follows a translated field is lost. *)
Definition pkg_behind : tree :=
  package "1.1" [indicator_elem [el (qn INDICATOR_NS "Sighting") [] [] None
    [Node (Hdr 0 KElem (qn INDICATOR_NS "Source") [] [] (Some "ACME") false (Some "seen twice")) []]]].

Theorem C45_following_text_refuted :
  ~ (forall o d from to opts s t r s' new w,
       ordinary w -> wf_state s -> denotes s d t ->
       ramrod_update o d from to opts false s = (Ok r, s') -> document s' (r_document r) new ->
       (exists x, In x (nodes t) /\ h_tail (head x) = Some w) ->
       exists x, In x (nodes new) /\ (h_tail (head x) = Some w \/ h_text (head x) = Some w)).
Proof.
  intro H.
  set (has := fun x => ostr_eqb (h_tail (head x)) (Some "seen twice") || ostr_eqb (h_text (head x)) (Some "seen twice")).
  destruct (run_document (ramrod_update o0 (DFile (Some pkg_behind)) None None None false (memory []))
    (fun new => negb (existsb has (nodes new)))) as (r & s' & new & E & D & B); [vm_compute; reflexivity|].
  destruct (H o0 (DFile (Some pkg_behind)) None None None (memory []) pkg_behind r s' new "seen twice") as (x & Ix & X); auto.
  - apply ordinary_check; reflexivity.
  - split; [constructor|intros i []].
  - reflexivity.
  - eexists. split; [right; right; right; left; reflexivity|reflexivity].
  - apply negb_true_iff in B. assert (C : existsb has (nodes new) = true); [|congruence].
    apply existsb_exists. exists x. split; [exact Ix|]. unfold has. apply orb_true_iff.
    destruct X as [X|X]; [left|right]; apply ostr_eqb_eq; exact X.
Qed.
Print Assumptions C45_following_text_refuted.

(** A source without text gets a name: the one text that is invented. *)
Definition pkg_unnamed : tree :=
  package "1.1" [indicator_elem [el (qn INDICATOR_NS "Sighting") [] [] None [el (qn INDICATOR_NS "Source") [] [] None []]]].

Theorem C45_invented_name_refuted :
  ~ (forall o d from to opts s t r s' new x w,
       wf_state s -> denotes s d t -> sources_without_markup t ->
       ramrod_update o d from to opts false s = (Ok r, s') -> document s' (r_document r) new ->
       In x (nodes new) -> h_text (head x) = Some w -> blank_text (Some w) = false ->
       exists y, In y (nodes t) /\ h_text (head y) <> None).
Proof.
  intro H.
  set (has := fun x => ostr_eqb (h_text (head x)) (Some "None")).
  destruct (run_document (ramrod_update o0 (DFile (Some pkg_unnamed)) None None None false (memory []))
    (fun new => existsb has (nodes new))) as (r & s' & new & E & D & B); [vm_compute; reflexivity|].
  apply existsb_exists in B as (x & Ix & X). apply ostr_eqb_eq in X.
  destruct (H o0 (DFile (Some pkg_unnamed)) None None None (memory []) pkg_unnamed r s' new x "None") as (y & Iy & Y); auto.
  - split; [constructor|intros i []].
  - reflexivity.
  - intros z w Iz _ Ez. vm_compute in Iz. repeat (destruct Iz as [<-|Iz]; [discriminate Ez|]). destruct Iz.
  - vm_compute in Iy. repeat (destruct Iy as [<-|Iy]; [apply Y; reflexivity|]). destruct Iy.
Qed.
Print Assumptions C45_invented_name_refuted.

(** A document with a title and a source, updated from 1.0.1 to 1.2.1. *)
Definition pkg_titled : tree :=
  package "1.0.1"
    [indicator_elem
       [el (qn INDICATOR_NS "Title") [] [] (Some "C2 servers") [];
        el (qn INDICATOR_NS "Sighting") [] [] None [el (qn INDICATOR_NS "Source") [] [] (Some "ACME") []]]].

Example C45_case :
  (exists r s' new, ramrod_update o0 (DFile (Some pkg_titled)) None None None false (memory []) = (Ok r, s') /\
     document s' (r_document r) new /\
     existsb (fun x => ostr_eqb (h_text (head x)) (Some "C2 servers")) (nodes new)
     && existsb (fun x => ostr_eqb (h_text (head x)) (Some "ACME")) (nodes new) = true) /\
  ordinary "C2 servers" /\ says "C2 servers" pkg_titled /\ sources_without_markup pkg_titled /\
  text_from pkg_titled "ACME".
Proof.
  split; [|split; [|split; [|split]]].
  - refine (run_document (ramrod_update o0 (DFile (Some pkg_titled)) None None None false (memory []))
      (fun new => existsb (fun x => ostr_eqb (h_text (head x)) (Some "C2 servers")) (nodes new)
        && existsb (fun x => ostr_eqb (h_text (head x)) (Some "ACME")) (nodes new)) _). vm_compute. reflexivity.
  - apply ordinary_check; reflexivity.
  - eapply says_below; [reflexivity|left; reflexivity|apply plain_field, not_special; reflexivity|].
    eapply says_below; [reflexivity|left; reflexivity|apply plain_field, not_special; reflexivity|].
    apply says_here; [reflexivity|discriminate|reflexivity].
  - intros x s Ix N E. vm_compute in Ix. repeat (destruct Ix as [<-|Ix]; [try discriminate N; try discriminate E|]); try destruct Ix.
    all: vm_compute in E; injection E as <-; split; reflexivity.
  - eapply from_there; [right; right; right; right; left; reflexivity|reflexivity].
Qed.

(** CDATA sections: one that is left alone is still there, and a term whose
    spelling is corrected is no section any more. *)
Definition section (t : tree) : tree :=
  match t with Node (Hdr i k q d a x _ l) ks => Node (Hdr i k q d a x true l) ks end.

Definition pkg_sections : tree :=
  package "1.1" [indicator_elem [section (el (qn INDICATOR_NS "Title") [] [] (Some "C2 & more") [])]; section loss_elem].

Example C45_sections_case :
  (exists r s' new, ramrod_update o0 (DFile (Some pkg_sections)) None None None false (memory []) = (Ok r, s') /\
    document s' (r_document r) new /\
    map (fun x => h_text (head x)) (filter (fun x => h_cdata (head x)) (nodes new)) = [Some "C2 & more"]) /\
  map (fun x => h_text (head x)) (filter (fun x => h_cdata (head x)) (nodes pkg_sections))
    = [Some "C2 & more"; Some "Degredation"] /\
  sources_without_markup pkg_sections.
Proof.
  split; [|split].
  - destruct (run_document (ramrod_update o0 (DFile (Some pkg_sections)) None None None false (memory []))
      (fun new => match map (fun x => h_text (head x)) (filter (fun x => h_cdata (head x)) (nodes new)) with
                  | [Some x] => String.eqb x "C2 & more" | _ => false end)) as (r & s' & new & E & D & B); [vm_compute; reflexivity|].
    exists r, s', new. split; [exact E|]. split; [exact D|].
    destruct (map _ _) as [|[x|] [|]]; try discriminate B. apply String.eqb_eq in B. subst x. reflexivity.
  - reflexivity.
  - intros x s Ix N E. vm_compute in Ix. repeat (destruct Ix as [<-|Ix]; [try discriminate N; try discriminate E|]); destruct Ix.
Qed.
