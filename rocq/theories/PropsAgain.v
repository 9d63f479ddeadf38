(** * Property theorems: updating a result again, and arguments left out. *)

From Coq Require Import String Ascii List Bool Arith.
From Verif Require Import Str Xml XPath Utils Base Tables Cybox Stix Ramrod Spec SpecDoc SpecPass SpecStep
  SpecTrace SpecField Lib Api Worked Declared Samples PropsApi PropsVersions Kept Ids Refs SpecIds Again.
Import ListNotations.
Local Open Scope string_scope.

(** ** C46: a result is not updated again by mistake *)

(** The root keeps its local name, so that the common entry point sees a
    document of the same language. *)
Theorem C46_language_kept : forall o update d from to opts force s t r s' new,
  entry o update -> wf_state s -> denotes s d t ->
  update d from to opts force s = (Ok r, s') -> document s' (r_document r) new ->
  q_local (h_tag (head new)) = q_local (h_tag (head t)).
Proof. exact entry_root_local. Qed.
Print Assumptions C46_language_kept.

(** The result of an update to [target], given to another update without a
    starting version, is refused unless the second target is newer than the
    first, and nothing changes. *)
Theorem C46_stix_refused : forall o d from to opts force s t r s' result o2 from2 to2 opts2 force2,
  let versions := ["1.0"; "1.0.1"; "1.1"; "1.1.1"; "1.2"; "1.2.1"] in
  let target := match given to with Some b => b | None => "1.2.1" end in
  let target2 := match given to2 with Some b => b | None => "1.2.1" end in
  wf_state s -> denotes s d t -> named (stix "STIX_Package") t = true ->
  stix_update o d from to opts force s = (Ok r, s') ->
  result = DElem (r_document r) \/ result = DTree (r_document r) ->
  given from2 = None -> ~ older versions target target2 ->
  stix_update o2 result from2 to2 opts2 force2 s' = (Err (InvalidVersionError None None None), s').
Proof. exact stix_again. Qed.
Print Assumptions C46_stix_refused.

Theorem C46_cybox_refused : forall o d from to opts force s t r s' result o2 from2 to2 opts2 force2,
  let versions := ["2.0"; "2.0.1"; "2.1"] in
  let target := match given to with Some b => b | None => "2.1" end in
  let target2 := match given to2 with Some b => b | None => "2.1" end in
  wf_state s -> denotes s d t -> named (cybox "Observables") t = true -> NoDup (map fst (h_attr (head t))) ->
  cybox_update o d from to opts force s = (Ok r, s') ->
  result = DElem (r_document r) \/ result = DTree (r_document r) ->
  given from2 = None -> ~ older versions target target2 ->
  cybox_update o2 result from2 to2 opts2 force2 s' = (Err (InvalidVersionError None None None), s').
Proof. exact cybox_again. Qed.
Print Assumptions C46_cybox_refused.

(** In particular an update to the newest version, done twice. *)
Theorem C46_update_not_twice : forall o d from to opts force s t r s' result o2 from2 to2 opts2 force2,
  wf_state s -> denotes s d t -> NoDup (map fst (h_attr (head t))) ->
  named (stix "STIX_Package") t = true \/ named (cybox "Observables") t = true ->
  ramrod_update o d from to opts force s = (Ok r, s') ->
  result = DElem (r_document r) \/ result = DTree (r_document r) ->
  given from2 = None -> given to2 = given to ->
  ramrod_update o2 result from2 to2 opts2 force2 s' = (Err (InvalidVersionError None None None), s').
Proof.
  intros o d from to opts force s t r s' result o2 from2 to2 opts2 force2 W D Nd Nm E Hr G2 T2.
  assert (W' : wf_state s') by (eapply (entry_wf o (ramrod_update o)); [left; reflexivity|exact W|exact D|exact E]).
  destruct (ramrod_root_local _ _ _ _ _ _ _ _ _ _ W D E) as (new & Doc & L).
  destruct (document_node _ _ _ Doc) as (T & Na & ET). destruct (erased_attrs _ _ ET) as [_ EA].
  assert (D2 : denotes s' result T) by (destruct Hr as [->| ->]; exists []; exact Na).
  assert (L2 : q_local (h_tag (head T)) = q_local (h_tag (head t))) by (rewrite EA; exact L).
  destruct Nm as [Nm|Nm]; pose proof Nm as C; apply named_called in C; unfold called, hname in C; injection C as _ C; rewrite C in L2.
  - rewrite (ramrod_is_stix o d from to opts force s t W D) in E by (rewrite C; reflexivity).
    rewrite (ramrod_is_stix o2 result from2 to2 opts2 force2 s' T W' D2) by (rewrite L2; reflexivity).
    eapply stix_again; [exact W|exact D|exact Nm|exact E|exact Hr|exact G2|]. rewrite T2. intro O. exact (older_irrefl _ _ (proj2 stix_table_ok) O).
  - rewrite (ramrod_is_cybox o d from to opts force s t W D) in E by (rewrite C; reflexivity).
    rewrite (ramrod_is_cybox o2 result from2 to2 opts2 force2 s' T W' D2) by (rewrite L2; reflexivity).
    eapply cybox_again; [exact W|exact D|exact Nm|exact Nd|exact E|exact Hr|exact G2|]. rewrite T2. intro O. exact (older_irrefl _ _ (proj2 cybox_table_ok) O).
Qed.
Print Assumptions C46_update_not_twice.

(** Asked for its version, the result answers the target. *)
Theorem C46_stix_version_read : forall o d from to opts force s t r s',
  wf_state s -> denotes s d t -> named (stix "STIX_Package") t = true ->
  stix_update o d from to opts force s = (Ok r, s') ->
  stix_get_version (DElem (r_document r)) s' = (Ok (Some (match given to with Some b => b | None => "1.2.1" end)), s').
Proof.
  intros o d from to opts force s t r s' W D Nm E.
  destruct (stix_declares _ _ _ _ _ _ _ _ _ _ W D Nm E) as (new & Doc & Ver).
  assert (W' : wf_state s') by (eapply stix_renumbers; eauto).
  destruct (document_node _ _ _ Doc) as (T & Na & ET). destruct (erased_attrs _ _ ET) as [EA _].
  destruct (C29_stix_get_version (DElem (r_document r)) s' T W' (ex_intro _ [] Na)) as [A B].
  rewrite (surjective_pairing (stix_get_version _ _)), A, B by discriminate. unfold attr_of in Ver. rewrite EA, Ver. reflexivity.
Qed.
Print Assumptions C46_stix_version_read.

Theorem C46_cybox_version_read : forall o d from to opts force s t r s',
  wf_state s -> denotes s d t -> named (cybox "Observables") t = true -> NoDup (map fst (h_attr (head t))) ->
  cybox_update o d from to opts force s = (Ok r, s') ->
  cybox_get_version (DElem (r_document r)) s' = (Ok (match given to with Some b => b | None => "2.1" end), s').
Proof.
  intros o d from to opts force s t r s' W D Nm Nd E.
  destruct (cybox_declares _ _ _ _ _ _ _ _ _ _ W D Nm Nd E) as (new & Doc & Ver).
  assert (W' : wf_state s') by (eapply cybox_renumbers; eauto).
  destruct (document_node _ _ _ Doc) as (T & Na & ET). destruct (erased_attrs _ _ ET) as [EA _].
  destruct (C29_cybox_get_version (DElem (r_document r)) s' T W' (ex_intro _ [] Na)) as [A B].
  rewrite (surjective_pairing (cybox_get_version _ _)), A, B by discriminate.
  unfold cybox_declared in *. rewrite EA, Ver. reflexivity.
Qed.
Print Assumptions C46_cybox_version_read.

(** ** C47: an argument left out is the documented default *)

Theorem C47_stix_defaults : forall o d from to opts force s t declared,
  wf_state s -> denotes s d t -> stix_start from t = Some declared ->
  stix_update o d from to opts force s =
  stix_update o d (Some declared) (Some (match given to with Some b => b | None => "1.2.1" end))
    (Some (match opts with Some p => p | None => default_options o end)) force s.
Proof. exact stix_filled. Qed.
Print Assumptions C47_stix_defaults.

Theorem C47_cybox_defaults : forall o d from to opts force s t declared,
  wf_state s -> denotes s d t -> cybox_start from t = Some declared ->
  cybox_update o d from to opts force s =
  cybox_update o d (Some declared) (Some (match given to with Some b => b | None => "2.1" end))
    (Some (match opts with Some p => p | None => default_options o end)) force s.
Proof. exact cybox_filled. Qed.
Print Assumptions C47_cybox_defaults.

Theorem C47_update_defaults : forall o d from to opts force s t declared,
  wf_state s -> denotes s d t ->
  (q_local (h_tag (head t)) = "STIX_Package" -> stix_start from t = Some declared ->
   ramrod_update o d from to opts force s =
   ramrod_update o d (Some declared) (Some (match given to with Some b => b | None => "1.2.1" end))
     (Some (match opts with Some p => p | None => default_options o end)) force s) /\
  (q_local (h_tag (head t)) = "Observables" -> cybox_start from t = Some declared ->
   ramrod_update o d from to opts force s =
   ramrod_update o d (Some declared) (Some (match given to with Some b => b | None => "2.1" end))
     (Some (match opts with Some p => p | None => default_options o end)) force s).
Proof.
  intros o d from to opts force s t declared W D. split; intros L St.
  - rewrite !(ramrod_is_stix o d _ _ _ force s t W D L). eapply stix_filled; eauto.
  - rewrite !(ramrod_is_cybox o d _ _ _ force s t W D L). eapply cybox_filled; eauto.
Qed.
Print Assumptions C47_update_defaults.

(** The hypotheses hold, and the second call is one that would otherwise run. *)
Example C46_case :
  wf_state (memory []) /\ named (stix "STIX_Package") pkg_1_0_1_bad = true /\ named (cybox "Observables") obs_2_0 = true /\
  NoDup (map fst (h_attr (head obs_2_0))) /\ NoDup (map fst (h_attr (head pkg_1_0_1_bad))) /\
  ~ older ["1.0"; "1.0.1"; "1.1"; "1.1.1"; "1.2"; "1.2.1"] "1.1.1" "1.0.1" /\
  (exists r s', ramrod_update o0 (DFile (Some pkg_1_0_1_bad)) None (Some "1.1.1") None true (memory []) = (Ok r, s') /\
     exists r2 s2, ramrod_update o0 (DElem (r_document r)) None (Some "1.2") None true s' = (Ok r2, s2)) /\
  (exists r s', ramrod_update o0 (DFile (Some obs_2_0)) None (Some "2.0.1") None false (memory []) = (Ok r, s') /\
     exists r2 s2, ramrod_update o0 (DElem (r_document r)) None None None false s' = (Ok r2, s2)).
Proof.
  split; [split; [constructor|intros i []]|]. split; [reflexivity|]. split; [reflexivity|].
  split; [apply nodupb_NoDup; reflexivity|]. split; [apply nodupb_NoDup; reflexivity|]. split.
  - intro X.
    destruct X as (l1 & l2 & l3 & X). destruct l1 as [|a0 [|a1 [|a2 [|a3 [|a4 [|a5 p]]]]]]; simpl in X; injection X; intros; try discriminate.
    + destruct l2 as [|? [|? [|? l2]]]; discriminate.
    + destruct p; discriminate.
  - split; eexists _, _; (split; [vm_compute; reflexivity|eexists _, _; vm_compute; reflexivity]).
Qed.

Example C47_case :
  wf_state (memory []) /\ stix_start None pkg_1_0_1_bad = Some "1.0.1" /\ cybox_start None obs_2_0 = Some "2.0" /\
  q_local (h_tag (head pkg_1_0_1_bad)) = "STIX_Package" /\ q_local (h_tag (head obs_2_0)) = "Observables".
Proof. split; [split; [constructor|intros i []]|]. repeat split; reflexivity. Qed.
