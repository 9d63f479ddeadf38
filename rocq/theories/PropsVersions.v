(** * Property theorems: versions, forcing, result types. *)

From Coq Require Import String Ascii List Bool Arith NArith.
From Verif Require Import Str Xml XPath Utils Base Cybox Stix Ramrod Spec Lib Api Versions
  NoFail Samples.
Import ListNotations.
Local Open Scope string_scope.

(** ** C29: the version a document declares *)
Theorem C29_stix_get_version : forall d s t,
  wf_state s -> denotes s d t ->
  fst (stix_get_version d s) = Ok (attr_get (lq "version") (h_attr (head t))) /\
  ((forall p, d <> DFile p) -> snd (stix_get_version d s) = s).
Proof. exact stix_get_version_spec. Qed.
Print Assumptions C29_stix_get_version.

Theorem C29_cybox_get_version : forall d s t,
  wf_state s -> denotes s d t ->
  fst (cybox_get_version d s) =
    match cybox_declared t with
    | Some v => Ok v
    | None => Err UnknownVersionError
    end /\
  ((forall p, d <> DFile p) -> snd (cybox_get_version d s) = s).
Proof. exact cybox_get_version_spec. Qed.
Print Assumptions C29_cybox_get_version.

Example C29_case :
  denotes (memory [pkg_1_1]) (DElem 0) (fst (renum 0 pkg_1_1)) /\
  attr_get (lq "version") (h_attr (head (fst (renum 0 pkg_1_1)))) = Some "1.1" /\
  denotes (memory []) (DFile (Some obs_2_0)) obs_2_0 /\
  cybox_declared obs_2_0 = Some "2.0" /\ cybox_declared pkg_1_1 = None.
Proof.
  split; [|repeat split; vm_compute; reflexivity].
  exists [], (fst (renum 0 pkg_1_1)). repeat split; vm_compute; auto.
Qed.

(** ** C30: version comparison *)

(** Equality compares the numbers and the tags; anything else is a ValueError. *)
Theorem C30_version_equality : forall x y,
  (is_version_equal x y = Ok true <->
   exists v p, version_number x v p /\ version_number y v p) /\
  (is_version_equal x y = Ok false <->
   exists v p w q, version_number x v p /\ version_number y w q /\ (v, p) <> (w, q)) /\
  (is_version_equal x y = Err ValueError <->
   (forall v p, ~ version_number x v p) \/ (forall v p, ~ version_number y v p)).
Proof. exact version_equality_full. Qed.
Print Assumptions C30_version_equality.

(** A version string denotes one number at most, so equality is an equivalence. *)
Theorem C30_version_denotes_one : forall s v p w q,
  version_number s v p -> version_number s w q -> v = w /\ p = q.
Proof. exact version_number_fun. Qed.
Print Assumptions C30_version_denotes_one.

(** The order used to validate a version range accepts exactly strictly
    increasing pairs of listed versions ... *)
Theorem C30_version_range : forall from to allowed,
  validate_versions from to allowed = Ok tt <->
  exists a b v p w q, from = Some a /\ to = Some b /\ a <> "" /\ b <> "" /\
    In a allowed /\ In b allowed /\
    version_number a v p /\ version_number b w q /\ version_lt (v, p) (w, q).
Proof. exact validate_versions_iff. Qed.
Print Assumptions C30_version_range.

(** ... and that order is strict and total on version strings. *)
Theorem C30_order_strict_total :
  (forall v, ~ version_lt v v) /\
  (forall u v w, version_lt u v -> version_lt v w -> version_lt u w) /\
  (forall x y v p w q, version_number x v p -> version_number y w q ->
     version_lt (v, p) (w, q) \/ (v, p) = (w, q) \/ version_lt (w, q) (v, p)).
Proof. exact (conj version_lt_irrefl (conj version_lt_trans version_lt_total)). Qed.
Print Assumptions C30_order_strict_total.

Example C30_case :
  (exists v p, version_number "1.1" v p /\ version_number "01.1.0" v p) /\
  is_version_equal "1.1" "01.1.0" = Ok true /\
  is_version_equal "1.10" "1.9" = Ok false /\
  is_version_equal "1.2a3" "1.2b1" = Ok false /\
  is_version_equal "1" "1.0" = Err ValueError /\
  validate_versions (Some "1.9") (Some "1.10") ["1.9"; "1.10"] = Ok tt.
Proof.
  split; [|repeat split; vm_compute; reflexivity].
  exists (1, 1, 0)%N, None. split; apply strict_version_iff; vm_compute; reflexivity.
Qed.

(** ** C12, first half: with force no documented error escapes a step, nor a
    whole update over a valid range of versions. *)
Theorem C12_forced_step_no_documented_error : forall o up d opts s e s',
  In up (map snd (STIX_UPDATERS o) ++ map snd (CYBOX_UPDATERS o)) ->
  updater_update o up d opts true s = (Err e, s') -> ~ documented e.
Proof.
  exact (fun o up d opts s e s' R E =>
    not_documented e (forced_not_documented o up d opts s e s' R E)).
Qed.
Print Assumptions C12_forced_step_no_documented_error.

Theorem C12_forced_update_no_documented_error : forall o d opts s a b e s',
  (older STIX_VERSIONS a b ->
   stix_update o d (Some a) (Some b) opts true s = (Err e, s') -> ~ documented e) /\
  (older CYBOX_VERSIONS a b ->
   cybox_update o d (Some a) (Some b) opts true s = (Err e, s') -> ~ documented e).
Proof. exact forced_updates_not_documented. Qed.
Print Assumptions C12_forced_update_no_documented_error.

(** A step that fails without force and succeeds with it; and a forced step
    that still fails, for an undocumented reason. *)
Example C12_case :
  (exists e s', updater_update o0 (STIX_1_0_1_Updater o0) (DElem 0) None false
                  (memory [pkg_1_0_1_bad]) = (Err e, s') /\ documented e) /\
  (exists r s', updater_update o0 (STIX_1_0_1_Updater o0) (DElem 0) None true
                  (memory [pkg_1_0_1_bad]) = (Ok r, s')) /\
  (exists s', updater_update o0 STIX_1_2_Updater (DElem 0) None true
                (memory [pkg_1_1]) = (Err NotImplementedError, s')).
Proof.
  split; [|split].
  - eexists _, _. split; [vm_compute; reflexivity|constructor].
  - eexists _, _. vm_compute. reflexivity.
  - eexists. vm_compute. reflexivity.
Qed.

(** ** C39: every step can be forced.  True of six steps ... *)
Theorem C39_other_steps_can_be_forced_partial : forall o up d opts s s',
  In up [STIX_1_0_Updater o; STIX_1_0_1_Updater o; STIX_1_1_Updater o; STIX_1_1_1_Updater;
         Cybox_2_0_Updater; Cybox_2_0_1_Updater o] ->
  updater_update o up d opts true s <> (Err NotImplementedError, s').
Proof. exact forcible_implemented. Qed.
Print Assumptions C39_other_steps_can_be_forced_partial.

(** ... and false of the STIX 1.2 step: whenever it needs forcing, forcing
    fails because a method is missing, and cleaning always fails. *)
Theorem C39_stix_1_2_never_forced : forall o d opts s e s',
  updater_update o STIX_1_2_Updater d opts false s = (Err e, s') -> documented e ->
  fst (updater_update o STIX_1_2_Updater d opts true s) = Err NotImplementedError.
Proof. exact stix_1_2_forced. Qed.
Print Assumptions C39_stix_1_2_never_forced.

Theorem C39_every_step_can_be_forced_refuted :
  ~ (forall o up d opts s s', wf_state s ->
     In up (map snd (STIX_UPDATERS o) ++ map snd (CYBOX_UPDATERS o)) ->
     updater_update o up d opts true s <> (Err NotImplementedError, s')).
Proof. exact force_refuted. Qed.
Print Assumptions C39_every_step_can_be_forced_refuted.

(** ** C33: types of the result collections *)

(** [clean] returns what is documented, and so does the module-level
    [update] for [remapped_ids]; its [removed] is a tuple or a list. *)
Theorem C33_result_types_partial : forall o d from to opts force s r s',
  (forall up, clean o up d opts s = (Ok r, s') ->
     exists l m, r_removed r = CTuple l /\ r_remapped r = CDict m) /\
  (stix_update o d from to opts force s = (Ok r, s') \/
   cybox_update o d from to opts force s = (Ok r, s') \/
   ramrod_update o d from to opts force s = (Ok r, s') ->
   (exists m, r_remapped r = CDict m) /\
   (r_removed r = CTuple [] \/ exists l, l <> [] /\ r_removed r = CList l)).
Proof. exact result_types. Qed.
Print Assumptions C33_result_types_partial.

(** A step's result has the documented type exactly where it reports something:
    an empty [removed] is a dictionary and an empty [remapped_ids] a tuple. *)
Theorem C33_step_types : forall o up d opts force s r s',
  updater_update o up d opts force s = (Ok r, s') ->
  (r_removed r = CDict [] \/ force = true /\ exists l, l <> [] /\ r_removed r = CTuple l) /\
  (r_remapped r = CTuple [] \/ force = true /\ exists m, m <> [] /\ r_remapped r = CDict m).
Proof. exact step_types. Qed.
Print Assumptions C33_step_types.

(** The module-level updates return what is documented unless forced. *)
Theorem C33_unforced_types : forall o d from to opts s r s',
  stix_update o d from to opts false s = (Ok r, s') \/
  cybox_update o d from to opts false s = (Ok r, s') \/
  ramrod_update o d from to opts false s = (Ok r, s') ->
  r_removed r = CTuple [] /\ r_remapped r = CDict [].
Proof. exact unforced_types. Qed.
Print Assumptions C33_unforced_types.

(** The documented types are not those of an unforced step's result (both are
    wrong), nor of a module-level update that removed something. *)
Theorem C33_result_types_refuted :
  (exists o up d s r s', wf_state s /\
     In up (map snd (STIX_UPDATERS o) ++ map snd (CYBOX_UPDATERS o)) /\
     updater_update o up d None false s = (Ok r, s') /\
     (forall l, r_removed r <> CTuple l) /\ (forall m, r_remapped r <> CDict m)) /\
  (exists o d s r s', wf_state s /\
     ramrod_update o d None None None true s = (Ok r, s') /\
     (forall l, r_removed r <> CTuple l)).
Proof. exact result_types_refuted. Qed.
Print Assumptions C33_result_types_refuted.

Example C33_case : exists r s' l, l <> [] /\
  clean o0 (STIX_1_0_1_Updater o0) (DElem 0) None (memory [pkg_1_0_1_bad]) = (Ok r, s') /\
  r_removed r = CTuple l.
Proof.
  eexists _, _, _. split; [|split; [vm_compute; reflexivity|reflexivity]]. discriminate.
Qed.

Example C33_step_case : exists r s' l m, l <> [] /\ m <> [] /\
  updater_update o0 (STIX_1_0_1_Updater o0) (DElem 0) None true (memory [pkg_1_0_1_bad]) = (Ok r, s') /\
  r_removed r = CTuple l /\ r_remapped r = CDict m.
Proof.
  eexists _, _, _, _. split; [|split; [|split; [vm_compute; reflexivity|split; reflexivity]]]; discriminate.
Qed.

Example C33_unforced_case : exists r s',
  ramrod_update o0 (DElem 0) None None None false (memory [pkg_1_1]) = (Ok r, s').
Proof. eexists _, _. vm_compute. reflexivity. Qed.
