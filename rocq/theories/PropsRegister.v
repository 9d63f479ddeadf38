(** Registering updater classes (C55). *)
From Coq Require Import List String Permutation.
From Verif Require Import Str Xml XPath Utils Base Cybox Stix Ramrod Register SpecRegister
  Registered Samples.
Import ListNotations.
Local Open Scope string_scope.
Local Open Scope list_scope.

(** A class with a version the package does not know is refused with
    ValueError and nothing at all has changed; any other class is accepted and
    handed back. *)
Theorem C55_unknown_version_refused : forall f u w,
  (~ accepted (f, u) -> register_updater f u w = (Err ValueError, w)) /\
  (accepted (f, u) -> fst (register_updater f u w) = Ok u).
Proof. intros f u w. split; [apply register_refuses|apply register_accepts]. Qed.
Print Assumptions C55_unknown_version_refused.

(** Whatever classes are registered, in whatever order: the class that updates
    a version is the last accepted one registered for it. *)
Theorem C55_last_registered_wins : forall h f v u,
  dict_get v (registry f (register_all h fresh)) = Some u <->
  exists a, last_such (for_version f v) h a /\ snd a = u.
Proof. exact registered_iff. Qed.
Print Assumptions C55_last_registered_wins.

(** ... and a helper class has the namespace table of the last accepted class
    that lists it, and none of its own when no such class does. *)
Theorem C55_helpers_wired : forall h k m,
  dict_get k (w_nsmaps (register_all h fresh)) = Some m <->
  exists a, last_such (wires k) h a /\ u_nsmap (snd a) = m.
Proof. exact wired_iff. Qed.
Print Assumptions C55_helpers_wired.

(** Classes that neither compete for a version nor share helpers can be
    registered in any order. *)
Theorem C55_order_irrelevant : forall h h',
  independent h -> Permutation h h' ->
  (forall f v, dict_get v (registry f (register_all h fresh)) =
               dict_get v (registry f (register_all h' fresh))) /\
  (forall k, dict_get k (w_nsmaps (register_all h fresh)) =
             dict_get k (w_nsmaps (register_all h' fresh))).
Proof. exact order_free. Qed.
Print Assumptions C55_order_irrelevant.

(** Importing the packages leaves exactly the updaters and the namespace tables
    that the rest of the model works with. *)
Theorem C55_imports : forall o,
  let w := register_all (import_history o) fresh in
  updaters_of (registry FStix w) = STIX_UPDATERS o /\
  updaters_of (registry FCybox w) = CYBOX_UPDATERS o /\
  stands_for w (STIX_1_0_class o) STIX_1_0 /\
  stands_for w (STIX_1_0_1_class o) STIX_1_0_1 /\
  stands_for w (STIX_1_1_class o) STIX_1_1 /\
  stands_for w STIX_1_1_1_class STIX_1_1_1 /\
  stands_for w STIX_1_2_class STIX_1_2 /\
  stands_for w Cybox_2_0_class Cybox_2_0 /\
  stands_for w (Cybox_2_0_1_class o) Cybox_2_0_1.
Proof.
  intros o w. destruct (import_tables o) as [T1 T2].
  split; [exact T1|]. split; [exact T2|]. exact (import_all_stand o).
Qed.
Print Assumptions C55_imports.

(** The order of the imports does not matter. *)
Theorem C55_imports_any_order : forall o h,
  Permutation (import_history o) h ->
  (forall f v, dict_get v (registry f (register_all h fresh)) =
               dict_get v (registry f (register_all (import_history o) fresh))) /\
  (forall k, dict_get k (w_nsmaps (register_all h fresh)) =
             dict_get k (w_nsmaps (register_all (import_history o) fresh))).
Proof.
  intros o h P. destruct (order_free _ _ (import_independent o) P) as [A B].
  split; intros; symmetry; auto.
Qed.
Print Assumptions C55_imports_any_order.

(** Whatever a program registers besides, every version that has a successor
    keeps an updater, and it is one for that version. *)
Theorem C55_every_step_has_an_updater : forall o h f v,
  In v (removelast (known_versions f)) ->
  exists u, dict_get v (registry f (register_all (import_history o ++ h) fresh)) = Some u /\
            u_version u = v.
Proof. exact still_registered. Qed.
Print Assumptions C55_every_step_has_an_updater.

(** Registering classes that share no helper with [u] changes no table of a
    helper of [u]. *)
Theorem C55_others_left_alone : forall h u w,
  (forall a k, In a h -> accepted a -> lists_helper (snd a) k -> ~ lists_helper u k) ->
  forall k, lists_helper u k ->
  dict_get k (w_nsmaps (register_all h w)) = dict_get k (w_nsmaps w).
Proof. exact left_alone. Qed.
Print Assumptions C55_others_left_alone.

(** Without that condition it is false: a program's own class for another
    version that reuses a helper of the STIX 1.0 updater takes the helper's
    namespace table away from that updater. *)
Definition own_class : uclass :=
  UClass "1.2.1" [("stix", "http://example.com/mine")]
    [("stix_1_0.DisallowedMalware", DisallowedMalware)] [] [] [] STIX_1_2_Updater.

Theorem C55_shared_helper_refuted :
  exists u k,
    accepted (FStix, u) /\ u_version u <> u_version (STIX_1_0_class o0) /\
    lists_helper (STIX_1_0_class o0) k /\
    dict_get k (w_nsmaps (register_all (import_history o0) fresh)) = Some (c_klass_nsmap STIX_1_0) /\
    dict_get k (w_nsmaps (register_all (import_history o0 ++ [(FStix, u)]) fresh))
      <> Some (c_klass_nsmap STIX_1_0).
Proof.
  exists own_class, "stix_1_0.DisallowedMalware".
  split; [apply mem_str_iff; reflexivity|]. split; [discriminate|].
  assert (L : lists_helper (STIX_1_0_class o0) "stix_1_0.DisallowedMalware")
    by (apply lists_helper_iff; simpl; tauto).
  split; [exact L|]. split.
  - destruct (import_all_stand o0) as [(_ & _ & _ & _ & _ & _ & H) _]. exact (H _ L).
  - intros E. vm_compute in E. discriminate E.
Qed.
Print Assumptions C55_shared_helper_refuted.

(** Non-vacuity: an unknown version; a second class for a known version. *)
Example C55_case_refused :
  register_updater FCybox own_class fresh = (Err ValueError, fresh).
Proof. apply (C55_unknown_version_refused FCybox own_class fresh). intros H.
  apply mem_str_iff in H. discriminate H. Qed.

Example C55_case_wins :
  dict_get "1.2.1" (registry FStix (register_all (import_history o0 ++ [(FStix, own_class)]) fresh))
    = Some own_class /\
  dict_get "stix_1_0.DisallowedMalware"
    (w_nsmaps (register_all (import_history o0 ++ [(FStix, own_class)]) fresh))
    = Some [("stix", "http://example.com/mine")].
Proof. split; reflexivity. Qed.

Example C55_case_order :
  independent (import_history o0) /\ List.length (import_history o0) = 7.
Proof. split; [apply import_independent|reflexivity]. Qed.

Example C55_case_left_alone :
  lists_helper (Cybox_2_0_1_class o0) "cybox_2_0_1.OptionalURIFields" /\
  forall a k, In a [(FStix, own_class)] -> accepted a -> lists_helper (snd a) k ->
    ~ lists_helper (Cybox_2_0_1_class o0) k.
Proof.
  split; [apply lists_helper_iff; simpl; tauto|].
  intros a k [<-|[]] _. rewrite !lists_helper_iff. simpl.
  intros [<-|[]] H. repeat destruct H as [H|H]; try discriminate H. exact H.
Qed.
