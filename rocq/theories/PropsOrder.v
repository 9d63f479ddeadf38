(** * Property theorems: the order of the dictionary of duplicated ids. *)

From Coq Require Import String Ascii List Bool Arith Permutation.
From Verif Require Import Str Xml XPath Utils Base Tables Cybox Stix Ramrod Spec SpecDoc SpecOptions SpecOrder
  Lib Api Samples Cleaned Order.
Import ListNotations.
Local Open Scope string_scope.

(** ** C56: the order in which the duplicated ids are visited does not matter *)

(** A run with any other order is a run with the original order in which the
    calls of [new_id_func] are numbered differently: same documents in memory,
    same result or error. *)
Theorem C56_step : forall o p up d opts force s t,
  In up (map snd (STIX_UPDATERS o) ++ map snd (CYBOX_UPDATERS o)) -> reordering p ->
  wf_state s -> denotes s d t ->
  exists m, rearranges m /\
    same_end (updater_update o (in_order p up) d opts force s)
             (updater_update o up d (Some (dealt m (or_default o opts))) force s).
Proof.
  intros o p up d opts force s t R P W D.
  exact (order_dealt (fun x => updater_update o up d (Some x) force s) _ _ (updater_order o p up d opts force s t R P W D)).
Qed.
Print Assumptions C56_step.

Theorem C56_clean : forall o p up d opts s t,
  In up (map snd (STIX_UPDATERS o) ++ map snd (CYBOX_UPDATERS o)) -> reordering p ->
  wf_state s -> denotes s d t ->
  exists m, rearranges m /\
    same_end (clean o (in_order p up) d opts s)
             (clean o up d (Some (dealt m (or_default o opts))) s).
Proof.
  intros o p up d opts s t R P W D.
  exact (order_dealt (fun x => clean o up d (Some x) s) _ _ (cleaning_order o p up d opts s t R P W D)).
Qed.
Print Assumptions C56_clean.

(** Over several steps, each with an order of its own. *)
Theorem C56_stix : forall o p d from to opts force s t,
  (forall v, reordering (p v)) -> wf_state s -> denotes s d t ->
  exists m, rearranges m /\
    same_end (stix_update_in_order p o d from to opts force s)
             (stix_update o d from to (Some (dealt m (or_default o opts))) force s).
Proof.
  intros o p d from to opts force s t P W D.
  exact (order_dealt (fun x => stix_update o d from to (Some x) force s) _ _ (stix_order o p d from to opts force s t P W D)).
Qed.
Print Assumptions C56_stix.

Theorem C56_cybox : forall o p d from to opts force s t,
  (forall v, reordering (p v)) -> wf_state s -> denotes s d t ->
  exists m, rearranges m /\
    same_end (cybox_update_in_order p o d from to opts force s)
             (cybox_update o d from to (Some (dealt m (or_default o opts))) force s).
Proof.
  intros o p d from to opts force s t P W D.
  exact (order_dealt (fun x => cybox_update o d from to (Some x) force s) _ _ (cybox_order o p d from to opts force s t P W D)).
Qed.
Print Assumptions C56_cybox.

Theorem C56_update : forall o p d from to opts force s t,
  (forall v, reordering (p v)) -> wf_state s -> denotes s d t ->
  exists m, rearranges m /\
    same_end (ramrod_update_in_order p o d from to opts force s)
             (ramrod_update o d from to (Some (dealt m (or_default o opts))) force s).
Proof.
  intros o p d from to opts force s t P W D.
  exact (order_dealt (fun x => ramrod_update o d from to (Some x) force s) _ _ (ramrod_order o p d from to opts force s t P W D)).
Qed.
Print Assumptions C56_update.

(** With an id function that makes the same id from the same old id, nothing
    differs at all. *)
Theorem C56_repeatable : forall o p d from to opts force s t,
  repeatable opts -> (forall v, reordering (p v)) -> wf_state s -> denotes s d t ->
  same_end (ramrod_update_in_order p o d from to (Some opts) force s)
           (ramrod_update o d from to (Some opts) force s) /\
  same_end (stix_update_in_order p o d from to (Some opts) force s)
           (stix_update o d from to (Some opts) force s) /\
  same_end (cybox_update_in_order p o d from to (Some opts) force s)
           (cybox_update o d from to (Some opts) force s).
Proof.
  intros o p d from to opts force s t R P W D. split; [|split].
  - exact (order_repeatable (fun x => ramrod_update o d from to (Some x) force s) _ _ R (ramrod_order o p d from to (Some opts) force s t P W D)).
  - exact (order_repeatable (fun x => stix_update o d from to (Some x) force s) _ _ R (stix_order o p d from to (Some opts) force s t P W D)).
  - exact (order_repeatable (fun x => cybox_update o d from to (Some x) force s) _ _ R (cybox_order o p d from to (Some opts) force s t P W D)).
Qed.
Print Assumptions C56_repeatable.

(** Reordering the finished dictionary covers every order inside the code that
    builds it: the groups by id (base.py:525) and the two dictionaries put
    together (stix_1_0_1.py:448). *)
Theorem C56_assembled : forall s root c g1 g2,
  hfind root (heap s) = Some c ->
  Permutation g1 (id_groups (map snd (c_nsmap STIX_1_0_1)) (snd c)) ->
  Permutation g2 (id_groups (map snd (c_nsmap Cybox_in_1_0_1)) (snd c)) ->
  exists d, stix_1_0_1_get_duplicates root s = (Ok d, s) /\
    Permutation (dict_update (filter (fun kv => Nat.ltb 1 (List.length (snd kv))) g1)
                             (filter (fun kv => Nat.ltb 1 (List.length (snd kv))) g2)) d.
Proof. intros s root c g1 g2 H P Q. exact (assembled s root _ g1 g2 c H P Q eq_refl). Qed.
Print Assumptions C56_assembled.

Example C56_repeatable_case : repeatable (Options true (fun _ old => old ++ "-x") true true).
Proof. intros k k' old. reflexivity. Qed.

(** Two ids, each on two objects. *)
Definition obs_two_pairs : tree :=
  observables [(lq "cybox_major_version", "2"); (lq "cybox_minor_version", "0"); (lq "cybox_update_version", "1")]
    (map (fun i => el (qn CYBOX_NS "Object") [] [(lq "id", i)] None []) ["ex:1"; "ex:2"; "ex:2"; "ex:1"]).

Definition backwards (v : string) (d : dict (list nat)) : dict (list nat) := rev d.

Lemma backwards_reorders v : reordering (backwards v).
Proof. intro d. apply Permutation_sym, Permutation_rev. Qed.

(** The ids of the documents in memory. *)
Definition ids_held (s : st) : list (list (option string)) :=
  map (fun t => map (fun c => attr_get (lq "id") (h_attr (head (snd c)))) (visits [] t)) (heap s).

(** The new ids themselves do depend on the order when [new_id_func] counts or
    draws random values, so the rearrangement is needed. *)
Theorem C56_same_ids_refuted :
  ~ (forall o p d from to opts s t,
       (forall v, reordering (p v)) -> wf_state s -> denotes s d t ->
       same_end (cybox_update_in_order p o d from to opts true s) (cybox_update o d from to opts true s)).
Proof.
  intro H.
  pose proof (H o1 backwards (DFile (Some obs_two_pairs)) None None (Some counting) (memory []) obs_two_pairs backwards_reorders
    ltac:(split; [constructor|intros i []]) eq_refl) as [Q _].
  apply (f_equal ids_held) in Q. vm_compute in Q. discriminate Q.
Qed.
Print Assumptions C56_same_ids_refuted.

(** Both runs replace all four ids; the new ones differ. *)
Example C56_case :
  ids_held (snd (cybox_update o1 (DFile (Some obs_two_pairs)) None None (Some counting) true (memory []))) <>
  ids_held (snd (cybox_update_in_order backwards o1 (DFile (Some obs_two_pairs)) None None (Some counting) true (memory []))) /\
  (exists r s', cybox_update_in_order backwards o1 (DFile (Some obs_two_pairs)) None None (Some counting) true (memory []) = (Ok r, s') /\
     gen s' = 4) /\
  (exists a d s', cybox_update_in_order backwards o1 (DFile (Some obs_two_pairs)) None None (Some counting) false (memory [])
     = (Err (UpdateError a (Some d)), s') /\ map fst d = ["ex:2"; "ex:1"]).
Proof.
  split; [vm_compute; discriminate|]. split.
  - destruct (cybox_update_in_order backwards o1 (DFile (Some obs_two_pairs)) None None (Some counting) true (memory [])) as [[r|x] s'] eqn:E;
      vm_compute in E; [|discriminate]. injection E as <- <-. eexists. eexists. split; reflexivity.
  - eexists. eexists. eexists. split; [vm_compute; reflexivity|reflexivity].
Qed.
