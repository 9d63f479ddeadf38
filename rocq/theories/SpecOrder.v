(** * The order in which a dictionary is iterated.

    Python does not fix the order of [iteritems(d)] (before 3.7 it depends on
    the hash seed of the process).  The code iterates the dictionary of
    duplicated ids: base.py:525, stix_1_0_1.py:448 and 506, cybox_2_0_1.py:611.
    The model lists a dictionary in order of insertion; here the same programs
    are run with any other order.  No proofs in this file. *)

From Coq Require Import String List Bool Arith Permutation.
From Verif Require Import Str Xml XPath Utils Base Cybox Stix Ramrod SpecOptions.
Import ListNotations.
Local Open Scope string_scope.

(** Another order for every dictionary. *)
Definition reordering (p : dict (list nat) -> dict (list nat)) : Prop :=
  forall d, Permutation (p d) d.

(** The dictionary carried by an [UpdateError] in the other order. *)
Definition reordered_error (p : dict (list nat) -> dict (list nat)) (x : exn) : exn :=
  match x with
  | UpdateError a (Some d) => UpdateError a (Some (p d))
  | _ => x
  end.

(** The updater whose dictionaries of duplicated ids are in the other order. *)
Definition in_order (p : dict (list nat) -> dict (list nat)) (up : updater) : updater :=
  Updater (fun root opts s => match up_check up root opts s with
                              | (Err x, s') => (Err (reordered_error p x), s')
                              | q => q
                              end)
          (up_update up)
          (up_get_disallowed up)
          (fun root => d <- up_get_duplicates up root ;; ret (option_map p d))
          (up_clean_disallowed up)
          (up_clean_duplicates up).

(** A table of updaters, each with an order of its own. *)
Definition table_in_order (p : string -> dict (list nat) -> dict (list nat)) (table : dict updater) : dict updater :=
  map (fun kv => (fst kv, in_order (p (fst kv)) (snd kv))) table.

Definition stix_update_in_order (p : string -> dict (list nat) -> dict (list nat)) (o : oracle) :
  docarg -> option string -> option string -> option options -> bool -> M results :=
  versioned_update o STIX_VERSIONS (table_in_order p (STIX_UPDATERS o)) stix_node_version.

Definition cybox_update_in_order (p : string -> dict (list nat) -> dict (list nat)) (o : oracle) :
  docarg -> option string -> option string -> option options -> bool -> M results :=
  versioned_update o CYBOX_VERSIONS (table_in_order p (CYBOX_UPDATERS o))
    (fun root => v <- cybox_node_version root ;; ret (Some v)).

(** __init__.py:14-82 over the two other entry points. *)
Definition ramrod_update_in_order (p : string -> dict (list nat) -> dict (list nat)) (o : oracle)
  (d : docarg) (from to : option string) (opts : option options) (force : bool) : M results :=
  root <- get_etree_root d false ;;
  h <- get_hdr root ;;
  let options := Some (or_default o opts) in
  let name := q_local (h_tag h) in
  if String.eqb name "STIX_Package" then
    from' <- (if truthy from then ret from else stix_get_version (DElem root)) ;;
    stix_update_in_order p o (DElem root) from' to options force
  else if String.eqb name "Observables" then
    from' <- (if truthy from then ret from
              else v <- cybox_get_version (DElem root) ;; ret (Some v)) ;;
    cybox_update_in_order p o (DElem root) from' to options force
  else raise (UpdateError None None).

(** ** Ends of a call that Python's [==] cannot tell apart *)

Definition same_dict (d e : dict (list nat)) : Prop := forall k, dict_get k d = dict_get k e.

Definition same_coll (c d : coll) : Prop :=
  match c, d with
  | CDict a, CDict b => same_dict a b
  | _, _ => c = d
  end.

Definition same_error (x y : exn) : Prop :=
  match x, y with
  | UpdateError a (Some d), UpdateError b (Some e) => a = b /\ same_dict d e
  | _, _ => x = y
  end.

(** The same memory (so the same documents, with the same ids), and the same
    result or error up to the order of dictionaries. *)
Definition same_end (q q' : res results * st) : Prop :=
  snd q = snd q' /\
  match fst q, fst q' with
  | Ok r, Ok r' => r_document r = r_document r' /\ r_removed r = r_removed r' /\
                   same_coll (r_remapped r) (r_remapped r')
  | Err x, Err y => same_error x y
  | _, _ => False
  end.

(** ** Dealing the generated values out differently *)

(** [m] rearranges the numbers of the calls of [new_id_func]. *)
Definition rearranges (m : nat -> nat) : Prop :=
  exists back, (forall k, back (m k) = k) /\ (forall k, m (back k) = k).

(** The options [opts] with the calls numbered by [m]. *)
Definition dealt (m : nat -> nat) (opts : options) : options :=
  with_ids (fun k => new_id_func opts (m k)) opts.

(** The id function looks only at the old id. *)
Definition repeatable (opts : options) : Prop :=
  forall k k' old, new_id_func opts k old = new_id_func opts k' old.
