(** * The package with an id function of any kind.

    options.py:38-44: [UpdateOptions.new_id_func] is a function of the caller's
    that is handed a node of the document being cleaned and may do anything
    with it, or raise.  In Base.v it only chooses the new id of the node
    (Utils.v [apply_new_id]); here it is any program.  Everything else is as
    in Base.v, Cybox.v, Stix.v and Ramrod.v.

    No proofs in this file. *)

From Coq Require Import String Ascii List Bool Arith.
From Verif Require Import Str Xml XPath Utils Base Cybox Stix Ramrod.
Import ListNotations.
Local Open Scope string_scope.

(** What [new_id_func(node)] does, by node. *)
Definition id_function := nat -> M unit.

(** cybox_2_0_1.py:600-615, stix_1_0_1.py:494-510 [_clean_duplicates] *)
Definition clean_duplicates_by (f : id_function) (d : dict (list nat)) : M (dict (list nat)) :=
  for_each d (fun kv => for_each (snd kv) f) ;;; ret d.

(** cybox_2_0_1.py:600-615: the class with [f] as id function *)
Definition Cybox_2_0_1_by (f : id_function) (o : oracle) : updater :=
  let up := Cybox_2_0_1_Updater o in
  Updater (up_check up) (up_update up) (up_get_disallowed up) (up_get_duplicates up)
          (up_clean_disallowed up) (fun d _ => clean_duplicates_by f d).

(** stix_1_0_1.py:494-510: the class with [f] as id function *)
Definition STIX_1_0_1_by (f : id_function) (o : oracle) : updater :=
  let up := STIX_1_0_1_Updater o in
  Updater (up_check up) (up_update up) (up_get_disallowed up) (up_get_duplicates up)
          (up_clean_disallowed up) (fun d _ => clean_duplicates_by f d).

(** cybox/__init__.py:82-126; the other classes do not use the id function *)
Definition CYBOX_UPDATERS_by (f : id_function) (o : oracle) : dict updater :=
  [("2.0", Cybox_2_0_Updater); ("2.0.1", Cybox_2_0_1_by f o)].

(** stix/__init__.py:81-122 *)
Definition STIX_UPDATERS_by (f : id_function) (o : oracle) : dict updater :=
  [("1.0", STIX_1_0_Updater o); ("1.0.1", STIX_1_0_1_by f o);
   ("1.1", STIX_1_1_Updater o); ("1.1.1", STIX_1_1_1_Updater);
   ("1.2", STIX_1_2_Updater)].

(** cybox/__init__.py:21-78 *)
Definition cybox_update_by (f : id_function) (o : oracle) : docarg -> option string -> option string ->
  option options -> bool -> M results :=
  versioned_update o CYBOX_VERSIONS (CYBOX_UPDATERS_by f o)
    (fun root => v <- cybox_node_version root ;; ret (Some v)).

(** stix/__init__.py:21-78 *)
Definition stix_update_by (f : id_function) (o : oracle) : docarg -> option string -> option string ->
  option options -> bool -> M results :=
  versioned_update o STIX_VERSIONS (STIX_UPDATERS_by f o) stix_node_version.

(** ramrod/__init__.py:14-82 *)
Definition ramrod_update_by (f : id_function) (o : oracle) (d : docarg) (from to : option string)
  (opts : option options) (force : bool) : M results :=
  root <- get_etree_root d false ;;
  h <- get_hdr root ;;
  let options := Some (or_default o opts) in
  let name := q_local (h_tag h) in
  if String.eqb name "STIX_Package" then
    from' <- (if truthy from then ret from else stix_get_version (DElem root)) ;;
    stix_update_by f o (DElem root) from' to options force
  else if String.eqb name "Observables" then
    from' <- (if truthy from then ret from
              else v <- cybox_get_version (DElem root) ;; ret (Some v)) ;;
    cybox_update_by f o (DElem root) from' to options force
  else raise (UpdateError None None).
