(** * /repo/ramrod/__init__.py.  No proofs in this file. *)

From Coq Require Import String Ascii List Bool Arith.
From Verif Require Import Str Xml XPath Utils Base Cybox Stix.
Import ListNotations.
Local Open Scope string_scope.

(** __init__.py:14-82 [update].  [utils.get_localname(root)] reads the local
    part of the root's name; the dict lookup raises KeyError, turned into
    UpdateError, for any other name. *)
Definition ramrod_update (o : oracle) (d : docarg) (from to : option string)
  (opts : option options) (force : bool) : M results :=
  root <- get_etree_root d false ;;
  h <- get_hdr root ;;
  let options := Some (or_default o opts) in
  let name := q_local (h_tag h) in
  if String.eqb name "STIX_Package" then
    from' <- (if truthy from then ret from else stix_get_version (DElem root)) ;;
    stix_update o (DElem root) from' to options force
  else if String.eqb name "Observables" then
    from' <- (if truthy from then ret from
              else v <- cybox_get_version (DElem root) ;; ret (Some v)) ;;
    cybox_update o (DElem root) from' to options force
  else raise (UpdateError None None).
