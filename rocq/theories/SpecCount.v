(** * How often an attribute occurs.  No proofs in this file. *)

From Coq Require Import String Ascii List Bool Arith.
From Verif Require Import Str Xml Spec SpecTrace.
Import ListNotations.
Local Open Scope string_scope.

(** All attributes in a document, of all its nodes. *)
Definition attributes_in (t : tree) : list (qname * string) :=
  flat_map (fun x => h_attr (head x)) (nodes t).

(** How many times the attribute [k] has the value [w]. *)
Definition occurrences (k : qname) (w : string) (t : tree) : nat :=
  length (filter (fun a => qn_eqb (fst a) k && String.eqb (snd a) w) (attributes_in t)).

(** No two elements have the same id. *)
Definition unique_ids (t : tree) : Prop := forall w, occurrences (lq "id") w t <= 1.
