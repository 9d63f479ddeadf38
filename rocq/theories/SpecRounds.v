(** * Cleaning a document over and over.  No proofs in this file. *)

From Coq Require Import String List Arith.
From Verif Require Import Str Xml Utils Base Spec.
Import ListNotations.

(** [n] times in a row [clean] is called, each time on the document the last
    call has returned: first on the document [i], in the end [j] is returned. *)
Inductive cleaned_over (o : oracle) (up : updater) (opts : option options) : nat -> st -> nat -> st -> nat -> Prop :=
| cleaned_enough s i : cleaned_over o up opts 0 s i s i
| cleaned_more n s i r s1 s' j :
    clean o up (DElem i) opts s = (Ok r, s1) -> cleaned_over o up opts n s1 (r_document r) s' j ->
    cleaned_over o up opts (S n) s i s' j.
