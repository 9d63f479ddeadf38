(** * Options that differ in one respect.  No proofs in this file. *)

From Coq Require Import String List Bool Arith.
From Verif Require Import Str Xml Utils Base.

(** The same options without the check of versions. *)
Definition unchecked (p : options) : options :=
  Options false (new_id_func p) (update_vocabularies p) (remove_optionals p).

(** The same options with another function for new ids. *)
Definition with_ids (f : nat -> string -> string) (p : options) : options :=
  Options (check_versions p) f (update_vocabularies p) (remove_optionals p).

(** Errors about the version of a document. *)
Definition about_versions (e : exn) : bool :=
  match e with
  | UnknownVersionError | InvalidVersionError _ _ _ => true
  | _ => false
  end.
