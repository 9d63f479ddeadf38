(** * Words for what a run of the command line tool does to the outside.

    No proofs in this file. *)

From Coq Require Import String Ascii List Bool Arith.
From Verif Require Import Str Xml Utils Base Ramrod Cli Spec SpecCheck SpecUpdate SpecCli Disk.
Import ListNotations.
Local Open Scope string_scope.
Local Open Scope list_scope.

(** A run in which nothing goes wrong outside. *)
Definition clear : nat -> weather := fun _ => Fine.

(** What has been written to standard output and standard error. *)
Definition printed (w : world) : list piece :=
  flat_map (fun e => match e with Print p => [p] | _ => [] end) (w_done w).
Definition complained (w : world) : list line :=
  flat_map (fun e => match e with Complain l => [l] | _ => [] end) (w_done w).

(** The command as Cli.v sees it, on the files [d]. *)
Definition arguments (parse : string -> option tree) (c : command) (d : disk) : args := args_of parse c (d (c_infile c)).

(** The file is there and the update the command stands for succeeds: with the
    result [r], memory [s1], and the document [e]. *)
Definition updates (parse : string -> option tree) (o : oracle) (c : command) (d : disk) (s : st) (r : results) (s1 : st) (e : tree) : Prop :=
  a_exists (arguments parse c d) = true /\
  (exists opts, meant o (arguments parse c d) opts /\ update_of o (arguments parse c d) opts s = (Ok r, s1)) /\
  document s1 (r_document r) e.

(** A text in bytes. *)
Definition bytes (x : string) : list piece := map Byte (list_ascii_of_string x).

Definition begins {A} (p l : list A) : Prop := exists q, l = p ++ q.
Definition begins_text (p x : string) : Prop := exists q, x = (p ++ q)%string.

(** All files are as they were. *)
Definition untouched (d d' : disk) : Prop := forall f, d' f = d f.

(** The ways a process ends by itself, as in Cli.v. *)
Definition finish_of (en : ending) : finish :=
  match en with Exit n => Status n | Traceback e => Uncaught e end.

(** What stands on standard output for the lines of Cli.v. *)
Inductive shows (serialise : tree -> string) (s : st) : list line -> list piece -> Prop :=
| sh_nothing : shows serialise s [] []
| sh_document root e ls ps : document s root e -> shows serialise s ls ps ->
    shows serialise s (Document root :: ls) (bytes (serialise e) ++ ps)
| sh_line l ls ps : (forall root, l <> Document root) -> shows serialise s ls ps ->
    shows serialise s (l :: ls) (Text l :: ps).
