(** * Words for what the command line tool leaves behind.

    No proofs in this file. *)

From Coq Require Import String Ascii List Bool Arith.
From Verif Require Import Str Xml Utils Base Ramrod Cli Spec SpecCheck SpecUpdate.
Import ListNotations.
Local Open Scope string_scope.
Local Open Scope list_scope.

(** The exit status of the process: the Python interpreter ends with status 1
    after printing a traceback. *)
Definition exit_status (e : ending) : nat :=
  match e with Exit n => n | Traceback _ => 1 end.

(** The update that a command line stands for: versions are checked unless
    --from is given, vocabularies are updated and optional elements removed
    unless that is disabled, new ids are made from UUIDs. *)
Definition meant (o : oracle) (a : args) (opts : options) : Prop :=
  (check_versions opts = false <-> exists v, given (a_from a) = Some v) /\
  (update_vocabularies opts = true <-> a_disable_vocab_update a = false) /\
  (remove_optionals opts = true <-> a_disable_remove_optionals a = false) /\
  new_id_func opts = create_new_id (o_uuid o).

Definition update_of (o : oracle) (a : args) (opts : options) : M results :=
  ramrod_update o (DFile (a_infile a)) (a_from a) (a_to a) (Some opts) (a_force a).

(** Node [i] is in memory and is called [q]. *)
Definition called (s : st) (i : nat) (q : qname) : Prop :=
  exists anc x, node_at s i anc x /\ h_tag (head x) = q.

(** The printed reports list the names of the removed nodes, and for each
    replaced id the ids its former holders have now; nothing is printed when
    there is nothing to report. *)
Inductive tells_removed (s : st) (r : results) : list line -> Prop :=
| tr_none : removed_nodes r = [] -> tells_removed s r []
| tr_some tags : removed_nodes r <> [] -> Forall2 (called s) (removed_nodes r) tags ->
    tells_removed s r (RemovedHeading :: map Removed tags).

Inductive tells_remapped (s : st) (r : results) : list line -> Prop :=
| tm_none : remapped_ids r = [] -> tells_remapped s r []
| tm_some l : remapped_ids r <> [] ->
    Forall2 (fun kv kv' => fst kv' = fst kv /\ Forall2 (holds_id s) (snd kv) (snd kv')) (remapped_ids r) l ->
    tells_remapped s r (RemappedHeading :: map (fun kv => Remapped (fst kv) (snd kv)) l).

(** Where the document goes: to the file if a name is given, else to the
    beginning of standard output. *)
Definition delivered (a : args) (root : nat) (c : screen) (reports : list line) : Prop :=
  match given (a_outfile a) with
  | Some f => outfile c = Some (f, root) /\ stdout c = reports
  | None => outfile c = None /\ stdout c = Document root :: reports
  end.

(** A line printed only if there is something to print. *)
Definition optional_line (f : string -> line) (x : option string) : list line :=
  match given x with Some v => [f v] | None => [] end.

Definition headed {A} (heading : line) (f : A -> line) (l : list A) : list line :=
  match l with [] => [] | _ => heading :: map f l end.

(** What is printed about an error, on standard output and on standard error. *)
Inductive explains (s : st) : exn -> list line -> list line -> Prop :=
| ex_update dis dup tags ids :
    Forall2 (called s) (match dis with Some l => l | None => [] end) tags ->
    ids = map fst (match dup with Some d => d | None => [] end) ->
    explains s (UpdateError dis dup)
      (match ids with [] => [] | _ => [DuplicatesHeading] end)
      (Message :: headed UntranslatableHeading Untranslatable tags ++ map Duplicate ids)
| ex_unknown : explains s UnknownVersionError [] [Message]
| ex_arguments expected found :
    explains s (InvalidVersionError None expected found) []
      (Message :: optional_line Expected expected ++ optional_line Found found)
| ex_childless i anc x expected found :
    node_at s i anc x -> kids x = [] ->
    explains s (InvalidVersionError (Some i) expected found) []
      (Message :: optional_line Expected expected ++ optional_line Found found)
| ex_node i anc x expected found :
    node_at s i anc x -> kids x <> [] ->
    explains s (InvalidVersionError (Some i) expected found) []
      (Message :: BadNode (h_tag (head x)) :: optional_line Expected expected ++ optional_line Found found).
