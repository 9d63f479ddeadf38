(** * /repo/ramrod/scripts/ramrod_update.py.  No proofs in this file. *)

From Coq Require Import String Ascii List Bool Arith.
From Verif Require Import Str Xml XPath Utils Base Cybox Stix Ramrod.
Import ListNotations.
Local Open Scope string_scope.
Local Open Scope list_scope.

(** The parsed command line (ramrod_update.py:166-230; argparse itself is not
    modelled).  The input file is given by whether it exists and by what the
    XML parser makes of it. *)
Record args := Args {
  a_exists : bool;
  a_infile : option tree;
  a_outfile : option string;
  a_from : option string;
  a_to : option string;
  a_disable_vocab_update : bool;
  a_disable_remove_optionals : bool;
  a_force : bool
}.

(** ramrod_update.py:148-163 [_get_options] *)
Definition cli_options (o : oracle) (a : args) : options :=
  Options (negb (truthy (a_from a))) (create_new_id (o_uuid o))
          (negb (a_disable_vocab_update a)) (negb (a_disable_remove_optionals a)).

(** How the process ends. *)
Inductive ending :=
| Exit (code : nat)          (* 0: ran to the end; 1: sys.exit(EXIT_FAILURE) *)
| Traceback (e : exn).       (* an exception that main() does not catch *)

(** What the tool prints, line by line; line numbers of nodes and the text of
    exceptions are not represented. *)
Inductive line :=
| Document (root : nat)              (* the serialised tree with this root *)
| Message                            (* [!] <text of the exception> *)
| UntranslatableHeading              (* [!] Found the following untranslatable items: *)
| Untranslatable (tag : qname)       (*   Line <n>: <tag> *)
| DuplicatesHeading                  (* [!] Found items with duplicate ids: *)
| Duplicate (id_ : string)           (*   '<id>' on lines <ns> *)
| BadNode (tag : qname)              (*   Node: <tag> on line <n> *)
| Expected (v : string)              (*   Expected: '<v>' *)
| Found (v : string)                 (*   Found: '<v>' *)
| RemovedHeading                     (* [!] The following nodes were removed ... *)
| Removed (tag : qname)              (*     Line <n>: <tag> *)
| RemappedHeading                    (* [!] The following ids were duplicated ... *)
| Remapped (id_ : string) (news : list string).  (* '<id>': <news> *)

(** What a run leaves behind: what it wrote to standard output and standard
    error, and the file it wrote, if any: its name and the root of the tree
    serialised into it. *)
Record screen := Screen {
  stdout : list line;
  stderr : list line;
  outfile : option (string * nat)
}.

Definition blank_screen : screen := Screen [] [] None.

(** Code that reads nodes and prints. *)
Definition shell (A : Type) := screen -> st -> res A * screen * st.
Definition t_ret {A} (x : A) : shell A := fun c s => (Ok x, c, s).
Definition t_bind {A B} (m : shell A) (k : A -> shell B) : shell B := fun c s =>
  match m c s with
  | (Ok x, c', s') => k x c' s'
  | (Err e, c', s') => (Err e, c', s')
  end.
Definition t_run {A} (m : M A) : shell A := fun c s => let '(x, s') := m s in (x, c, s').

(** [print] and ramrod_update.py:22-36 [_print_error] *)
Definition say (l : line) : shell unit := fun c s => (Ok tt, Screen (stdout c ++ [l]) (stderr c) (outfile c), s).
Definition complain (l : line) : shell unit := fun c s => (Ok tt, Screen (stdout c) (stderr c ++ [l]) (outfile c), s).

Fixpoint t_each {A} (f : A -> shell unit) (l : list A) : shell unit :=
  match l with
  | [] => t_ret tt
  | x :: l' => t_bind (f x) (fun _ => t_each f l')
  end.

(** ramrod_update.py:39-54 [_write_xml]: [out = outfn or bin_stdout].
    SIMPLIFICATION: writing does not fail; Disk.v does without this. *)
Definition write_xml (root : nat) (outfn : option string) : shell unit :=
  match outfn with
  | Some (String c f) => fun k s => (Ok tt, Screen (stdout k) (stderr k) (Some (String c f, root)), s)
  | _ => say (Document root)
  end.

(** ramrod_update.py:57-77 [_print_update_error].  The heading of the
    duplicates is printed with [print], all the rest goes to standard error. *)
Definition print_update_error (disallowed : option (list nat)) (duplicates : option (dict (list nat))) : shell unit :=
  t_bind (complain Message) (fun _ =>
  t_bind (match disallowed with
          | Some (i :: l) =>
              t_bind (complain UntranslatableHeading) (fun _ =>
              t_each (fun i => t_bind (t_run (get_hdr i)) (fun h => complain (Untranslatable (h_tag h)))) (i :: l))
          | _ => t_ret tt
          end) (fun _ =>
  match duplicates with
  | Some (kv :: d) =>
      t_bind (say DuplicatesHeading) (fun _ =>
      t_each (fun kv : string * list nat => t_bind (t_run (map_m get_hdr (snd kv))) (fun _ => complain (Duplicate (fst kv)))) (kv :: d))
  | _ => t_ret tt
  end)).

(** [if x: _print_error(..., x)] for strings *)
Definition complain_if (f : string -> line) (x : option string) : shell unit :=
  match x with
  | Some (String c v) => complain (f (String c v))
  | _ => t_ret tt
  end.

(** ramrod_update.py:80-99 [_print_invalid_version_error].  [if node:] asks
    whether the lxml element has child nodes. *)
Definition print_invalid_version_error (node : option nat) (expected found : option string) : shell unit :=
  t_bind (complain Message) (fun _ =>
  t_bind (match node with
          | Some i => t_bind (t_run (deref i)) (fun c =>
                      match kids (snd c) with
                      | [] => t_ret tt
                      | _ => complain (BadNode (h_tag (head (snd c))))
                      end)
          | None => t_ret tt
          end) (fun _ =>
  t_bind (complain_if Expected expected) (fun _ =>
  complain_if Found found))).

(** ramrod_update.py:101-108 [_print_unknown_version_error] *)
Definition print_unknown_version_error : shell unit := complain Message.

(** ramrod_update.py:111-126 [_write_removed] *)
Definition write_removed (removed : list nat) : shell unit :=
  match removed with
  | [] => t_ret tt
  | i :: l => t_bind (say RemovedHeading) (fun _ =>
              t_each (fun i => t_bind (t_run (get_hdr i)) (fun h => say (Removed (h_tag h)))) (i :: l))
  end.

(** [[x.attrib['id'] for x in nodes]] *)
Definition current_ids (nodes : list nat) : M (list string) :=
  map_m (fun i => h <- get_hdr i ;;
                  match attr_get (lq "id") (h_attr h) with
                  | Some v => ret v
                  | None => raise KeyError
                  end) nodes.

(** ramrod_update.py:129-145 [_write_remapped_ids] *)
Definition write_remapped (remapped : dict (list nat)) : shell unit :=
  match remapped with
  | [] => t_ret tt
  | kv :: d => t_bind (say RemappedHeading) (fun _ =>
               t_each (fun kv : string * list nat => t_bind (t_run (current_ids (snd kv))) (fun news => say (Remapped (fst kv) news))) (kv :: d))
  end.

(** ramrod_update.py:232-243 [_validate_args] *)
Definition validate_args (a : args) : M unit :=
  if a_exists a then ret tt else raise ValueError.

(** ramrod_update.py:249-268: the body of [main] *)
Definition main_body (o : oracle) (a : args) : shell unit :=
  t_bind (t_run (validate_args a)) (fun _ =>
  let opts := cli_options o a in
  t_bind (t_run (ramrod_update o (DFile (a_infile a)) (a_from a) (a_to a) (Some opts) (a_force a))) (fun updated =>
  t_bind (write_xml (r_document updated) (a_outfile a)) (fun _ =>
  t_bind (write_removed (coll_items (r_removed updated))) (fun _ =>
  write_remapped (coll_dict (r_remapped updated)))))).

(** ramrod_update.py:270-278: the [except] clauses of [main] *)
Definition main_handler (e : exn) : shell ending :=
  match e with
  | UpdateError disallowed duplicates =>
      t_bind (print_update_error disallowed duplicates) (fun _ => t_ret (Exit 1))
  | InvalidVersionError node expected found =>
      t_bind (print_invalid_version_error node expected found) (fun _ => t_ret (Exit 1))
  | UnknownVersionError =>
      t_bind print_unknown_version_error (fun _ => t_ret (Exit 1))
  | _ => t_ret (Traceback e)
  end.

(** ramrod_update.py:245-278 [main] *)
Definition cli_main (o : oracle) (a : args) (s : st) : ending * screen * st :=
  match main_body o a blank_screen s with
  | (Ok _, c, s1) => (Exit 0, c, s1)
  | (Err e, c, s1) =>
      match main_handler e c s1 with
      | (Ok en, c', s2) => (en, c', s2)
      | (Err x, c', s2) => (Traceback x, c', s2)
      end
  end.
