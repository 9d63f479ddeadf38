(** * /repo/ramrod/scripts/ramrod_update.py in a process that can be refused or
      killed at any access to the outside: the command line tool of Cli.v with
      its files, and with everything it does to them.  No proofs in this file. *)

From Coq Require Import String Ascii List Bool Arith.
From Verif Require Import Str Xml XPath Utils Base Cybox Stix Ramrod Cli.
Import ListNotations.
Local Open Scope string_scope.
Local Open Scope list_scope.

(** The files by their names.  SIMPLIFICATION: different names are different
    files (there are no links), and no other process changes them meanwhile. *)
Definition disk := string -> option string.

(** What goes to standard output: the bytes of the document, and lines. *)
Inductive piece := Byte (c : ascii) | Text (l : line).

(** What the process does to the outside, one system call each.
    SIMPLIFICATION: no output is held back in buffers; bytes are written one by
    one. *)
Inductive effect :=
| Create (f : string)                 (* open a file for writing, emptying it *)
| Append (f : string) (c : ascii)     (* write one byte to it *)
| Print (p : piece)                   (* to standard output *)
| Complain (l : line).                (* to standard error *)

Definition store (f : string) (x : option string) (d : disk) : disk :=
  fun g => if String.eqb g f then x else d g.

Definition apply (d : disk) (e : effect) : disk :=
  match e with
  | Create f => store f (Some "") d
  | Append f c => store f (match d f with
                           | Some x => Some (x ++ String c "")%string
                           | None => None
                           end) d
  | _ => d
  end.

(** The files at the start, what has been done since, and the number of
    accesses so far. *)
Record world := World { w_disk : disk; w_done : list effect; w_clock : nat }.

(** The files now. *)
Definition now (w : world) : disk := fold_left apply (w_done w) (w_disk w).

(** What becomes of an access: it succeeds, the system refuses it (no
    permission, disk full, broken pipe, ...), or the process is killed there. *)
Inductive weather := Fine | Refused | Struck.

(** How a piece of the program ends: with a value, with a Python exception, with
    the exception for a refused access ([IOError] or a subclass of it, lxml's
    [SerialisationError]), or not at all. *)
Inductive outcome (A : Type) := Done (x : A) | Raised (e : exn) | RefusedError | Killed.
Arguments Done {A} x.
Arguments Raised {A} e.
Arguments RefusedError {A}.
Arguments Killed {A}.

Definition proc (A : Type) := (nat -> weather) -> world -> st -> outcome A * world * st.

Definition p_ret {A} (x : A) : proc A := fun _ w s => (Done x, w, s).
Definition p_raise {A} (e : exn) : proc A := fun _ w s => (Raised e, w, s).
Definition p_bind {A B} (m : proc A) (k : A -> proc B) : proc B := fun n w s =>
  match m n w s with
  | (Done x, w', s') => k x n w' s'
  | (Raised e, w', s') => (Raised e, w', s')
  | (RefusedError, w', s') => (RefusedError, w', s')
  | (Killed, w', s') => (Killed, w', s')
  end.

(** Code that only works on documents in memory. *)
Definition p_run {A} (m : M A) : proc A := fun _ w s =>
  match m s with
  | (Ok x, s') => (Done x, w, s')
  | (Err e, s') => (Raised e, w, s')
  end.

Fixpoint p_each {A} (f : A -> proc unit) (l : list A) : proc unit :=
  match l with
  | [] => p_ret tt
  | x :: l' => p_bind (f x) (fun _ => p_each f l')
  end.

(** One access to the outside. *)
Definition access {A} (refused : outcome A) (effects : list effect) (value : disk -> A) : proc A := fun n w s =>
  match n (w_clock w) with
  | Fine => (Done (value (now w)), World (w_disk w) (w_done w ++ effects) (S (w_clock w)), s)
  | Refused => (refused, World (w_disk w) (w_done w) (S (w_clock w)), s)
  | Struck => (Killed, World (w_disk w) (w_done w) (S (w_clock w)), s)
  end.

(** [os.path.exists] catches the exception of a refused access *)
Definition path_exists (f : string) : proc bool :=
  access (Done false) [] (fun d => match d f with Some _ => true | None => false end).

(** utils.py:185-189: [etree.parse] opens and reads the file.  SIMPLIFICATION:
    in one access. *)
Definition read_file (f : string) : proc string :=
  p_bind (access RefusedError [] (fun d => d f)) (fun x =>
  match x with
  | Some text => p_ret text
  | None => fun _ w s => (RefusedError, w, s)
  end).

Definition does (e : effect) : proc unit := access RefusedError [e] (fun _ => tt).

(** Closing a file writes what is left to write, which can be refused. *)
Definition close_file : proc unit := access RefusedError [] (fun _ => tt).

(** [print] and ramrod_update.py:22-36 [_print_error] *)
Definition p_say (l : line) : proc unit := does (Print (Text l)).
Definition p_complain (l : line) : proc unit := does (Complain l).

(** ramrod_update.py:39-54 [_write_xml].  [serialise]: the text lxml makes of a
    tree.  [outfn or bin_stdout]: an empty name stands for standard output. *)
Definition p_write_xml (serialise : tree -> string) (root : nat) (outfn : option string) : proc unit :=
  p_bind (p_run (deref root)) (fun c =>
  let bytes := list_ascii_of_string (serialise (erase (snd c))) in
  match outfn with
  | Some (String a f) =>
      p_bind (does (Create (String a f))) (fun _ =>
      p_bind (p_each (fun b => does (Append (String a f) b)) bytes) (fun _ =>
      close_file))
  | _ => p_each (fun b => does (Print (Byte b))) bytes
  end).

(** ramrod_update.py:57-77 [_print_update_error] *)
Definition p_print_update_error (disallowed : option (list nat)) (duplicates : option (dict (list nat))) : proc unit :=
  p_bind (p_complain Message) (fun _ =>
  p_bind (match disallowed with
          | Some (i :: l) =>
              p_bind (p_complain UntranslatableHeading) (fun _ =>
              p_each (fun i => p_bind (p_run (get_hdr i)) (fun h => p_complain (Untranslatable (h_tag h)))) (i :: l))
          | _ => p_ret tt
          end) (fun _ =>
  match duplicates with
  | Some (kv :: d) =>
      p_bind (p_say DuplicatesHeading) (fun _ =>
      p_each (fun kv : string * list nat => p_bind (p_run (map_m get_hdr (snd kv))) (fun _ => p_complain (Duplicate (fst kv)))) (kv :: d))
  | _ => p_ret tt
  end)).

(** [if x: _print_error(..., x)] for strings *)
Definition p_complain_if (f : string -> line) (x : option string) : proc unit :=
  match x with
  | Some (String c v) => p_complain (f (String c v))
  | _ => p_ret tt
  end.

(** ramrod_update.py:80-99 [_print_invalid_version_error] *)
Definition p_print_invalid_version_error (node : option nat) (expected found : option string) : proc unit :=
  p_bind (p_complain Message) (fun _ =>
  p_bind (match node with
          | Some i => p_bind (p_run (deref i)) (fun c =>
                      match kids (snd c) with
                      | [] => p_ret tt
                      | _ => p_complain (BadNode (h_tag (head (snd c))))
                      end)
          | None => p_ret tt
          end) (fun _ =>
  p_bind (p_complain_if Expected expected) (fun _ =>
  p_complain_if Found found))).

(** ramrod_update.py:101-108 [_print_unknown_version_error] *)
Definition p_print_unknown_version_error : proc unit := p_complain Message.

(** ramrod_update.py:111-126 [_write_removed] *)
Definition p_write_removed (removed : list nat) : proc unit :=
  match removed with
  | [] => p_ret tt
  | i :: l => p_bind (p_say RemovedHeading) (fun _ =>
              p_each (fun i => p_bind (p_run (get_hdr i)) (fun h => p_say (Removed (h_tag h)))) (i :: l))
  end.

(** ramrod_update.py:129-145 [_write_remapped_ids] *)
Definition p_write_remapped (remapped : dict (list nat)) : proc unit :=
  match remapped with
  | [] => p_ret tt
  | kv :: d => p_bind (p_say RemappedHeading) (fun _ =>
               p_each (fun kv : string * list nat => p_bind (p_run (current_ids (snd kv))) (fun news => p_say (Remapped (fst kv) news))) (kv :: d))
  end.

(** The parsed command line (ramrod_update.py:166-230) *)
Record command := Command {
  c_infile : string;
  c_outfile : option string;
  c_from : option string;
  c_to : option string;
  c_disable_vocab_update : bool;
  c_disable_remove_optionals : bool;
  c_force : bool
}.

(** The arguments of Cli.v for this command when the input file holds what
    [text] says ([None]: there is no such file).  [parse]: what lxml's parser
    makes of a text, [None] when it is not XML. *)
Definition args_of (parse : string -> option tree) (c : command) (text : option string) : args :=
  Args (match text with Some _ => true | None => false end)
       (match text with Some x => parse x | None => None end)
       (c_outfile c) (c_from c) (c_to c) (c_disable_vocab_update c) (c_disable_remove_optionals c) (c_force c).

(** ramrod_update.py:232-243 [_validate_args] *)
Definition p_validate_args (c : command) : proc unit :=
  p_bind (path_exists (c_infile c)) (fun there =>
  if there then p_ret tt else p_raise ValueError).

(** ramrod_update.py:249-268: the body of [main].  [ramrod.update] begins with
    reading the file (__init__.py:64). *)
Definition p_main_body (parse : string -> option tree) (serialise : tree -> string) (o : oracle) (c : command) : proc unit :=
  p_bind (p_validate_args c) (fun _ =>
  p_bind (read_file (c_infile c)) (fun text =>
  let a := args_of parse c (Some text) in
  let opts := cli_options o a in
  p_bind (p_run (ramrod_update o (DFile (parse text)) (c_from c) (c_to c) (Some opts) (c_force c))) (fun updated =>
  p_bind (p_write_xml serialise (r_document updated) (c_outfile c)) (fun _ =>
  p_bind (p_write_removed (coll_items (r_removed updated))) (fun _ =>
  p_write_remapped (coll_dict (r_remapped updated))))))).

(** How the process ends. *)
Inductive finish :=
| Status (code : nat)        (* 0: ran to the end; 1: sys.exit(EXIT_FAILURE) *)
| Uncaught (e : exn)         (* a traceback *)
| UncaughtRefusal            (* a traceback about a refused access *)
| Dead.                      (* killed *)

(** ramrod_update.py:270-278: the [except] clauses of [main] *)
Definition p_main_handler (e : exn) : proc finish :=
  match e with
  | UpdateError disallowed duplicates =>
      p_bind (p_print_update_error disallowed duplicates) (fun _ => p_ret (Status 1))
  | InvalidVersionError node expected found =>
      p_bind (p_print_invalid_version_error node expected found) (fun _ => p_ret (Status 1))
  | UnknownVersionError =>
      p_bind p_print_unknown_version_error (fun _ => p_ret (Status 1))
  | _ => p_ret (Uncaught e)
  end.

(** The end of the interpreter on what was not caught. *)
Definition ended (x : outcome finish) : finish :=
  match x with
  | Done f => f
  | Raised e => Uncaught e
  | RefusedError => UncaughtRefusal
  | Killed => Dead
  end.

(** ramrod_update.py:245-278 [main] *)
Definition p_main (parse : string -> option tree) (serialise : tree -> string) (o : oracle) (c : command) : proc finish :=
  fun n w s =>
  match p_main_body parse serialise o c n w s with
  | (Done _, w1, s1) => (Done (Status 0), w1, s1)
  | (Raised e, w1, s1) => p_main_handler e n w1 s1
  | (RefusedError, w1, s1) => (RefusedError, w1, s1)
  | (Killed, w1, s1) => (Killed, w1, s1)
  end.

(** A run of the tool on the files [d] in the weather [n]: how it ends, and what
    it has done. *)
Definition tool (parse : string -> option tree) (serialise : tree -> string) (o : oracle) (c : command)
  (n : nat -> weather) (d : disk) (s : st) : finish * world :=
  let '(x, w, _) := p_main parse serialise o c n (World d [] 0) s in (ended x, w).
