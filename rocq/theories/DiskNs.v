(** * /repo/ramrod/scripts/update_ns.py as a process: the namespace script of
      UpdateNs.v with its files and streams, each access of which can be refused
      or be the last (see Disk.v).  No proofs in this file. *)

From Coq Require Import String Ascii List Bool Arith.
From Verif Require Import Str Xml XPath Tables UpdateNs Cli Disk.
Import ListNotations.
Local Open Scope string_scope.
Local Open Scope list_scope.

(** update_ns.py:258 [for line in f]: the lines of a text; a carriage return
    ends a line as well.  SIMPLIFICATION: "\r\n" counts as two line ends, and
    after the last line end there is one more, empty line; blank lines are
    skipped by the reader. *)
Definition line_end (c : ascii) : bool := Nat.eqb (nat_of_ascii c) 10 || Nat.eqb (nat_of_ascii c) 13.

Fixpoint lines_of (x : string) : list string :=
  match x with
  | EmptyString => [""]
  | String c x' =>
      if line_end c then "" :: lines_of x'
      else match lines_of x' with
           | l :: ls => String c l :: ls
           | [] => [String c ""]
           end
  end.

(** update_ns.py:244-266 [get_namespace_list].  SIMPLIFICATION: the file is read
    in one access. *)
Definition p_namespace_list (id_ : string) : proc (list string) :=
  if String.eqb id_ "stix1.2" then p_ret STIX_NS_1_2
  else if String.eqb id_ "stix1.2.1" then p_ret STIX_NS_1_2_1
  else p_bind (read_file id_) (fun text => p_ret (namespace_lines (lines_of text))).

(** The parsed command line (update_ns.py:269-305).  [argparse.FileType] takes
    "-" for standard input, as it does a missing name. *)
Record ns_command := NsCommand {
  n_from : string;
  n_to : string;
  n_pretty : bool;
  n_file : option string
}.

Definition source_file (c : ns_command) : option string :=
  match n_file c with
  | Some f => if String.eqb f "-" then None else Some f
  | None => None
  end.

(** update_ns.py:297-305: [argparse.FileType("rb")] opens the file while the
    command line is parsed.  Otherwise argparse prints the usage and a message
    and exits with status 2. *)
Definition p_open (f : string) : proc bool :=
  access (Done false) [] (fun d => match d f with Some _ => true | None => false end).

(** update_ns.py:319-327 [main] *)
Definition p_ns_update (from_id to_id : string) (t : tree) : proc tree :=
  p_bind (p_namespace_list from_id) (fun from_ns =>
  p_bind (p_namespace_list to_id) (fun to_ns =>
  match update_from_lists from_ns to_ns t with
  | Err e => p_raise e
  | Ok t' => p_ret (special_case_version_update to_id t')
  end)).

(** update_ns.py:343-361: the text is parsed, the document updated and written
    to standard output.  [parse]: what lxml's parser makes of a text; [serialise]:
    what [tree.write] makes of a tree, pretty-printed or not. *)
Definition p_ns_script (parse : string -> option tree) (serialise : bool -> tree -> string) (c : ns_command) (text : string) : proc finish :=
  match parse text with
  | None => p_raise XMLSyntaxError
  | Some t =>
      p_bind (p_ns_update (n_from c) (n_to c) t) (fun t' =>
      p_bind (p_each (fun b => does (Print (Byte b))) (list_ascii_of_string (serialise (n_pretty c) t'))) (fun _ =>
      p_ret (Status 0)))
  end.

(** update_ns.py:330-361: the main block.  [stdin]: what can be read from
    standard input. *)
Definition p_ns_main (parse : string -> option tree) (serialise : bool -> tree -> string) (stdin : string) (c : ns_command) : proc finish :=
  match source_file c with
  | Some f =>
      p_bind (p_open f) (fun opened =>
      if opened
      then p_bind (read_file f) (p_ns_script parse serialise c)
      else p_bind (p_complain Message) (fun _ => p_ret (Status 2)))
  | None => p_bind (access RefusedError [] (fun _ => stdin)) (p_ns_script parse serialise c)
  end.

(** A run of the script on the files [d] in the weather [n]. *)
Definition ns_tool (parse : string -> option tree) (serialise : bool -> tree -> string) (stdin : string) (c : ns_command)
  (n : nat -> weather) (d : disk) : finish * world :=
  let '(x, w, _) := p_ns_main parse serialise stdin c n (World d [] 0) (St [] 0 0) in (ended x, w).
