(** * Several runs of the command line tools at the same time, on the same files:
      the programs of Disk.v and DiskNs.v once more, as trees of accesses, so
      that the accesses of other processes can come between any two of them.
      Simplified: a file is read whole in one access and written byte by byte,
      at its end; what two processes do that write the same file at the same
      time is not meant to be right here, since each has a position of its own.
      No proofs in this file. *)

From Coq Require Import String Ascii List Bool Arith.
From Verif Require Import Str Xml XPath Utils Base Tables UpdateNs Cybox Stix Ramrod Cli Disk DiskNs.
Import ListNotations.
Local Open Scope string_scope.
Local Open Scope list_scope.

(** What a process has still to do: nothing, or an access with these effects;
    then how it goes on with the files it finds, or if it is refused. *)
Inductive act (R : Type) :=
| Stop (r : R)
| Call (effects : list effect) (ok : disk -> act R) (no : act R).
Arguments Stop {R} r.
Arguments Call {R} effects ok no.

Fixpoint after {R S} (a : act R) (k : R -> act S) : act S :=
  match a with
  | Stop r => k r
  | Call l ok no => Call l (fun d => after (ok d) k) (after no k)
  end.

(** Programs; each process has a memory of its own. *)
Definition job A := st -> act (outcome A * st).

Definition j_ret {A} (x : A) : job A := fun s => Stop (Done x, s).
Definition j_raise {A} (e : exn) : job A := fun s => Stop (Raised e, s).
Definition j_refused {A} : job A := fun s => Stop (RefusedError, s).
Definition j_bind {A B} (m : job A) (k : A -> job B) : job B := fun s =>
  after (m s) (fun r =>
    match r with
    | (Done x, s') => k x s'
    | (Raised e, s') => Stop (Raised e, s')
    | (RefusedError, s') => Stop (RefusedError, s')
    | (Killed, s') => Stop (Killed, s')
    end).
Definition j_run {A} (m : M A) : job A := fun s =>
  match m s with
  | (Ok x, s') => Stop (Done x, s')
  | (Err e, s') => Stop (Raised e, s')
  end.
Fixpoint j_each {A} (f : A -> job unit) (l : list A) : job unit :=
  match l with
  | [] => j_ret tt
  | x :: l' => j_bind (f x) (fun _ => j_each f l')
  end.
Definition j_access {A} (refused : outcome A) (effects : list effect) (value : disk -> A) : job A := fun s =>
  Call effects (fun d => Stop (Done (value d), s)) (Stop (refused, s)).

(** ramrod_update.py and what it uses, as in Disk.v *)

Definition j_exists (f : string) : job bool :=
  j_access (Done false) [] (fun d => match d f with Some _ => true | None => false end).

(** utils.py:185-189 *)
Definition j_read (f : string) : job string :=
  j_bind (j_access RefusedError [] (fun d => d f)) (fun x =>
  match x with
  | Some text => j_ret text
  | None => j_refused
  end).

Definition j_does (e : effect) : job unit := j_access RefusedError [e] (fun _ => tt).
Definition j_close : job unit := j_access RefusedError [] (fun _ => tt).
Definition j_say (l : line) : job unit := j_does (Print (Text l)).
Definition j_complain (l : line) : job unit := j_does (Complain l).

(** ramrod_update.py:39-54 [_write_xml] *)
Definition j_write_xml (serialise : tree -> string) (root : nat) (outfn : option string) : job unit :=
  j_bind (j_run (deref root)) (fun c =>
  let bytes := list_ascii_of_string (serialise (erase (snd c))) in
  match outfn with
  | Some (String a f) =>
      j_bind (j_does (Create (String a f))) (fun _ =>
      j_bind (j_each (fun b => j_does (Append (String a f) b)) bytes) (fun _ =>
      j_close))
  | _ => j_each (fun b => j_does (Print (Byte b))) bytes
  end).

(** ramrod_update.py:57-77 [_print_update_error] *)
Definition j_print_update_error (disallowed : option (list nat)) (duplicates : option (dict (list nat))) : job unit :=
  j_bind (j_complain Message) (fun _ =>
  j_bind (match disallowed with
          | Some (i :: l) =>
              j_bind (j_complain UntranslatableHeading) (fun _ =>
              j_each (fun i => j_bind (j_run (get_hdr i)) (fun h => j_complain (Untranslatable (h_tag h)))) (i :: l))
          | _ => j_ret tt
          end) (fun _ =>
  match duplicates with
  | Some (kv :: d) =>
      j_bind (j_say DuplicatesHeading) (fun _ =>
      j_each (fun kv : string * list nat => j_bind (j_run (map_m get_hdr (snd kv))) (fun _ => j_complain (Duplicate (fst kv)))) (kv :: d))
  | _ => j_ret tt
  end)).

Definition j_complain_if (f : string -> line) (x : option string) : job unit :=
  match x with
  | Some (String c v) => j_complain (f (String c v))
  | _ => j_ret tt
  end.

(** ramrod_update.py:80-99 [_print_invalid_version_error] *)
Definition j_print_invalid_version_error (node : option nat) (expected found : option string) : job unit :=
  j_bind (j_complain Message) (fun _ =>
  j_bind (match node with
          | Some i => j_bind (j_run (deref i)) (fun c =>
                      match kids (snd c) with
                      | [] => j_ret tt
                      | _ => j_complain (BadNode (h_tag (head (snd c))))
                      end)
          | None => j_ret tt
          end) (fun _ =>
  j_bind (j_complain_if Expected expected) (fun _ =>
  j_complain_if Found found))).

(** ramrod_update.py:111-126 [_write_removed] *)
Definition j_write_removed (removed : list nat) : job unit :=
  match removed with
  | [] => j_ret tt
  | i :: l => j_bind (j_say RemovedHeading) (fun _ =>
              j_each (fun i => j_bind (j_run (get_hdr i)) (fun h => j_say (Removed (h_tag h)))) (i :: l))
  end.

(** ramrod_update.py:129-145 [_write_remapped_ids] *)
Definition j_write_remapped (remapped : dict (list nat)) : job unit :=
  match remapped with
  | [] => j_ret tt
  | kv :: d => j_bind (j_say RemappedHeading) (fun _ =>
               j_each (fun kv : string * list nat => j_bind (j_run (current_ids (snd kv))) (fun news => j_say (Remapped (fst kv) news))) (kv :: d))
  end.

(** ramrod_update.py:232-243 [_validate_args] *)
Definition j_validate_args (c : command) : job unit :=
  j_bind (j_exists (c_infile c)) (fun there =>
  if there then j_ret tt else j_raise ValueError).

(** ramrod_update.py:249-268 *)
Definition j_main_body (parse : string -> option tree) (serialise : tree -> string) (o : oracle) (c : command) : job unit :=
  j_bind (j_validate_args c) (fun _ =>
  j_bind (j_read (c_infile c)) (fun text =>
  let a := args_of parse c (Some text) in
  let opts := cli_options o a in
  j_bind (j_run (ramrod_update o (DFile (parse text)) (c_from c) (c_to c) (Some opts) (c_force c))) (fun updated =>
  j_bind (j_write_xml serialise (r_document updated) (c_outfile c)) (fun _ =>
  j_bind (j_write_removed (coll_items (r_removed updated))) (fun _ =>
  j_write_remapped (coll_dict (r_remapped updated))))))).

(** ramrod_update.py:270-278 *)
Definition j_main_handler (e : exn) : job finish :=
  match e with
  | UpdateError disallowed duplicates =>
      j_bind (j_print_update_error disallowed duplicates) (fun _ => j_ret (Status 1))
  | InvalidVersionError node expected found =>
      j_bind (j_print_invalid_version_error node expected found) (fun _ => j_ret (Status 1))
  | UnknownVersionError =>
      j_bind (j_complain Message) (fun _ => j_ret (Status 1))
  | _ => j_ret (Uncaught e)
  end.

(** ramrod_update.py:245-278 [main] *)
Definition j_main (parse : string -> option tree) (serialise : tree -> string) (o : oracle) (c : command) : job finish := fun s =>
  after (j_main_body parse serialise o c s) (fun r =>
    match r with
    | (Done _, s1) => Stop (Done (Status 0), s1)
    | (Raised e, s1) => j_main_handler e s1
    | (RefusedError, s1) => Stop (RefusedError, s1)
    | (Killed, s1) => Stop (Killed, s1)
    end).

(** update_ns.py:244-266 [get_namespace_list] *)
Definition j_namespace_list (id_ : string) : job (list string) :=
  if String.eqb id_ "stix1.2" then j_ret STIX_NS_1_2
  else if String.eqb id_ "stix1.2.1" then j_ret STIX_NS_1_2_1
  else j_bind (j_read id_) (fun text => j_ret (namespace_lines (lines_of text))).

(** update_ns.py:319-327 [main] *)
Definition j_ns_update (from_id to_id : string) (t : tree) : job tree :=
  j_bind (j_namespace_list from_id) (fun from_ns =>
  j_bind (j_namespace_list to_id) (fun to_ns =>
  match update_from_lists from_ns to_ns t with
  | Err e => j_raise e
  | Ok t' => j_ret (special_case_version_update to_id t')
  end)).

(** update_ns.py:343-361 *)
Definition j_ns_script (parse : string -> option tree) (serialise : bool -> tree -> string) (c : ns_command) (text : string) : job finish :=
  match parse text with
  | None => j_raise XMLSyntaxError
  | Some t =>
      j_bind (j_ns_update (n_from c) (n_to c) t) (fun t' =>
      j_bind (j_each (fun b => j_does (Print (Byte b))) (list_ascii_of_string (serialise (n_pretty c) t'))) (fun _ =>
      j_ret (Status 0)))
  end.

(** update_ns.py:297-305, 330-361 *)
Definition j_ns_main (parse : string -> option tree) (serialise : bool -> tree -> string) (stdin : string) (c : ns_command) : job finish :=
  match source_file c with
  | Some f =>
      j_bind (j_exists f) (fun opened =>
      if opened
      then j_bind (j_read f) (j_ns_script parse serialise c)
      else j_bind (j_complain Message) (fun _ => j_ret (Status 2)))
  | None => j_bind (j_access RefusedError [] (fun _ => stdin)) (j_ns_script parse serialise c)
  end.

(** A process: what it has still to do, and what it has done. *)
Record process := Process { p_left : act finish; p_done : list effect }.

Definition ends {A} (r : outcome finish * A) : act finish := Stop (ended (fst r)).

Definition start_tool (parse : string -> option tree) (serialise : tree -> string) (o : oracle) (c : command) (s : st) : process :=
  Process (after (j_main parse serialise o c s) ends) [].
Definition start_ns (parse : string -> option tree) (serialise : bool -> tree -> string) (stdin : string) (c : ns_command) : process :=
  Process (after (j_ns_main parse serialise stdin c (St [] 0 0)) ends) [].

(** The processes that run, and the files they share. *)
Record machine := Machine { m_disk : disk; m_procs : list process }.

Fixpoint put {A} (i : nat) (x : A) (l : list A) : list A :=
  match l, i with
  | [], _ => []
  | _ :: l', 0 => x :: l'
  | y :: l', S i' => y :: put i' x l'
  end.

(** The next access is that of process [i], in the weather [n]. *)
Definition advance (i : nat) (n : weather) (m : machine) : machine :=
  match nth_error (m_procs m) i with
  | Some (Process (Call l ok no) done) =>
      match n with
      | Fine => Machine (fold_left apply l (m_disk m)) (put i (Process (ok (m_disk m)) (done ++ l)) (m_procs m))
      | Refused => Machine (m_disk m) (put i (Process no done) (m_procs m))
      | Struck => Machine (m_disk m) (put i (Process (Stop Dead) done) (m_procs m))
      end
  | _ => m
  end.

(** A schedule: whose access is next, and what becomes of it. *)
Definition play (schedule : list (nat * weather)) (m : machine) : machine :=
  fold_left (fun m c => advance (fst c) (snd c) m) schedule m.
