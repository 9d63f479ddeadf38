(** * Words for what a run of the namespace script does to the outside.

    No proofs in this file. *)

From Coq Require Import String Ascii List Bool Arith.
From Verif Require Import Str Xml Utils Tables UpdateNs SpecNs Cli Disk SpecDisk DiskNs.
Import ListNotations.
Local Open Scope string_scope.
Local Open Scope list_scope.

(** The text the script works on. *)
Inductive source (c : ns_command) (d : disk) (stdin : string) : string -> Prop :=
| sc_stdin : n_file c = None \/ n_file c = Some "-" -> source c d stdin stdin
| sc_file f text : n_file c = Some f -> f <> "-" -> d f = Some text -> source c d stdin text.

(** The argument names a predefined list or a file that is there. *)
Definition list_there (d : disk) (id_ : string) : Prop :=
  id_ = "stix1.2" \/ id_ = "stix1.2.1" \/ exists text, d id_ = Some text.

(** A text in lines: it consists of the lines, a line feed or carriage return
    after each but the last. *)
Definition ends_line (c : ascii) : Prop := c = "010"%char \/ c = "013"%char.
Definition one_line (l : string) : Prop := forall a c b, l = (a ++ String c b)%string -> ~ ends_line c.
Inductive in_lines : string -> list string -> Prop :=
| il_last l : one_line l -> in_lines l [l]
| il_more l c x ls : one_line l -> ends_line c -> in_lines x ls -> in_lines (l ++ String c x)%string (l :: ls).

(** The lines of the files of a disk. *)
Definition holds_lines (d : disk) (files : string -> list string) : Prop :=
  forall f text, d f = Some text -> in_lines text (files f).

(** The script can do its work: there is a source and it is XML, both lists are
    there, and the update (the one of C34, with the lists in the files) gives
    the document [t']. *)
Definition renames (parse : string -> option tree) (c : ns_command) (d : disk) (stdin : string) (t' : tree) : Prop :=
  exists text t files, source c d stdin text /\ parse text = Some t /\ list_there d (n_from c) /\ list_there d (n_to c) /\
    holds_lines d files /\ update_ns_main files (n_from c) (n_to c) t = Ok t'.

(** Why it cannot, and how the script ends then when nothing else goes wrong. *)
Inductive hopeless (parse : string -> option tree) (c : ns_command) (d : disk) (stdin : string) : finish -> Prop :=
| hl_source : (forall text, ~ source c d stdin text) -> hopeless parse c d stdin (Status 2)
| hl_parse text : source c d stdin text -> parse text = None -> hopeless parse c d stdin (Uncaught XMLSyntaxError)
| hl_lists text t : source c d stdin text -> parse text = Some t -> ~ (list_there d (n_from c) /\ list_there d (n_to c)) ->
    hopeless parse c d stdin UncaughtRefusal
| hl_update text t files e : source c d stdin text -> parse text = Some t -> list_there d (n_from c) -> list_there d (n_to c) ->
    holds_lines d files -> update_ns_main files (n_from c) (n_to c) t = Err e -> hopeless parse c d stdin (Uncaught e).

(** The name is the input file of the command or one of its lists. *)
Definition consulted (c : ns_command) (f : string) : Prop :=
  (n_file c = Some f /\ f <> "-") \/ ((n_from c = f \/ n_to c = f) /\ f <> "stix1.2" /\ f <> "stix1.2.1").

(** Something goes wrong outside. *)
Definition disturbed (n : nat -> weather) : Prop := exists i, n i <> Fine.
