(** * Property theorems: the namespace script, killed or refused at any point. *)

From Coq Require Import String Ascii List Bool Arith.
From Verif Require Import Str Xml Utils Tables UpdateNs SpecNs Scripts PropsScripts Cli Disk SpecDisk Disks DiskNs SpecDiskNs DisksNs.
Import ListNotations.
Local Open Scope string_scope.
Local Open Scope list_scope.

(** ** C68: the namespace script with its files *)

(** As in C67, [n] says of each access to the outside whether it succeeds, is
    refused, or is where the process is killed; [parse] and [serialise] are what
    the XML library makes of texts and trees. *)

(** No run changes any file. *)
Theorem C68_files_untouched : forall parse serialise stdin c n d fin w,
  ns_tool parse serialise stdin c n d = (fin, w) -> untouched d (now w).
Proof. exact ns_untouched. Qed.
Print Assumptions C68_files_untouched.

(** Standard output is empty or a beginning of the updated document; nothing is
    printed before it is known that the update succeeds. *)
Theorem C68_output : forall parse serialise stdin c n d fin w,
  ns_tool parse serialise stdin c n d = (fin, w) ->
  printed w = [] \/ exists t' p, renames parse c d stdin t' /\ printed w = bytes p /\ begins_text p (serialise (n_pretty c) t').
Proof. exact ns_output. Qed.
Print Assumptions C68_output.

(** Status 0 is only given when the whole document has been printed. *)
Theorem C68_success : forall parse serialise stdin c n d fin w,
  ns_tool parse serialise stdin c n d = (fin, w) -> fin = Status 0 ->
  exists t', renames parse c d stdin t' /\ printed w = bytes (serialise (n_pretty c) t') /\ complained w = [].
Proof. exact ns_success. Qed.
Print Assumptions C68_success.

(** What the other endings mean: status 2, after a message, that there is no
    input file or it could not be opened; a traceback, that the text is not XML,
    a list is missing or the update is impossible, and nothing has been printed;
    otherwise something went wrong outside.  There is no other status. *)
Theorem C68_endings : forall parse serialise stdin c n d fin w,
  ns_tool parse serialise stdin c n d = (fin, w) ->
  match fin with
  | Status 0 => True
  | Status 2 => printed w = [] /\ complained w = [Message] /\
      ((forall text, ~ source c d stdin text) \/ (disturbed n /\ exists f, n_file c = Some f /\ f <> "-"))
  | Status _ => False
  | Uncaught e => hopeless parse c d stdin (Uncaught e) /\ printed w = [] /\ complained w = []
  | UncaughtRefusal => disturbed n \/ (hopeless parse c d stdin UncaughtRefusal /\ printed w = [] /\ complained w = [])
  | Dead => disturbed n
  end.
Proof. exact ns_status. Qed.
Print Assumptions C68_endings.

(** An input file that the system refuses to open is reported like one that is
    not there. *)
Theorem C68_refused_input : forall parse serialise stdin c n d fin w f,
  ns_tool parse serialise stdin c n d = (fin, w) -> n_file c = Some f -> f <> "-" -> n 0 = Refused -> n 1 = Fine ->
  fin = Status 2 /\ printed w = [] /\ complained w = [Message].
Proof.
  intros parse z stdin c n d fin w f E F N W0 W1. revert E. unfold ns_tool, p_ns_main, source_file. rewrite F.
  destruct (String.eqb_spec f "-"); [contradiction|]. rewrite p_bind_run. unfold p_open, access. cbn [w_clock]. rewrite W0.
  rewrite p_bind_run. unfold p_complain, does, access. cbn [w_clock]. rewrite W1. intro H. injection H as <- <-. repeat split.
Qed.
Print Assumptions C68_refused_input.

(** When nothing goes wrong outside, the script does its work if it can be done,
    and otherwise ends in the way that tells why not. *)
Theorem C68_undisturbed : forall parse serialise stdin c d fin w,
  ns_tool parse serialise stdin c clear d = (fin, w) ->
  (forall t', renames parse c d stdin t' -> fin = Status 0 /\ printed w = bytes (serialise (n_pretty c) t')) /\
  (forall fin0, hopeless parse c d stdin fin0 -> fin = fin0 /\ printed w = []).
Proof. exact ns_clear. Qed.
Print Assumptions C68_undisturbed.

(** The two cases exclude each other, there is no third, and the document is
    determined. *)
Theorem C68_cases : forall parse c d stdin,
  ((exists t', renames parse c d stdin t') \/ (exists fin, hopeless parse c d stdin fin)) /\
  (forall t' fin, renames parse c d stdin t' -> ~ hopeless parse c d stdin fin) /\
  (forall t1 t2, renames parse c d stdin t1 -> renames parse c d stdin t2 -> t1 = t2).
Proof.
  intros parse c d stdin. split; [apply hopeful|]. split; intros; [eapply renames_not_hopeless|eapply renames_unique]; eauto.
Qed.
Print Assumptions C68_cases.

(** A document that is printed whole is the one C34 speaks of: all names are
    mapped as the two lists say, line by line, and nothing else changes but the
    version.  It is [merged] (C34_attributes_merged), and [renamed] when no two
    attributes of an element get the same name. *)
Theorem C68_document_renamed : forall parse serialise stdin c n d w text t files A B f,
  ns_tool parse serialise stdin c n d = (Status 0, w) -> source c d stdin text -> parse text = Some t -> parsed t ->
  holds_lines d files -> stands_for files (n_from c) A -> stands_for files (n_to c) B -> Forall usable_ns B ->
  (forall ns, maps_to A B ns (f ns)) ->
  exists t1 t', merged f t t1 /\ (no_clash f t -> renamed f t t1) /\ restamped (n_to c) t1 t' /\
    printed w = bytes (serialise (n_pretty c) t').
Proof.
  intros parse z stdin c n d w text t files A B f E S P Pt H HA HB U M.
  destruct (ns_success parse z stdin c n d _ w E eq_refl) as (t' & (text' & t0 & files' & S' & P' & TA & TB & H' & Q) & Pr & _).
  apply source_is in S, S'. assert (text' = text) by congruence. subst text'. assert (t0 = t) by congruence. subst t0.
  assert (Q' : update_ns_main files (n_from c) (n_to c) t = Ok t').
  { pose proof (updated_is c d files t H TA TB) as V. pose proof (updated_is c d files' t H' TA TB) as V'. rewrite Q in V'. rewrite V' in V.
    destruct (update_ns_main files (n_from c) (n_to c) t); [congruence|discriminate]. }
  apply stands_for_is in HA, HB. subst A B. unfold update_ns_main in Q'.
  destruct (C34_attributes_merged _ _ f t M U Pt) as (t1 & Q1 & Mg). rewrite Q1 in Q'. cbn in Q'. injection Q' as <-.
  exists t1. eexists. split; [exact Mg|]. split; [|split; [apply version_restamped|exact Pr]].
  intro C. exact (proj2 (C34_renamed_exactly _ _ f t t1 M U Pt Q1) C).
Qed.
Print Assumptions C68_document_renamed.

(** Every text has its lines, and only one way to be in lines. *)
Theorem C68_lines_exist_unique : forall text, exists ls, in_lines text ls /\ forall ls', in_lines text ls' -> ls' = ls.
Proof.
  intro text. exists (lines_of text). split; [apply lines_in|]. intros ls' H. apply in_lines_is. exact H.
Qed.
Print Assumptions C68_lines_exist_unique.

(** A run depends on no other files than its input and its two lists; a file
    that has the name of a predefined list is not read. *)
Theorem C68_only_its_files_matter : forall parse serialise stdin c n d d' fin w fin' w',
  (forall f, consulted c f -> d' f = d f) ->
  ns_tool parse serialise stdin c n d = (fin, w) -> ns_tool parse serialise stdin c n d' = (fin', w') ->
  fin' = fin /\ printed w' = printed w /\ complained w' = complained w.
Proof.
  intros parse z stdin c n d d' fin w fin' w' G E E'. rewrite (ns_alike parse z stdin c n d d' fin w G E) in E'.
  injection E' as <- <-. repeat split.
Qed.
Print Assumptions C68_only_its_files_matter.

(** After a run that was cut short it is enough to run the script again. *)
Theorem C68_run_again : forall parse serialise stdin c n d fin w fin1 w1 fin2 w2,
  ns_tool parse serialise stdin c n d = (fin, w) ->
  ns_tool parse serialise stdin c clear d = (fin1, w1) ->
  ns_tool parse serialise stdin c clear (now w) = (fin2, w2) ->
  fin2 = fin1 /\ printed w2 = printed w1 /\ complained w2 = complained w1.
Proof.
  intros parse z stdin c n d fin w fin1 w1 fin2 w2 E E1 E2.
  pose proof (ns_untouched _ _ _ _ _ _ _ _ E) as U. eapply C68_only_its_files_matter; eauto.
Qed.
Print Assumptions C68_run_again.

(** A killed process can have printed any beginning of the document, so its
    output alone does not tell whether it is complete: the status does. *)
Theorem C68_any_beginning : forall parse serialise stdin c d t' p,
  renames parse c d stdin t' -> begins_text p (serialise (n_pretty c) t') -> p <> serialise (n_pretty c) t' ->
  exists n w, ns_tool parse serialise stdin c n d = (Dead, w) /\ printed w = bytes p.
Proof. intros parse z stdin c d t' p. exact (ns_any_beginning parse z c d stdin t' p). Qed.
Print Assumptions C68_any_beginning.

(** ** A case *)

(** A library for one text, and two lists in files, with a comment, a blank line
    and both kinds of line ends. *)
Definition nl : string := String "010" "".
Definition ns_parse0 (x : string) : option tree := if String.eqb x "old" then Some ns_doc else None.
Definition ns_serialise0 (pretty : bool) (t : tree) : string :=
  ((if pretty then "+" else "-") ++ match q_ns (h_tag (head t)) with Some u => u | None => "" end)%string.
Definition ns_disk0 : disk := fun f =>
  if String.eqb f "in.xml" then Some "old"
  else if String.eqb f "bad.xml" then Some "text"
  else if String.eqb f "from.txt" then Some ("# old" ++ nl ++ "urn:a " ++ nl ++ nl ++ "urn:b")%string
  else if String.eqb f "to.txt" then Some ("urn:x" ++ String "013" nl ++ "urn:y" ++ nl)%string
  else if String.eqb f "stix1.2" then Some "urn:z"
  else None.
Notation ns_run0 c n := (ns_tool ns_parse0 ns_serialise0 "old" c n ns_disk0).
Notation ns_file f := (NsCommand "from.txt" "to.txt" false (Some f)).

Example C68_case_file : let (fin, w) := ns_run0 (ns_file "in.xml") clear in fin = Status 0 /\ printed w = bytes "-urn:x".
Proof. vm_compute. repeat split. Qed.
Example C68_case_stdin : let (fin, w) := ns_run0 (NsCommand "from.txt" "to.txt" true (Some "-")) clear in fin = Status 0 /\ printed w = bytes "+urn:x".
Proof. vm_compute. repeat split. Qed.
Example C68_case_missing : let (fin, w) := ns_run0 (ns_file "none.xml") clear in fin = Status 2 /\ printed w = [] /\ complained w = [Message].
Proof. vm_compute. repeat split. Qed.
Example C68_case_refused : let (fin, w) := ns_run0 (ns_file "in.xml") (fun i => if Nat.eqb i 0 then Refused else Fine) in fin = Status 2 /\ complained w = [Message].
Proof. vm_compute. repeat split. Qed.
Example C68_case_not_xml : let (fin, w) := ns_run0 (ns_file "bad.xml") clear in fin = Uncaught XMLSyntaxError /\ printed w = [].
Proof. vm_compute. repeat split. Qed.
Example C68_case_no_list : let (fin, w) := ns_run0 (NsCommand "from.txt" "none.txt" false (Some "in.xml")) clear in fin = UncaughtRefusal /\ printed w = [].
Proof. vm_compute. repeat split. Qed.
Example C68_case_killed : let (fin, w) := ns_run0 (ns_file "in.xml") (fun i => if Nat.eqb i 6 then Struck else Fine) in fin = Dead /\ printed w = bytes "-u".
Proof. vm_compute. repeat split. Qed.

Example C68_case_renames : exists t', renames ns_parse0 (ns_file "in.xml") ns_disk0 "old" t' /\ q_ns (h_tag (head t')) = Some "urn:x".
Proof.
  eexists. split.
  - exists "old", ns_doc, (files_of ns_disk0). split; [eapply sc_file; [reflexivity|discriminate|reflexivity]|].
    split; [reflexivity|]. split; [right; right; eexists; reflexivity|]. split; [right; right; eexists; reflexivity|].
    split; [apply files_hold|vm_compute; reflexivity].
  - reflexivity.
Qed.
