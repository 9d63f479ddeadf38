(** * Property theorems: the command line tool, killed or refused at any point. *)

From Coq Require Import String Ascii List Bool Arith.
From Verif Require Import Str Xml XPath Utils Base Tables Cybox Stix Ramrod Cli Spec SpecCheck SpecUpdate SpecCli Lib Samples Api Terminal Again Disk SpecDisk Disks.
Import ListNotations.
Local Open Scope string_scope.
Local Open Scope list_scope.

(** ** C67: runs that are cut short *)

(** In every theorem [n] says of each access to the outside whether it
    succeeds, is refused, or is where the process is killed; [parse] and
    [serialise] are what the XML library makes of texts and trees. *)

(** The tool is the one of Cli.v, to which C37, C43 and C49 apply: when nothing
    goes wrong outside, both end in the same way and write the same. *)
Theorem C67_undisturbed : forall parse serialise o c d s fin w en sc s',
  wf_state s -> tool parse serialise o c clear d s = (fin, w) -> cli_main o (arguments parse c d) s = (en, sc, s') ->
  fin = finish_of en /\ complained w = stderr sc /\ shows serialise s' (stdout sc) (printed w) /\
  (outfile sc = None -> untouched d (now w)) /\
  (forall f root, outfile sc = Some (f, root) ->
     exists e, document s' root e /\ forall g, now w g = if String.eqb g f then Some (serialise e) else d g).
Proof. exact undisturbed. Qed.
Print Assumptions C67_undisturbed.

(** At no point is any file touched except the one named as output. *)
Theorem C67_other_files : forall parse serialise o c n d s fin w f,
  wf_state s -> tool parse serialise o c n d s = (fin, w) -> given (c_outfile c) <> Some f -> now w f = d f.
Proof. intros parse z o c n d s fin w f W E. exact (other_files parse z o c n d s fin w W E f). Qed.
Print Assumptions C67_other_files.

(** When the update fails no file is touched, not even the output file, no byte
    of a document appears, and the status is not 0. *)
Theorem C67_failed_update : forall parse serialise o c n d s fin w,
  wf_state s -> tool parse serialise o c n d s = (fin, w) -> (forall r s1 e, ~ updates parse o c d s r s1 e) ->
  untouched d (now w) /\ fin <> Status 0 /\ forall b, ~ In (Byte b) (printed w).
Proof. intros parse z o c n d s fin w W E. exact (failed_update parse z o c n d s fin w W E). Qed.
Print Assumptions C67_failed_update.

(** The output file is as it was before the run, or holds a beginning of the
    updated document. *)
Theorem C67_output_file : forall parse serialise o c n d s fin w f,
  wf_state s -> tool parse serialise o c n d s = (fin, w) -> given (c_outfile c) = Some f ->
  now w f = d f \/ exists r s1 e p, updates parse o c d s r s1 e /\ now w f = Some p /\ begins_text p (serialise e).
Proof. intros parse z o c n d s fin w f W E. exact (output_file parse z o c n d s fin w W E f). Qed.
Print Assumptions C67_output_file.

(** Status 0 is only given when the whole document is where it should be, and
    all reports have been printed after it. *)
Theorem C67_success : forall parse serialise o c n d s fin w,
  wf_state s -> tool parse serialise o c n d s = (fin, w) -> fin = Status 0 ->
  exists r s1 e removed remapped, updates parse o c d s r s1 e /\ tells_removed s1 r removed /\ tells_remapped s1 r remapped /\
    complained w = [] /\
    match given (c_outfile c) with
    | Some f => now w f = Some (serialise e) /\ printed w = map Text (removed ++ remapped)
    | None => printed w = bytes (serialise e) ++ map Text (removed ++ remapped)
    end.
Proof. intros parse z o c n d s fin w W E. exact (success parse z o c n d s fin w W E). Qed.
Print Assumptions C67_success.

(** Status 1 is only given after a documented error has been explained in full. *)
Theorem C67_explained : forall parse serialise o c n d s fin w,
  wf_state s -> tool parse serialise o c n d s = (fin, w) -> fin = Status 1 ->
  exists e s1 opts lo, a_exists (arguments parse c d) = true /\ meant o (arguments parse c d) opts /\
    update_of o (arguments parse c d) opts s = (Err e, s1) /\ documented e /\ explains s1 e lo (complained w) /\ printed w = map Text lo.
Proof. intros parse z o c n d s fin w W E. exact (explained parse z o c n d s fin w W E). Qed.
Print Assumptions C67_explained.

(** Whoever sees a line of a report can rely on the document: it has been
    written completely. *)
Theorem C67_reports_last : forall parse serialise o c n d s fin w l r s1 e,
  wf_state s -> tool parse serialise o c n d s = (fin, w) -> updates parse o c d s r s1 e -> In (Text l) (printed w) ->
  match given (c_outfile c) with
  | Some f => now w f = Some (serialise e)
  | None => begins (bytes (serialise e)) (printed w)
  end.
Proof. intros parse z o c n d s fin w l r s1 e W E. exact (reports_last parse z o c n d s fin w W E l r s1 e). Qed.
Print Assumptions C67_reports_last.

(** A run depends on no other file than its input. *)
Theorem C67_only_the_input_matters : forall parse serialise o c n d d' s fin w fin' w',
  d' (c_infile c) = d (c_infile c) ->
  tool parse serialise o c n d s = (fin, w) -> tool parse serialise o c n d' s = (fin', w') ->
  fin' = fin /\ printed w' = printed w /\ complained w' = complained w.
Proof.
  intros parse z o c n d d' s fin w fin' w' I E E'. destruct (same_input parse z o c n d d' s fin w I E) as [Q _].
  rewrite E' in Q. injection Q as -> ->. repeat split.
Qed.
Print Assumptions C67_only_the_input_matters.

(** After a run that was cut short it is enough to run the tool again: unless
    the input is its own output, a second run ends, prints and leaves the files
    as the first would have. *)
Theorem C67_run_again : forall parse serialise o c n d s fin w fin1 w1 fin2 w2,
  wf_state s -> given (c_outfile c) <> Some (c_infile c) ->
  tool parse serialise o c n d s = (fin, w) ->
  tool parse serialise o c clear d s = (fin1, w1) ->
  tool parse serialise o c clear (now w) s = (fin2, w2) ->
  fin2 = fin1 /\ printed w2 = printed w1 /\ complained w2 = complained w1 /\ untouched (now w1) (now w2).
Proof.
  intros parse z o c n d s fin w fin1 w1 fin2 w2 W N E E1 E2.
  destruct (run_again parse z o c n d s fin w fin1 w1 fin2 w2 W N E E1 E2) as (A & B & C).
  unfold printed, complained. rewrite B. repeat split; assumption.
Qed.
Print Assumptions C67_run_again.

(** A killed process can leave any beginning of the document behind, down to an
    empty file. *)
Theorem C67_any_beginning : forall parse serialise o c d s r s1 e f p,
  wf_state s -> updates parse o c d s r s1 e -> given (c_outfile c) = Some f -> begins_text p (serialise e) ->
  exists n w, tool parse serialise o c n d s = (Dead, w) /\ now w f = Some p.
Proof. exact any_beginning. Qed.
Print Assumptions C67_any_beginning.

(** ** A case *)

(** A library for two texts. *)
Definition parse0 (x : string) : option tree := if String.eqb x "old" then Some pkg_1_0_1_bad else None.
Definition serialise0 (t : tree) : string := q_local (h_tag (head t)).
Definition disk0 : disk := fun f => if String.eqb f "in.xml" then Some "old" else if String.eqb f "out.xml" then Some "kept" else None.
Definition to_file (f : string) (force : bool) : command := Command "in.xml" (Some f) None None false false force.
Notation run0 c n := (tool parse0 serialise0 o0 c n disk0 (memory [])).

(** It ends with status 0, fails with status 1, is killed while it writes, is
    refused the output file. *)
Example C67_case_written : let (fin, w) := run0 (to_file "out.xml" true) clear in
  fin = Status 0 /\ now w "out.xml" = Some "STIX_Package" /\ now w "in.xml" = Some "old" /\ List.length (printed w) = 5.
Proof. vm_compute. repeat split. Qed.
Example C67_case_failed : let (fin, w) := run0 (to_file "out.xml" false) clear in
  fin = Status 1 /\ now w "out.xml" = Some "kept" /\ List.length (complained w) = 5.
Proof. vm_compute. repeat split. Qed.
Example C67_case_killed : let (fin, w) := run0 (to_file "out.xml" true) (fun i => if Nat.eqb i 7 then Struck else Fine) in
  fin = Dead /\ now w "out.xml" = Some "STIX".
Proof. vm_compute. repeat split. Qed.
Example C67_case_refused : let (fin, w) := run0 (to_file "out.xml" true) (fun i => if Nat.eqb i 2 then Refused else Fine) in
  fin = UncaughtRefusal /\ now w "out.xml" = Some "kept".
Proof. vm_compute. repeat split. Qed.

Lemma case_runs f : exists r s', ramrod_update o0 (DFile (Some pkg_1_0_1_bad)) None None (Some (cli_options o0 (args_of parse0 (to_file f true) (Some "old")))) true (memory []) = (Ok r, s').
Proof. eexists. eexists. vm_compute. reflexivity. Qed.

Lemma case_updates f : exists r s1 e, updates parse0 o0 (to_file f true) disk0 (memory []) r s1 e.
Proof.
  destruct (case_runs f) as (r & s1 & U).
  destruct (ramrod_root_local _ _ _ _ _ _ _ pkg_1_0_1_bad _ _ (memory_wf []) (eq_refl : denotes (memory []) (DFile (Some pkg_1_0_1_bad)) pkg_1_0_1_bad) U) as (e & De & _).
  exists r, s1, e. split; [reflexivity|]. split; [|exact De].
  exists (cli_options o0 (arguments parse0 (to_file f true) disk0)). split; [apply options_meant|exact U].
Qed.

(** The document is replaced in place when the input is also the output.  One
    might hope that the file then holds the old document or the new one; it can
    be left empty. *)
Theorem C67_in_place_refuted : ~ (forall parse serialise o c n d s fin w,
  wf_state s -> given (c_outfile c) = Some (c_infile c) -> tool parse serialise o c n d s = (fin, w) ->
  now w (c_infile c) = d (c_infile c) \/ exists r s1 e, updates parse o c d s r s1 e /\ now w (c_infile c) = Some (serialise e)).
Proof.
  intro H. destruct (case_updates "in.xml") as (r & s1 & e & U).
  destruct (any_beginning parse0 (fun _ => "new") o0 (to_file "in.xml" true) disk0 (memory []) r s1 e "in.xml" "" (memory_wf []) U eq_refl) as (n & w & E & Q).
  { exists "new". reflexivity. }
  destruct (H parse0 (fun _ => "new") o0 (to_file "in.xml" true) n disk0 (memory []) Dead w (memory_wf []) eq_refl E) as [A|(r' & s' & e' & _ & A)];
    cbn [c_infile to_file] in A; rewrite Q in A; discriminate.
Qed.
Print Assumptions C67_in_place_refuted.
