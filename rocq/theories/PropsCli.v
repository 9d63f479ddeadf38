(** * Property theorems: replaced ids, and the command line tool. *)

From Coq Require Import String Ascii List Bool Arith.
From Verif Require Import Str Xml XPath Utils Base Tables Cybox Stix Ramrod Cli Spec SpecCheck SpecUpdate SpecCli Lib Samples Api Kept Terminal Output.
Import ListNotations.
Local Open Scope string_scope.
Local Open Scope list_scope.

(** ** C42: the reported replacement ids are in the result *)

(** Every node listed under a replaced id is in memory after the update and has
    an id made by the id function from the replaced one; no two of them come
    from the same call.  [remapped_ids r] is the reported dictionary. *)
Theorem C42_replaced_ids : forall o d from to opts force s t r s',
  wf_state s -> denotes s d t -> ramrod_update o d from to opts force s = (Ok r, s') ->
  renumbering (new_id_func (or_default o opts)) s s' (remapped_ids r) /\ coll_dict (r_remapped r) = remapped_ids r.
Proof. intros o d from to opts force s t r s' W D E. destruct (ramrod_renumbers _ _ _ _ _ _ _ _ _ _ W D E) as (_ & A & B & _). auto. Qed.
Print Assumptions C42_replaced_ids.

Theorem C42_stix_replaced_ids : forall o d from to opts force s t r s',
  wf_state s -> denotes s d t -> stix_update o d from to opts force s = (Ok r, s') ->
  renumbering (new_id_func (or_default o opts)) s s' (remapped_ids r).
Proof. intros o d from to opts force s t r s' W D E. destruct (stix_renumbers _ _ _ _ _ _ _ _ _ _ W D E) as (_ & A & _). auto. Qed.
Print Assumptions C42_stix_replaced_ids.

Theorem C42_cybox_replaced_ids : forall o d from to opts force s t r s',
  wf_state s -> denotes s d t -> cybox_update o d from to opts force s = (Ok r, s') ->
  renumbering (new_id_func (or_default o opts)) s s' (remapped_ids r).
Proof. intros o d from to opts force s t r s' W D E. destruct (cybox_renumbers _ _ _ _ _ _ _ _ _ _ W D E) as (_ & A & _). auto. Qed.
Print Assumptions C42_cybox_replaced_ids.

(** When the id function never repeats itself, the new ids are pairwise
    different: a replaced id is shared no longer. *)
Theorem C42_new_ids_differ : forall o d from to opts force s t r s' old1 l1 i old2 l2 j v w,
  wf_state s -> denotes s d t -> ramrod_update o d from to opts force s = (Ok r, s') ->
  (forall k1 k2 a b, new_id_func (or_default o opts) k1 a = new_id_func (or_default o opts) k2 b -> k1 = k2) ->
  In (old1, l1) (remapped_ids r) -> In i l1 -> In (old2, l2) (remapped_ids r) -> In j l2 -> i <> j ->
  holds_id s' i v -> holds_id s' j w -> v <> w.
Proof. exact new_ids_differ. Qed.
Print Assumptions C42_new_ids_differ.

(** The removed nodes that are reported are in memory, each the root of its own
    tree, so that their names and content can be read. *)
Theorem C42_removed_readable : forall o d from to opts force s t r s',
  wf_state s -> denotes s d t -> ramrod_update o d from to opts force s = (Ok r, s') ->
  Forall (fun i => exists e, document s' i e) (removed_nodes r).
Proof. intros o d from to opts force s t r s' W D E. destruct (ramrod_renumbers _ _ _ _ _ _ _ _ _ _ W D E) as (_ & _ & _ & A). exact A. Qed.
Print Assumptions C42_removed_readable.

(** A forced update that removes two nodes and replaces a shared id. *)
Example C42_case : exists r s',
  ramrod_update o0 (DElem 0) None None None true (memory [pkg_1_0_1_bad]) = (Ok r, s') /\
  map fst (remapped_ids r) = ["ex:t1"] /\ length (flat_map snd (remapped_ids r)) = 2 /\ length (removed_nodes r) = 2.
Proof. eexists. eexists. vm_compute. repeat split; reflexivity. Qed.

(** ** C37: exit status and output *)

(** For every command line and input file: the status is 0 exactly when the file
    exists and the update it stands for succeeds.  Then exactly the updated
    document is written where it was asked for, the names of the removed nodes
    and the replaced ids with their replacements are printed on standard
    output.  Otherwise the status is 1, and no document and no report is
    written. *)
Theorem C37_exit_status : forall o a opts s en c s',
  wf_state s -> meant o a opts -> cli_main o a s = (en, c, s') ->
  (exit_status en = 0 <-> a_exists a = true /\ exists r s1, update_of o a opts s = (Ok r, s1)) /\
  (forall r s1, a_exists a = true -> update_of o a opts s = (Ok r, s1) ->
     s' = s1 /\ stderr c = [] /\
     exists removed remapped, tells_removed s1 r removed /\ tells_remapped s1 r remapped /\
       delivered a (r_document r) c (removed ++ remapped)) /\
  (exit_status en <> 0 ->
     exit_status en = 1 /\ outfile c = None /\ (stdout c = [] \/ stdout c = [DuplicatesHeading])).
Proof. exact cli_status. Qed.
Print Assumptions C37_exit_status.

(** Every command line stands for some options. *)
Theorem C37_options_exist : forall o a, exists opts, meant o a opts.
Proof. intros o a. exists (cli_options o a). apply options_meant. Qed.
Print Assumptions C37_options_exist.

(** ** C43: what is said about a failure *)

(** The tool ends by itself with status 1 exactly on the documented errors, and
    explains them; any other exception of the update, and a missing input file,
    end in a traceback. *)
Theorem C43_failure_explained : forall o a opts s en c s',
  wf_state s -> meant o a opts -> cli_main o a s = (en, c, s') ->
  (en = Exit 1 <-> a_exists a = true /\ exists e, fst (update_of o a opts s) = Err e /\ documented e) /\
  (forall e s1, a_exists a = true -> update_of o a opts s = (Err e, s1) ->
     s' = s1 /\ (documented e -> explains s1 e (stdout c) (stderr c)) /\
     (~ documented e -> en = Traceback e /\ stdout c = [] /\ stderr c = [])) /\
  (a_exists a = false -> en = Traceback ValueError).
Proof. exact cli_caught. Qed.
Print Assumptions C43_failure_explained.

(** Every node named in a documented error of an update is in memory when the
    error arrives, so a caller can inspect it. *)
Theorem C43_error_nodes_readable : forall o d from to opts force s t e s',
  wf_state s -> denotes s d t -> ramrod_update o d from to opts force s = (Err e, s') ->
  match e with
  | UpdateError disallowed duplicates =>
      (forall l i, disallowed = Some l -> In i l -> exists q, called s' i q) /\
      (forall dd k l i, duplicates = Some dd -> In (k, l) dd -> In i l -> exists q, called s' i q)
  | InvalidVersionError (Some i) _ _ => exists q, called s' i q
  | _ => True
  end.
Proof. exact error_nodes. Qed.
Print Assumptions C43_error_nodes_readable.

Definition cmd (t : tree) (from to : option string) (force : bool) : args := Args true (Some t) None from to false false force.
Definition cmd_to (f : string) (t : tree) (force : bool) : args := Args true (Some t) (Some f) None None false false force.
Definition empty : st := St [] 0 0.

(** A run, with the document in place of its root. *)
Definition run_of (a : args) : ending * screen := fst (cli_main o0 a empty).

Lemma empty_wf : wf_state empty.
Proof. apply (memory_wf []). Qed.

(** Success without and with reports. *)
Example C37_case_plain : exists root, run_of (cmd pkg_1_1 None None false) = (Exit 0, Screen [Document root] [] None).
Proof. eexists. vm_compute. reflexivity. Qed.
Definition forced_report : list line :=
  [RemovedHeading; Removed (qn TTP_NS "Malware_Instance"); Removed (qn TTP_NS "Malware");
   RemappedHeading; Remapped "ex:t1" ["ex:t1-cleaned-u"; "ex:t1-cleaned-u"]].
Example C37_case_forced : exists root, run_of (cmd pkg_1_0_1_bad None None true) = (Exit 0, Screen (Document root :: forced_report) [] None).
Proof. eexists. vm_compute. reflexivity. Qed.
Example C37_case_file : exists root, run_of (cmd_to "out.xml" pkg_1_0_1_bad true) = (Exit 0, Screen forced_report [] (Some ("out.xml", root))).
Proof. eexists. vm_compute. reflexivity. Qed.
(** Failures: untranslatable content, an unknown target, a missing file, a file
    that is not XML. *)
Example C43_case_untranslatable : run_of (cmd pkg_1_0_1_bad None None false) =
  (Exit 1, Screen [DuplicatesHeading]
    [Message; UntranslatableHeading; Untranslatable (qn TTP_NS "Malware_Instance"); Untranslatable (qn TTP_NS "Malware"); Duplicate "ex:t1"] None).
Proof. vm_compute. reflexivity. Qed.
Example C43_case_target : run_of (cmd pkg_1_1 None (Some "9.9") false) = (Exit 1, Screen [] [Message] None).
Proof. vm_compute. reflexivity. Qed.
Example C43_case_missing : run_of (Args false None None None None false false false) = (Traceback ValueError, blank_screen).
Proof. vm_compute. reflexivity. Qed.
Example C43_case_unparsable : run_of (Args true None None None None false false false) = (Traceback XMLSyntaxError, blank_screen).
Proof. vm_compute. reflexivity. Qed.

(** A version error does not always name the node with the wrong version:
    nothing is said about one that has no child nodes. *)
Definition bad_observables (ks : list tree) : tree :=
  package "1.0.1" [el (qn STIX_NS "Observables") [] [(lq "cybox_major_version", "3"); (lq "cybox_minor_version", "0")] None ks].
Example C43_case_version : run_of (cmd (bad_observables [comment "c"]) None None false) =
  (Exit 1, Screen [] [Message; BadNode (qn STIX_NS "Observables"); Expected "2.0.1"; Found "3.0"] None).
Proof. vm_compute. reflexivity. Qed.
Theorem C43_node_always_named_refuted : ~ (forall o a opts s en c s' i expected found s1,
  wf_state s -> meant o a opts -> cli_main o a s = (en, c, s') -> a_exists a = true ->
  update_of o a opts s = (Err (InvalidVersionError (Some i) expected found), s1) -> exists q, In (BadNode q) (stderr c)).
Proof.
  intro H. set (a := cmd (bad_observables []) None None false).
  destruct (H o0 a (cli_options o0 a) empty (fst (fst (cli_main o0 a empty))) (snd (fst (cli_main o0 a empty))) (snd (cli_main o0 a empty)) 3 (Some "2.0.1") (Some "3.0")
    (snd (update_of o0 a (cli_options o0 a) empty)) empty_wf (options_meant o0 a)) as (q & I); try (vm_compute; reflexivity).
  vm_compute in I. intuition discriminate.
Qed.
Print Assumptions C43_node_always_named_refuted.

(** Its name is printed exactly when it has child nodes. *)
Theorem C43_node_named_partial : forall o a opts s en c s' i expected found s1,
  wf_state s -> meant o a opts -> cli_main o a s = (en, c, s') -> a_exists a = true ->
  update_of o a opts s = (Err (InvalidVersionError (Some i) expected found), s1) ->
  exists anc x, node_at s1 i anc x /\ forall q, In (BadNode q) (stderr c) <-> kids x <> [] /\ q = h_tag (head x).
Proof. exact node_named. Qed.
Print Assumptions C43_node_named_partial.

(** ** C49: what goes to standard output *)

(** Without force: standard output is the document and nothing else, or empty
    when the document goes to a file. *)
Theorem C49_unforced_output : forall o a opts s en c s',
  wf_state s -> meant o a opts -> cli_main o a s = (en, c, s') -> a_force a = false -> exit_status en = 0 ->
  exists r, fst (update_of o a opts s) = Ok r /\
    match given (a_outfile a) with
    | Some f => outfile c = Some (f, r_document r) /\ stdout c = []
    | None => outfile c = None /\ stdout c = [Document (r_document r)]
    end.
Proof. exact unforced_output. Qed.
Print Assumptions C49_unforced_output.

(** An output file is written exactly on success, under the given name, with
    the updated document; then no document is on standard output. *)
Theorem C49_output_file : forall o a opts s en c s' f,
  wf_state s -> meant o a opts -> cli_main o a s = (en, c, s') -> given (a_outfile a) = Some f ->
  (forall root, ~ In (Document root) (stdout c)) /\
  (forall g root, outfile c = Some (g, root) <->
     g = f /\ exists r, a_exists a = true /\ fst (update_of o a opts s) = Ok r /\ root = r_document r).
Proof. exact file_output. Qed.
Print Assumptions C49_output_file.

(** With force the claim is false: the reports follow the document on standard
    output, exactly when there is something to report. *)
Theorem C49_output_alone_partial : forall o a opts s en c s' r s1,
  wf_state s -> meant o a opts -> cli_main o a s = (en, c, s') ->
  a_exists a = true -> update_of o a opts s = (Ok r, s1) -> given (a_outfile a) = None ->
  (stdout c = [Document (r_document r)] <-> removed_nodes r = [] /\ remapped_ids r = []).
Proof. exact stdout_alone. Qed.
Print Assumptions C49_output_alone_partial.

Theorem C49_output_alone_refuted : exists a root l, given (a_outfile a) = None /\
  run_of a = (Exit 0, Screen (Document root :: l) [] None) /\ l <> [].
Proof. exists (cmd pkg_1_0_1_bad None None true). do 2 eexists. split; [reflexivity|]. split; [vm_compute; reflexivity|discriminate]. Qed.
Print Assumptions C49_output_alone_refuted.

(** A failure leaves one line on standard output: the heading of the list of
    shared ids, which itself is on standard error. *)
Theorem C49_failure_silent_refuted : exists a, exit_status (fst (run_of a)) = 1 /\ stdout (snd (run_of a)) <> [].
Proof. exists (cmd pkg_1_0_1_bad None None false). split; vm_compute; [reflexivity|discriminate]. Qed.
Print Assumptions C49_failure_silent_refuted.
