(** * Property theorems: a program that makes any number of calls. *)

From Coq Require Import String Ascii List Bool Arith NArith.
From Verif Require Import Str Xml XPath Utils Base Tables Cybox Stix Ramrod Spec SpecDoc SpecUpdate SpecSession
  Lib Samples Worked Api RefineUpdate Updates.
From Verif Require Sessions.
Import ListNotations.
Local Open Scope string_scope.

(** ** C64: calls do not disturb each other *)

(** After any calls, whether they returned or raised, memory is well-formed
    and every document that was there is still there, unchanged. *)
Theorem C64_documents_stay : forall o cs s,
  wf_state s ->
  wf_state (after o cs s) /\ exists new, heap (after o cs s) = (heap s ++ new)%list.
Proof. exact Sessions.after_kept. Qed.
Print Assumptions C64_documents_stay.

(** What a call returned is not changed by any later call: the returned
    document, the removed subtrees, the nodes listed in the report and their
    ids stay what they were when the call returned. *)
Theorem C64_results_stay : forall o before c later s s1 x,
  wf_state s -> perform o c (after o before s) = (x, s1) ->
  (forall i e, document s1 i e -> document (after o (before ++ c :: later) s) i e) /\
  (forall i anc t, node_at s1 i anc t -> node_at (after o (before ++ c :: later) s) i anc t) /\
  (forall i v, holds_id s1 i v -> holds_id (after o (before ++ c :: later) s) i v).
Proof. exact Sessions.results_stay. Qed.
Print Assumptions C64_results_stay.

(** An update that is not forced comes to the same at any time: the calls made
    in between change neither its result nor its error. *)
Theorem C64_repeatable : forall o cs c d opts s t,
  update_call c = Some (d, opts, false) -> wf_state s -> denotes s d t ->
  same_outcome (perform o c s) (perform o c (after o cs s)).
Proof. exact Sessions.repeatable. Qed.
Print Assumptions C64_repeatable.

(** So does a forced one when the new ids depend on nothing but the old ids. *)
Theorem C64_forced_repeatable : forall o cs c d opts s t,
  update_call c = Some (d, opts, true) -> forgets_calls (or_default o opts) -> wf_state s -> denotes s d t ->
  same_outcome (perform o c s) (perform o c (after o cs s)).
Proof. exact Sessions.forced_repeatable. Qed.
Print Assumptions C64_forced_repeatable.

(** With new ids that differ from call to call, as the default ones do, a
    forced update need not come to the same twice. *)
Definition numbering : options :=
  Options true (fun k old => old ++ "-" ++ match k with 0 => "a" | 1 => "b" | _ => "c" end) true true.
Definition forced_bad : call := Update (DFile (Some pkg_1_0_1_bad)) None None (Some numbering) true.

Definition contents (s : st) (i : nat) : list tree := map erase (filter (fun T => Nat.eqb (tid T) i) (heap s)).

Theorem C64_new_ids_tell_calls_apart : exists o c d opts s t,
  update_call c = Some (d, opts, true) /\ wf_state s /\ denotes s d t /\
  ~ same_outcome (perform o c s) (perform o c (after o [c] s)).
Proof.
  exists o0, forced_bad, (DFile (Some pkg_1_0_1_bad)), (Some numbering), (memory []), pkg_1_0_1_bad.
  split; [reflexivity|]. split; [split; [constructor|intros i []]|]. split; [reflexivity|].
  assert (Q : forall s i e, document s i e -> In e (contents s i)).
  { intros s i e (T & HT & Ei & Ee). apply in_map_iff. exists T. split; auto. apply filter_In. split; auto. apply Nat.eqb_eq. exact Ei. }
  unfold same_outcome.
  assert (H : match perform o0 forced_bad (memory []), perform o0 forced_bad (after o0 [forced_bad] (memory [])) with
              | (Ok r1, s1), (Ok r2, s2) => forall e, In e (contents s1 (r_document r1)) -> In e (contents s2 (r_document r2)) -> False
              | _, _ => False end).
  { vm_compute. intros e [<-|[]] [H|[]]. discriminate. }
  destruct (perform o0 forced_bad (memory [])) as [[r1|e1] s1]; [|contradiction].
  destruct (perform o0 forced_bad (after o0 [forced_bad] (memory []))) as [[r2|e2] s2]; [|contradiction].
  intros (e & l & D1 & D2 & _). exact (H e (Q _ _ _ D1) (Q _ _ _ D2)).
Qed.
Print Assumptions C64_new_ids_tell_calls_apart.

(** A session on two documents in memory: a failing update, a forced one, a
    cleaning, the reading of a file, a call without a class.  The update of
    the first document returns before and after. *)
Definition session : list call :=
  [ Update (DElem 5) None None None false; Update (DElem 5) None None None true; StixClean "1.0.1" (DElem 5) None;
    Parse obs_2_0; CyboxUpdate (DFile (Some obs_2_0)) None None None false; StixStep "9.9" (DElem 0) None false ].

Example C64_case :
  let s := memory [pkg_1_1; pkg_1_0_1_bad] in
  let c := Update (DElem 0) None None None false in
  update_call c = Some (DElem 0, None, false) /\ wf_state s /\ (exists t, denotes s (DElem 0) t) /\
  forgets_calls (or_default o0 None) /\
  map (fun c => match fst (perform o0 c s) with Ok _ => true | Err _ => false end) session = [false; true; true; true; true; false] /\
  List.length (heap (after o0 session s)) > 8 /\
  (exists r s', perform o0 c (after o0 session s) = (Ok r, s')).
Proof.
  cbv zeta. split; [reflexivity|]. split; [apply memory_wf|]. split.
  - eexists. exists []. eexists. split; [left; reflexivity|]. split; [left; reflexivity|reflexivity].
  - split; [intros k k' old; reflexivity|]. split; [vm_compute; reflexivity|]. split; [vm_compute; auto 20 with arith|].
    eexists _, _. vm_compute. reflexivity.
Qed.
