(** * Property theorems: several runs of the tools at the same time. *)

From Coq Require Import String Ascii List Bool Arith Lia.
From Verif Require Import Str Xml XPath Utils Base Tables Cybox Stix Ramrod Cli Spec SpecCheck SpecUpdate SpecCli Lib Samples Disk SpecDisk Disks DiskNs SpecDiskNs
  Jobs SpecJobs SideBySide.
Import ListNotations.
Local Open Scope string_scope.
Local Open Scope list_scope.

(** ** C70: runs side by side *)

(** The processes here are the runs of C67 and C68: by itself a process, access
    after access, is such a run. *)
Theorem C70_by_itself : forall c d ws, exists p n fin w,
  nth_error (m_procs (after_all d [c] (map (pair 0) ws))) 0 = Some p /\ alone c n d = (fin, w) /\
  p_done p = w_done w /\ (finished p fin \/ unfinished p /\ fin = Dead) /\ (forall f, m_disk (after_all d [c] (map (pair 0) ws)) f = now w f).
Proof. exact by_itself. Qed.
Print Assumptions C70_by_itself.

(** At every moment, whatever other calls have done and whatever has gone wrong,
    a call whose files no other call writes has done what it would have done by
    itself: it has ended as a run by itself can end, or it is on the way as a run
    by itself that is killed there, with the same output and the same files. *)
Theorem C70_as_if_alone : forall d cs schedule i c, nth_error cs i = Some c -> unshared cs i ->
  exists p n fin w, nth_error (m_procs (after_all d cs schedule)) i = Some p /\ alone c n d = (fin, w) /\
    p_done p = w_done w /\ w_disk w = d /\ (finished p fin \/ unfinished p /\ fin = Dead) /\
    forall f, reads c f \/ writes c f -> m_disk (after_all d cs schedule) f = now w f.
Proof. exact side_by_side. Qed.
Print Assumptions C70_as_if_alone.

(** If nothing goes wrong outside, it ends exactly as it does by itself. *)
Theorem C70_undisturbed : forall d cs schedule i c p fin, nth_error cs i = Some c -> unshared cs i -> all_fine schedule ->
  nth_error (m_procs (after_all d cs schedule)) i = Some p -> finished p fin ->
  exists w, alone c clear d = (fin, w) /\ p_done p = w_done w /\ w_disk w = d /\
    forall f, reads c f \/ writes c f -> m_disk (after_all d cs schedule) f = now w f.
Proof. exact side_by_side_clear. Qed.
Print Assumptions C70_undisturbed.

(** Status 0 means the whole document, among others as well. *)
Theorem C70_success : forall d cs schedule i parse serialise o c s p,
  nth_error cs i = Some (Updating parse serialise o c s) -> wf_state s -> unshared cs i ->
  nth_error (m_procs (after_all d cs schedule)) i = Some p -> finished p (Status 0) ->
  exists r s1 e removed remapped, updates parse o c d s r s1 e /\ tells_removed s1 r removed /\ tells_remapped s1 r remapped /\
    match given (c_outfile c) with
    | Some f => m_disk (after_all d cs schedule) f = Some (serialise e) /\ output p = map Text (removed ++ remapped)
    | None => output p = bytes (serialise e) ++ map Text (removed ++ remapped)
    end.
Proof. exact success_among_others. Qed.
Print Assumptions C70_success.

(** At no moment does an output file hold anything but what it held before, or a
    beginning of its document. *)
Theorem C70_output_file : forall d cs schedule i parse serialise o c s f,
  nth_error cs i = Some (Updating parse serialise o c s) -> wf_state s -> unshared cs i -> given (c_outfile c) = Some f ->
  m_disk (after_all d cs schedule) f = d f \/
  exists r s1 e x, updates parse o c d s r s1 e /\ m_disk (after_all d cs schedule) f = Some x /\ begins_text x (serialise e).
Proof. exact output_among_others. Qed.
Print Assumptions C70_output_file.

(** Files that are nobody's output are never touched. *)
Theorem C70_other_files : forall d cs schedule f, (forall c, In c cs -> ~ writes c f) -> m_disk (after_all d cs schedule) f = d f.
Proof. exact nobody. Qed.
Print Assumptions C70_other_files.

(** In which order accesses come makes no difference to anything. *)
Theorem C70_any_order : forall d cs schedule schedule', (forall i, unshared cs i) -> all_fine schedule -> all_fine schedule' ->
  (forall p, In p (m_procs (after_all d cs schedule)) -> exists fin, finished p fin) ->
  (forall p, In p (m_procs (after_all d cs schedule')) -> exists fin, finished p fin) ->
  m_procs (after_all d cs schedule) = m_procs (after_all d cs schedule') /\ untouched (m_disk (after_all d cs schedule)) (m_disk (after_all d cs schedule')).
Proof. exact any_order. Qed.
Print Assumptions C70_any_order.

(** All calls come to an end, shared files or not, if none is left waiting for
    ever. *)
Theorem C70_all_end : forall d cs sigma, fair sigma (List.length cs) ->
  exists k, forall k' p, (k <= k')%nat -> In p (m_procs (after_all d cs (first k' sigma))) -> exists fin, finished p fin.
Proof. exact all_end. Qed.
Print Assumptions C70_all_end.

(** ** Concrete cases *)

Definition parse0 (x : string) : option tree := if String.eqb x "old" || String.eqb x "STIX_Package" then Some pkg_1_0_1_bad else None.
Definition serialise0 (t : tree) : string := q_local (h_tag (head t)).
Definition ns_serialise0 (pretty : bool) (t : tree) : string := q_local (h_tag (head t)).
Definition disk0 : disk := fun f => if String.eqb f "in.xml" then Some "old" else if String.eqb f "1.xml" then Some "kept" else None.
Definition updating (i f : string) (force : bool) : call := Updating parse0 serialise0 o0 (Command i (Some f) None None false false force) (memory []).
Definition renaming : call := Renaming parse0 ns_serialise0 "" (NsCommand "stix1.2" "stix1.2.1" false (Some "in.xml")).

(** Two updates and a renaming of one document. *)
Definition three : list call := [updating "in.xml" "1.xml" true; updating "in.xml" "2.xml" true; renaming].

Lemma three_unshared i : unshared three i.
Proof.
  intros c j c' f H H' N Y. destruct i as [|[|[|i]]]; cbn in H; [..|destruct i; discriminate]; injection H as <-;
    (destruct j as [|[|[|j]]]; cbn in H'; [..|destruct j; discriminate]; injection H' as <-); cbn in *; try contradiction; try congruence;
    injection Y as <-; (split; [try discriminate|]); try discriminate; try tauto;
    intros [[K _]|[[K|K] _]]; discriminate.
Qed.

(** In turn, access by access; one after the other. *)
Definition in_turn : list (nat * weather) := flat_map (fun _ => [(0, Fine); (1, Fine); (2, Fine)]) (seq 0 40).
Definition in_a_row : list (nat * weather) := map (fun _ => (2, Fine)) (seq 0 40) ++ map (fun _ => (1, Fine)) (seq 0 40) ++ map (fun _ => (0, Fine)) (seq 0 40).

Definition endings (m : machine) : list (option finish) := map (fun p => match p_left p with Stop f => Some f | Call _ _ _ => None end) (m_procs m).

Example C70_case_in_turn : endings (after_all disk0 three in_turn) = [Some (Status 0); Some (Status 0); Some (Status 0)] /\
  m_disk (after_all disk0 three in_turn) "1.xml" = Some "STIX_Package" /\ m_disk (after_all disk0 three in_turn) "2.xml" = Some "STIX_Package".
Proof. vm_compute. repeat split. Qed.
Example C70_case_in_a_row : endings (after_all disk0 three in_a_row) = [Some (Status 0); Some (Status 0); Some (Status 0)].
Proof. vm_compute. reflexivity. Qed.
Example C70_case_half : endings (after_all disk0 three (firstn 18 in_turn)) = [None; None; None] /\
  m_disk (after_all disk0 three (firstn 18 in_turn)) "1.xml" = Some "STI".
Proof. vm_compute. repeat split. Qed.

Lemma finished_all m : forallb (fun p => match p_left p with Stop _ => true | Call _ _ _ => false end) (m_procs m) = true ->
  forall p, In p (m_procs m) -> exists fin, finished p fin.
Proof. intros H p Hp. rewrite forallb_forall in H. specialize (H p Hp). unfold finished. destruct (p_left p) as [f|]; [exists f; reflexivity|discriminate]. Qed.

Example C70_case_orders : all_fine in_turn /\ all_fine in_a_row /\
  (forall p, In p (m_procs (after_all disk0 three in_turn)) -> exists fin, finished p fin) /\
  (forall p, In p (m_procs (after_all disk0 three in_a_row)) -> exists fin, finished p fin).
Proof.
  assert (X : forall l, forallb (fun c : nat * weather => match snd c with Fine => true | _ => false end) l = true -> all_fine l).
  { intros l H c Hc. rewrite forallb_forall in H. specialize (H c Hc). destruct (snd c); congruence. }
  split; [apply X; reflexivity|]. split; [apply X; reflexivity|]. split; apply finished_all; vm_compute; reflexivity.
Qed.

Example C70_case_fair : fair (fun k => (Nat.modulo k 3, Fine)) (List.length three).
Proof.
  intros i k Hi. cbn in Hi. exists (3 * k + i). cbn [fst]. split; [lia|]. rewrite Nat.add_comm, Nat.mul_comm, Nat.mod_add by lia. apply Nat.mod_small. lia.
Qed.

(** A call whose input is the output of another call.  One might hope that it
    finds the file as it was before or as it is afterwards; it can find less
    than either, and fail. *)
Definition chained : list call := [updating "in.xml" "1.xml" true; updating "1.xml" "2.xml" true].
Definition too_early : list (nat * weather) :=
  map (fun _ => (0, Fine)) (seq 0 6) ++ map (fun _ => (1, Fine)) (seq 0 40) ++ map (fun _ => (0, Fine)) (seq 0 40).
Definition in_time : list (nat * weather) := map (fun _ => (0, Fine)) (seq 0 40) ++ map (fun _ => (1, Fine)) (seq 0 40).

Theorem C70_reading_along_refuted : exists d cs schedule schedule',
  (forall i j c c' f, nth_error cs i = Some c -> nth_error cs j = Some c' -> j <> i -> writes c' f -> ~ writes c f) /\
  all_fine schedule /\ all_fine schedule' /\
  endings (after_all d cs schedule) = [Some (Status 0); Some (Uncaught XMLSyntaxError)] /\
  endings (after_all d cs schedule') = [Some (Status 0); Some (Status 0)].
Proof.
  exists disk0, chained, too_early, in_time.
  assert (X : forall l, forallb (fun c : nat * weather => match snd c with Fine => true | _ => false end) l = true -> all_fine l).
  { intros l H c Hc. rewrite forallb_forall in H. specialize (H c Hc). destruct (snd c); congruence. }
  split.
  { intros i j c c' f H H' N Y. destruct i as [|[|i]]; cbn in H; [..|destruct i; discriminate]; injection H as <-;
      (destruct j as [|[|j]]; cbn in H'; [..|destruct j; discriminate]; injection H' as <-); cbn in *; congruence. }
  split; [apply X; reflexivity|]. split; [apply X; reflexivity|]. split; vm_compute; reflexivity.
Qed.
Print Assumptions C70_reading_along_refuted.
