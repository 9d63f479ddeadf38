(** * Property theorems: calls made at the same time, and interrupted calls. *)

From Coq Require Import String Ascii List Bool Arith NArith.
From Verif Require Import Str Xml XPath Utils Base Tables Cybox Stix Ramrod Spec SpecDoc SpecUpdate SpecSession SpecThreads
  Steps Lib Samples Worked Api.
From Verif Require Stepwise StepRun Threads.
Import ListNotations.
Local Open Scope string_scope.

(** ** C65: calls made at the same time do not disturb each other *)

(** The programs of single accesses are the calls of the model: without
    interruption they come to the same outcome and the same memory. *)
Theorem C65_programs_are_the_calls : forall o c s,
  run (Stepwise.perform o c) s = perform o c s.
Proof. exact StepRun.run_perform. Qed.
Print Assumptions C65_programs_are_the_calls.

(** At every moment, whatever calls are under way and wherever any of them was
    interrupted, the documents that were there at the start are there and
    unchanged. *)
Theorem C65_documents_intact : forall o hp g jobs m,
  well_prepared hp jobs -> steps (start o hp g jobs) m ->
  exists new, shared m = (hp ++ new)%list.
Proof. intros o hp g jobs m P. exact (Threads.documents_intact o hp g jobs P m). Qed.
Print Assumptions C65_documents_intact.

(** A call that has finished has come to what it comes to alone: the same
    outcome, and everything it has left in memory is there. *)
Theorem C65_finished_as_alone : forall o hp g jobs m k r j,
  well_prepared hp jobs -> steps (start o hp g jobs) m ->
  finished m k r -> nth_error jobs k = Some j -> reproducible o (j_call j) ->
  exists s1, perform o (j_call j) (St hp (j_from j) g) = (r, s1) /\ incl (heap s1) (shared m).
Proof. intros o hp g jobs m k r j P. exact (Threads.finished_alone o hp g jobs P m k r j). Qed.
Print Assumptions C65_finished_as_alone.

(** So an update comes to the same in any schedule as in any other memory that
    has the same document, results and errors alike. *)
Theorem C65_same_as_ever : forall o hp g jobs m k r j d opts force s0 t,
  well_prepared hp jobs -> NoDup (flat_map ids hp) -> steps (start o hp g jobs) m ->
  finished m k r -> nth_error jobs k = Some j ->
  update_call (j_call j) = Some (d, opts, force) -> reproducible o (j_call j) ->
  denotes (St hp 0 0) d t -> wf_state s0 -> denotes s0 d t ->
  same_outcome (perform o (j_call j) s0) (r, memory_of m).
Proof. exact Threads.like_alone. Qed.
Print Assumptions C65_same_as_ever.

(** What a finished call has returned -- the document, the removed nodes, the
    nodes listed under replaced ids -- is not changed by the calls that are
    still going on. *)
Theorem C65_results_stay : forall o hp g jobs m m' k r j,
  well_prepared hp jobs -> steps (start o hp g jobs) m -> steps m m' ->
  finished m k (Ok r) -> nth_error jobs k = Some j ->
  finished m' k (Ok r) /\
  forall i, i = r_document r \/ In i (removed_nodes r) \/ In i (flat_map snd (remapped_ids r)) ->
  forall anc t, node_at (memory_of m) i anc t -> node_at (memory_of m') i anc t.
Proof. intros o hp g jobs m m' k r j P. exact (Threads.finished_stays o hp g jobs P m m' k r j). Qed.
Print Assumptions C65_results_stay.

(** No schedule goes on for ever, and a call that has not finished is never
    held up by the others. *)
Theorem C65_no_endless_schedule : forall m,
  ~ exists f : nat -> machine, f 0 = m /\ forall n, step (f n) (f (S n)).
Proof. exact Threads.no_endless. Qed.
Print Assumptions C65_no_endless_schedule.

Theorem C65_never_held_up : forall o hp g jobs m k j,
  well_prepared hp jobs -> steps (start o hp g jobs) m ->
  nth_error jobs k = Some j -> reproducible o (j_call j) ->
  next (snd (perform o (j_call j) (St hp (j_from j) g))) <= j_to j ->
  (exists r, finished m k r) \/
  (exists m', step m m' /\ forall k', k' <> k -> nth_error (threads m') k' = nth_error (threads m) k').
Proof. exact Threads.not_held_up. Qed.
Print Assumptions C65_never_held_up.

(** So when nothing more can happen, all calls have finished ... *)
Theorem C65_all_finish : forall o hp g jobs m,
  well_prepared hp jobs -> steps (start o hp g jobs) m -> (forall m', ~ step m m') ->
  forall k j, nth_error jobs k = Some j -> reproducible o (j_call j) ->
  next (snd (perform o (j_call j) (St hp (j_from j) g))) <= j_to j -> exists r, finished m k r.
Proof. exact Threads.stuck_finished. Qed.
Print Assumptions C65_all_finish.

(** ... and memory is in order: no node belongs to two documents, or twice to
    one, so everything said about calls holds of further calls. *)
Theorem C65_memory_in_order : forall o hp g jobs m,
  well_prepared hp jobs -> NoDup (flat_map ids hp) -> steps (start o hp g jobs) m ->
  Forall (fun j => reproducible o (j_call j)) jobs ->
  (forall k, k < List.length jobs -> exists r, finished m k r) ->
  wf_state (memory_of m).
Proof. exact Threads.all_finished_wf. Qed.
Print Assumptions C65_memory_in_order.

(** Identities can be set aside for any calls about documents that are there. *)
Theorem C65_can_be_prepared : forall o hp g cs,
  Forall (fun c => present hp (subject c)) cs ->
  exists jobs, map j_call jobs = cs /\ well_prepared hp jobs /\
    Forall (fun j => next (snd (perform o (j_call j) (St hp (j_from j) g))) <= j_to j) jobs.
Proof. exact Threads.can_prepare. Qed.
Print Assumptions C65_can_be_prepared.

(** A scheduler that follows a list of thread numbers. *)
Fixpoint turn (hp : list tree) (g k : nat) (l : list thread) : option (list tree * nat * list thread) :=
  match l, k with
  | [], _ => None
  | Thread (Do a q) n lim :: l', 0 =>
      let '(r, s) := exec a (St hp n g) in
      if Nat.leb (next s) lim then Some (heap s, gen s, Thread (q r) (next s) lim :: l') else None
  | Thread (Done _) _ _ :: _, 0 => None
  | th :: l', S k' =>
      match turn hp g k' l' with Some (hp', g', l'') => Some (hp', g', th :: l'') | None => None end
  end.

Fixpoint play (turns : list nat) (m : machine) : machine :=
  match turns with
  | [] => m
  | k :: ks => match turn (shared m) (made m) k (threads m) with
               | Some (hp, g, l) => play ks (Machine hp g l)
               | None => play ks m
               end
  end.

Lemma turn_step : forall l hp g k hp' g' l', turn hp g k l = Some (hp', g', l') ->
  forall b, step (Machine hp g (b ++ l)) (Machine hp' g' (b ++ l')).
Proof.
  induction l as [|[p n lim] l IH]; intros hp g k hp' g' l' E b; [destruct k; discriminate|].
  destruct k as [|k].
  - destruct p as [r|X a q]; cbn [turn] in E; [discriminate|].
    destruct (exec a (St hp n g)) as [r [h1 n1 g1]] eqn:Ex. cbn [next heap gen] in E.
    destruct (Nat.leb n1 lim) eqn:El; inversion E; subst. apply Nat.leb_le in El. econstructor; eauto.
  - assert (E' : match turn hp g k l with
                 | Some (hp', g', l'') => Some (hp', g', Thread p n lim :: l'')
                 | None => None end = Some (hp', g', l')) by (destruct p; exact E).
    destruct (turn hp g k l) as [[[h1 g1] l1]|] eqn:Et; inversion E'; subst.
    specialize (IH _ _ _ _ _ _ Et (b ++ [Thread p n lim])%list). rewrite <- !app_assoc in IH. exact IH.
Qed.

Lemma steps_trans m1 m2 m3 : steps m1 m2 -> steps m2 m3 -> steps m1 m3.
Proof. intros H1 H2. induction H2 as [m|a b c H IH Hs]; [exact H1|]. exact (steps_more _ _ _ (IH H1) Hs). Qed.

Lemma play_steps : forall turns m, steps m (play turns m).
Proof.
  induction turns as [|k ks IH]; intro m; cbn [play]; [constructor|].
  destruct (turn (shared m) (made m) k (threads m)) as [[[hp g] l]|] eqn:E; [|apply IH].
  eapply steps_trans; [|apply IH]. econstructor; [constructor|].
  destruct m as [mh mg mt]. exact (turn_step _ _ _ _ _ _ _ E []).
Qed.

(** Two documents in memory.  One thread updates the first; one forces the
    update of the second; one cleans the second; one reads and updates a file.
    They take turns; the third is interrupted after 20 accesses. *)
Definition two : list tree := heap (memory [pkg_1_1; pkg_1_0_1_bad]).
Definition own_ids : options := Options true (fun _ old => old ++ "-new") true true.
Definition four : list job :=
  [ Job (Update (DElem 0) None None None false) 100 500;
    Job (Update (DElem 5) None None (Some own_ids) true) 500 900;
    Job (StixClean "1.0.1" (DElem 5) (Some own_ids)) 900 1300;
    Job (CyboxUpdate (DFile (Some obs_2_0)) None None None false) 1300 1700 ].
Fixpoint round_robin (n : nat) (interrupted : nat) : list nat :=
  match n with
  | 0 => []
  | S n' => (match interrupted with 0 => [0; 1; 3] | _ => [0; 1; 2; 3] end ++ round_robin n' (Nat.pred interrupted))%list
  end.
Definition outcomes (m : machine) : list (option bool) :=
  map (fun th => match code th with Done (Ok _) => Some true | Done (Err _) => Some false | Do _ _ => None end) (threads m).

Example C65_case :
  let m := play (round_robin 400 20) (start o0 two 0 four) in
  well_prepared two four /\ NoDup (flat_map ids two) /\ steps (start o0 two 0 four) m /\
  outcomes m = [Some true; Some true; None; Some true] /\
  Forall (fun j => reproducible o0 (j_call j)) four /\
  Forall (fun j => next (snd (perform o0 (j_call j) (St two (j_from j) 0))) <= j_to j) four /\
  10 < List.length (shared m).
Proof.
  assert (Ei : flat_map ids two = [0; 1; 2; 3; 4; 5; 6; 7; 8; 9]) by reflexivity.
  cbv zeta. split; [|split; [|split; [apply play_steps|split; [vm_compute; reflexivity|split; [|split]]]]].
  - split; [|split].
    + unfold four. repeat constructor; cbn [j_call subject present]; rewrite Ei; simpl; tauto.
    + rewrite Ei.
      assert (B : forall i, In i [0; 1; 2; 3; 4; 5; 6; 7; 8; 9] -> i < 100).
      { intros i Hi. apply Nat.ltb_lt. simpl in Hi. repeat (destruct Hi as [<-|Hi]; [reflexivity|]). destruct Hi. }
      assert (B' : forallb (fun j => Nat.leb 100 (j_from j)) four = true) by reflexivity.
      rewrite forallb_forall in B'. apply Forall_forall. intros j Hj i Hi. apply B in Hi.
      specialize (B' j Hj). apply Nat.leb_le in B'. eapply Nat.lt_le_trans; eauto.
    + unfold four. repeat constructor; left; apply Nat.leb_le; reflexivity.
  - rewrite Ei. repeat constructor; simpl; intuition discriminate.
  - unfold four. repeat constructor; cbn [j_call reproducible]; try discriminate.
  - assert (B : forallb (fun j => Nat.leb (next (snd (perform o0 (j_call j) (St two (j_from j) 0)))) (j_to j)) four = true)
      by (vm_compute; reflexivity).
    rewrite forallb_forall in B. apply Forall_forall. intros j Hj. apply Nat.leb_le. exact (B j Hj).
  - apply Nat.ltb_lt. vm_compute. reflexivity.
Qed.

(** With ids that are made anew for every call the schedule shows: two calls
    ask the same function for ids, and which ids each of them gets depends on
    which asks first. *)
Definition counting : options :=
  Options true (fun n old => if Nat.eqb n 0 then old ++ "-first" else old ++ "-later") true true.
Definition rivals : list job :=
  [ Job (Update (DElem 5) None None (Some counting) true) 100 500;
    Job (Update (DElem 5) None None (Some counting) true) 500 900 ].
Definition got_first (t : tree) : bool :=
  match h_attr (head t) with (_, v) :: _ => String.eqb v "ex:t1-first" && Nat.leb 100 (tid t) && Nat.ltb (tid t) 500 | [] => false end.

Local Notation late := (play (repeat 1 400 ++ repeat 0 400) (start o0 two 0 rivals)).
Local Notation early := (perform o0 (Update (DElem 5) None None (Some counting) true) (St two 100 0)).

Lemma rivals_prepared : well_prepared two rivals.
Proof.
  assert (Ei : flat_map ids two = [0; 1; 2; 3; 4; 5; 6; 7; 8; 9]) by reflexivity.
  split; [|split].
  - unfold rivals. repeat constructor; cbn [j_call subject present]; rewrite Ei; simpl; tauto.
  - rewrite Ei.
    assert (B : forall i, In i [0; 1; 2; 3; 4; 5; 6; 7; 8; 9] -> i < 100).
    { intros i Hi. apply Nat.ltb_lt. simpl in Hi. repeat (destruct Hi as [<-|Hi]; [reflexivity|]). destruct Hi. }
    assert (B' : forallb (fun j => Nat.leb 100 (j_from j)) rivals = true) by reflexivity.
    rewrite forallb_forall in B'. apply Forall_forall. intros j Hj i Hi. apply B in Hi.
    specialize (B' j Hj). apply Nat.leb_le in B'. eapply Nat.lt_le_trans; eauto.
  - unfold rivals. repeat constructor; left; apply Nat.leb_le; reflexivity.
Qed.

Lemma late_finished : finished late 0 (fst early).
Proof.
  assert (E : match nth_error (threads late) 0 with Some th => code th | None => Done (Err XPathEvalError) end
              = Done (fst early)) by (vm_compute; reflexivity).
  unfold finished. destruct (nth_error (threads late) 0) as [[p n lim]|]; cbn [code] in E.
  - exists n, lim. rewrite E. reflexivity.
  - exfalso. assert (T : match fst early with Ok _ => true | Err _ => false end = true) by (vm_compute; reflexivity).
    revert E T. generalize (fst early). intros r E T. injection E as E. rewrite <- E in T. discriminate.
Qed.

Lemma early_first : existsb got_first (heap (snd early)) = true.
Proof. vm_compute. reflexivity. Qed.

Lemma late_first : existsb got_first (shared late) = false.
Proof. vm_compute. reflexivity. Qed.

Lemma not_included (p : res results * st) (l : list tree) :
  existsb got_first (heap (snd p)) = true -> existsb got_first l = false ->
  ~ exists s1, p = (fst p, s1) /\ incl (heap s1) l.
Proof.
  intros T N [s1 [E I]]. apply existsb_exists in T. destruct T as [t [Ht Tt]].
  rewrite E in Ht. apply I in Ht. rewrite <- Bool.not_true_iff_false in N. apply N.
  apply existsb_exists. exists t. split; [exact Ht|exact Tt].
Qed.

Theorem C65_made_anew_refuted :
  ~ forall o hp g jobs m k r j,
      well_prepared hp jobs -> steps (start o hp g jobs) m ->
      finished m k r -> nth_error jobs k = Some j ->
      exists s1, perform o (j_call j) (St hp (j_from j) g) = (r, s1) /\ incl (heap s1) (shared m).
Proof.
  intro H. apply (not_included early (shared late) early_first late_first).
  exact (H o0 two 0 rivals late 0 (fst early)
    (Job (Update (DElem 5) None None (Some counting) true) 100 500) rivals_prepared (play_steps _ _) late_finished eq_refl).
Qed.
Print Assumptions C65_made_anew_refuted.

(** A schedule of the first, second and fourth call that ends with all of them
    finished. *)
Example C65_case_finished :
  let jobs := [nth 0 four (Job (Parse pkg_1_1) 0 0); nth 1 four (Job (Parse pkg_1_1) 0 0); nth 3 four (Job (Parse pkg_1_1) 0 0)] in
  let m := play (round_robin 400 0 ++ repeat 2 400) (start o0 two 0 jobs) in
  steps (start o0 two 0 jobs) m /\ outcomes m = [Some true; Some true; Some true].
Proof. cbv zeta. split; [apply play_steps|]. vm_compute. reflexivity. Qed.
