(** * Property theorems: the caller's id function. *)

From Coq Require Import String Ascii List Bool Arith.
From Verif Require Import Str Xml XPath Utils Base Tables Cybox Stix Ramrod IdFunc Spec SpecDoc SpecCheck SpecUpdate SpecContract SpecIdFunc
  Lib Frame Samples Api Contract IdFuncs.
Import ListNotations.
Local Open Scope string_scope.

(** ** C66: any id function *)

(** The functions of the model are those of IdFunc.v with an id function that
    chooses an id. *)
Theorem C66_modelled : forall o d from to opts force s,
  let f := apply_new_id (new_id_func (or_default o opts)) in
  ramrod_update_by f o d from to opts force s = ramrod_update o d from to opts force s /\
  stix_update_by f o d from to opts force s = stix_update o d from to opts force s /\
  cybox_update_by f o d from to opts force s = cybox_update o d from to opts force s.
Proof. intros. split; [apply ramrod_modelled|split; [apply stix_modelled|apply cybox_modelled]]. Qed.
Print Assumptions C66_modelled.

(** Whatever the id function does to the document it is handed, and whether it
    returns or raises, the caller's documents stay as they are. *)
Theorem C66_documents_untouched : forall f o d from to opts force s,
  keeps_to_its_document f -> wf_state s ->
  (exists new, heap (snd (ramrod_update_by f o d from to opts force s)) = (heap s ++ new)%list) /\
  (exists new, heap (snd (stix_update_by f o d from to opts force s)) = (heap s ++ new)%list) /\
  (exists new, heap (snd (cybox_update_by f o d from to opts force s)) = (heap s ++ new)%list).
Proof. exact entry_untouched. Qed.
Print Assumptions C66_documents_untouched.

(** Without force it is never called: any other one would do. *)
Theorem C66_not_called_unforced : forall f g o d from to opts s,
  ramrod_update_by f o d from to opts false s = ramrod_update_by g o d from to opts false s /\
  stix_update_by f o d from to opts false s = stix_update_by g o d from to opts false s /\
  cybox_update_by f o d from to opts false s = cybox_update_by g o d from to opts false s.
Proof. intros. split; [apply ramrod_unforced|split; [apply stix_unforced|apply cybox_unforced]]. Qed.
Print Assumptions C66_not_called_unforced.

(** Cleaning calls it on the nodes of the reported groups, once each and in
    turn; an exception of it is the outcome of the cleaning. *)
Theorem C66_stix_clean : forall f o opts d s t r s',
  wf_state s -> denotes s d t -> clean o (STIX_1_0_1_by f o) d opts s = (r, s') ->
  exists c s0, heap s0 = (heap s ++ [c])%list /\ erase c = erase t /\ gen s0 = gen s /\ wf_state s0 /\
    asked f (untranslatable (stix_1_0_1_rules o)) stix_duplicates c s0 r s'.
Proof. exact stix_asked. Qed.
Print Assumptions C66_stix_clean.

Theorem C66_cybox_clean : forall f o opts d s t r s',
  wf_state s -> denotes s d t -> clean o (Cybox_2_0_1_by f o) d opts s = (r, s') ->
  exists c s0, heap s0 = (heap s ++ [c])%list /\ erase c = erase t /\ gen s0 = gen s /\ wf_state s0 /\
    asked f (untranslatable cybox_2_0_1_rules) cybox_duplicates c s0 r s'.
Proof. exact cybox_asked. Qed.
Print Assumptions C66_cybox_clean.

(** So does a forced update of a document that is refused. *)
Theorem C66_stix_forced : forall f o opts d s t verdict,
  wf_state s -> denotes s d t -> stix_check o (or_default o opts) "1.0.1" = Some verdict ->
  exists c s0, heap s0 = (heap s ++ [c])%list /\ erase c = erase t /\ gen s0 = gen s /\ wf_state s0 /\
    forall e r s', verdict c = Err e -> documented e ->
    updater_update o (STIX_1_0_1_by f o) d opts true s = (r, s') ->
    asked f (untranslatable (stix_1_0_1_rules o)) stix_duplicates c s0 r s'.
Proof. exact stix_forced_asked. Qed.
Print Assumptions C66_stix_forced.

Theorem C66_cybox_forced : forall f o opts d s t verdict,
  wf_state s -> denotes s d t -> cybox_check (or_default o opts) "2.0.1" = Some verdict ->
  exists c s0, heap s0 = (heap s ++ [c])%list /\ erase c = erase t /\ gen s0 = gen s /\ wf_state s0 /\
    forall e r s', verdict c = Err e -> documented e ->
    updater_update o (Cybox_2_0_1_by f o) d opts true s = (r, s') ->
    asked f (untranslatable cybox_2_0_1_rules) cybox_duplicates c s0 r s'.
Proof. exact cybox_forced_asked. Qed.
Print Assumptions C66_cybox_forced.

(** An id function that notes the old id beside the new one, and gives up at
    its third call. *)
Definition fussy : id_function := fun i =>
  h <- get_hdr i ;;
  match attr_get (lq "id") (h_attr h) with
  | None => raise KeyError
  | Some old => fun s =>
      if Nat.ltb (gen s) 2 then
        modify i (fun h => hset_attr (lq "id") (old ++ "-new") (hset_attr (lq "was") old h)) (St (heap s) (next s) (S (gen s)))
      else (Err NotImplementedError, s)
  end.

Lemma fussy_keeps : keeps_to_its_document fussy.
Proof.
  intro i. apply safe_minds. intros old F. inversion F as [|x l Hi _]; subst. eapply safe_weaken; [|constructor].
  unfold fussy. eapply (safe_bind _ _ _ T); [apply safe_get_hdr|]. intros h _.
  destruct (attr_get (lq "id") (h_attr h)) as [v|]; [|apply safe_raise].
  intros s Hs. destruct (Nat.ltb (gen s) 2); [|split; [exact Hs|discriminate]].
  apply (safe_modify old i _ Hi); [intro h0; reflexivity|exact Hs].
Qed.

Example C66_case :
  let s := memory [pkg_1_1; pkg_1_0_1_bad] in
  keeps_to_its_document fussy /\ wf_state s /\ (exists t, denotes s (DElem 5) t) /\
  (exists verdict, stix_check o0 (or_default o0 None) "1.0.1" = Some verdict) /\
  (* two nodes: both get their ids, the update goes through *)
  (exists r s', ramrod_update_by fussy o0 (DElem 5) None None None true s = (Ok r, s') /\ gen s' = 2 /\
     map fst (remapped_ids r) = ["ex:t1"]) /\
  (* a second update of the same document meets the third call *)
  (exists s', ramrod_update_by fussy o0 (DElem 5) None None None true
     (snd (ramrod_update_by fussy o0 (DElem 5) None None None true s)) = (Err NotImplementedError, s')).
Proof.
  cbv zeta. split; [exact fussy_keeps|]. split; [apply memory_wf|]. split.
  - eexists. exists []. eexists. split; [right; left; reflexivity|]. split; [left; reflexivity|reflexivity].
  - split; [eexists; reflexivity|]. split.
    + eexists _, _. split; [vm_compute; reflexivity|]. split; reflexivity.
    + eexists. vm_compute. reflexivity.
Qed.
