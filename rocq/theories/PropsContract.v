(** * Property theorems: updater classes written by others. *)

From Coq Require Import String Ascii List Bool Arith.
From Verif Require Import Str Xml XPath Utils Base Tables Cybox Stix Ramrod Spec SpecContract
  Lib Frame Api Samples Contract.
Import ListNotations.
Local Open Scope string_scope.

(** ** C59: the base class serves every updater class *)

(** Whatever the class does with the documents it is handed, and however it
    fails, the caller's documents stay as they are. *)
Theorem C59_update_untouched : forall o up d opts force s, well_behaved up -> wf_state s ->
  exists new, heap (snd (updater_update o up d opts force s)) = (heap s ++ new)%list.
Proof. exact update_untouched. Qed.
Print Assumptions C59_update_untouched.

Theorem C59_clean_untouched : forall o up d opts s, well_behaved up -> wf_state s ->
  exists new, heap (snd (clean o up d opts s)) = (heap s ++ new)%list.
Proof. exact clean_untouched. Qed.
Print Assumptions C59_clean_untouched.

(** Likewise for the chain over any classes that are registered. *)
Theorem C59_chain_untouched : forall o versions table get_version d from to opts force s,
  (forall v up, In (v, up) table -> well_behaved up) -> (forall i, only_looks (get_version i)) -> wf_state s ->
  exists new, heap (snd (versioned_update o versions table get_version d from to opts force s)) = (heap s ++ new)%list.
Proof. exact chain_untouched. Qed.
Print Assumptions C59_chain_untouched.

(** The seven classes of the package keep to the contract. *)
Theorem C59_shipped : forall o up,
  In up (map snd (STIX_UPDATERS o) ++ map snd (CYBOX_UPDATERS o)) -> well_behaved up.
Proof. exact shipped_well_behaved. Qed.
Print Assumptions C59_shipped.

(** Which methods are called, in which order, on which document (a copy), what
    becomes of their exceptions and what is reported. *)
Theorem C59_sequence : forall o up d opts force s t, wf_state s -> denotes s d t ->
  exists c s0, heap s0 = (heap s ++ [c])%list /\ erase c = erase t /\ gen s0 = gen s /\ wf_state s0 /\
    ((forall e removed remapped s1 s2, attempt up (or_default o opts) (tid c) s0 (Err e) s1 ->
        cleaning up (or_default o opts) (tid c) s1 (Ok (removed, remapped)) s2 -> still_root (tid c) s2) ->
     forall r s', updater_update o up d opts force s = (r, s') ->
     updating up (or_default o opts) (tid c) force s0 r s').
Proof. exact sequence. Qed.
Print Assumptions C59_sequence.

(** ** C60: forcing repairs the document as it was given *)

(** It does for classes whose check only looks and whose update has changed
    nothing when it raises one of the three exceptions. *)
Theorem C60_as_given_partial : forall o up d opts s t,
  (forall root, only_looks (up_check up root (or_default o opts))) ->
  (forall root, fails_cleanly (up_update up root (or_default o opts))) ->
  wf_state s -> denotes s d t ->
  exists c s0, heap s0 = (heap s ++ [c])%list /\ erase c = erase t /\ gen s0 = gen s /\ wf_state s0 /\
    ((forall removed remapped s2,
        cleaning up (or_default o opts) (tid c) s0 (Ok (removed, remapped)) s2 -> still_root (tid c) s2) ->
     forall e s1, attempt up (or_default o opts) (tid c) s0 (Err e) s1 -> documented e ->
     forall r s', updater_update o up d opts true s = (r, s') ->
     repairing up (or_default o opts) (tid c) s0 r s').
Proof. exact as_given. Qed.
Print Assumptions C60_as_given_partial.

(** ** A class of another author *)

(** Its update takes the first child away and then refuses documents that have
    the attribute "bad"; its cleaning takes that attribute away. *)
Definition peel (root : nat) : M unit :=
  c <- deref root ;;
  match kids (snd c) with
  | k :: _ => remove_xml_elements [tid k]
  | [] => ret tt
  end.

Definition refuse (root : nat) : M unit :=
  h <- get_hdr root ;;
  match attr_get (lq "bad") (h_attr h) with
  | Some _ => raise (UpdateError (Some [root]) None)
  | None => ret tt
  end.

Definition late : updater := Updater
  (fun _ _ => ret tt)
  (fun root _ => peel root ;;; refuse root ;;; ret root)
  (fun root => ret (Some [root])) (fun _ => ret None)
  (fun l _ => for_each l (fun i => remove_xml_attributes i [lq "bad"]) ;;; ret [])
  (fun _ _ => ret []).

(** The same with the refusal where it belongs. *)
Definition early : updater := Updater
  (fun root _ => refuse root)
  (fun root _ => peel root ;;; ret root)
  (fun root => ret (Some [root])) (fun _ => ret None)
  (fun l _ => for_each l (fun i => remove_xml_attributes i [lq "bad"]) ;;; ret [])
  (fun _ _ => ret []).

Lemma safe_peel old root : yid old root -> safe old (peel root) T.
Proof.
  intro Hr. unfold peel. eapply safe_bind; [apply safe_deref; auto|]. intros [a [h [|k ks]]] [Hc _]; simpl.
  - apply safe_ret. exact I.
  - apply (safe_remove_xml_elements old [tid k]). constructor; auto. apply Hc.
    simpl. right. apply in_or_app. left. destruct k; simpl; auto.
Qed.

Lemma safe_refuse old root : safe old (refuse root) T.
Proof.
  unfold refuse. eapply safe_bind; [apply safe_get_hdr|]. intros h _.
  destruct (attr_get _ _); [apply safe_raise|apply safe_ret; exact I].
Qed.

Lemma safe_strip old l : Forall (yid old) l ->
  safe old (for_each l (fun i => remove_xml_attributes i [lq "bad"]) ;;; @ret (list nat) []) T.
Proof.
  intro F. eapply (safe_bind _ _ _ T); [|intros; apply safe_ret; exact I].
  apply safe_for_each. intros i Hi. rewrite Forall_forall in F. unfold remove_xml_attributes.
  apply safe_for_each. intros q _. apply safe_modify; auto. intro; reflexivity.
Qed.

Example late_well_behaved : well_behaved late.
Proof.
  apply safe_well_behaved. intro old. split; simpl; intros; try (apply safe_ret; unfold T; auto; fail).
  - eapply (safe_bind _ _ _ T); [apply safe_peel; auto|]. intros _ _.
    eapply (safe_bind _ _ _ T); [apply safe_refuse|]. intros _ _. apply safe_ret. exact I.
  - apply safe_ret. intros l E. inversion E; auto.
  - apply safe_ret. intros l E. discriminate.
  - apply safe_strip; auto.
Qed.

Example early_well_behaved : well_behaved early.
Proof.
  apply safe_well_behaved. intro old. split; simpl; intros; try (apply safe_ret; unfold T; auto; fail).
  - apply safe_refuse.
  - eapply (safe_bind _ _ _ T); [apply safe_peel; auto|]. intros _ _. apply safe_ret. exact I.
  - apply safe_ret. intros l E. inversion E; auto.
  - apply safe_ret. intros l E. discriminate.
  - apply safe_strip; auto.
Qed.

Definition three : tree :=
  el (lq "r") [] [(lq "bad", "1")] None [el (lq "a") [] [] None []; el (lq "b") [] [] None []; el (lq "c") [] [] None []].
Definition mem3 : st := memory [three].
(** The caller's document and the copy. *)
Definition given3 : tree := hd three (heap mem3).
Definition mem3' : st := snd (get_etree_root (DElem 0) true mem3).

Example mem3_wf : wf_state mem3.
Proof.
  split.
  - vm_compute. repeat constructor; simpl; intuition discriminate.
  - vm_compute. intuition (subst; auto with arith).
Qed.

Example mem3_given : denotes mem3 (DElem 0) given3.
Proof. exists [], given3. repeat split; vm_compute; auto. Qed.

(** The document the update of [late] leaves behind, forced. *)
Definition forced3 (up : updater) : res results * st := updater_update o0 up (DElem 0) None true mem3.
Definition names_left (x : res results * st) : option (list qname) :=
  match x with
  | (Ok r, s) => option_map (fun c => map (fun k => h_tag (head k)) (kids (snd c))) (hfind (r_document r) (heap s))
  | _ => None
  end.

(** Both classes refuse the document without forcing; forced, one child goes
    with [early], two go with [late]. *)
Example refused3 : exists e s1 s2,
  updater_update o0 early (DElem 0) None false mem3 = (Err (UpdateError e None), s1) /\
  updater_update o0 late (DElem 0) None false mem3 = (Err (UpdateError e None), s2).
Proof. eexists _, _, _. split; vm_compute; reflexivity. Qed.

Example early3 : names_left (forced3 early) = Some [lq "b"; lq "c"].
Proof. vm_compute. reflexivity. Qed.

Example late3 : names_left (forced3 late) = Some [lq "c"].
Proof. vm_compute. reflexivity. Qed.

Example C59_case : exists new, heap (snd (forced3 late)) = (heap mem3 ++ new)%list.
Proof. apply C59_update_untouched; [apply late_well_behaved|apply mem3_wf]. Qed.

(** The hypotheses of [C60_as_given_partial] hold of [early]. *)
Example early_looks : forall root, only_looks (up_check early root (default_options o0)).
Proof.
  intros root s. simpl. unfold refuse, get_hdr, bind, deref.
  destruct (hfind root (heap s)); simpl; [|reflexivity]. destruct (attr_get _ _); reflexivity.
Qed.

Example early_fails_cleanly : forall root, fails_cleanly (up_update early root (default_options o0)).
Proof.
  intros root s e s' E D. exfalso.
  assert (N : NoFail.nofail (up_update early root (default_options o0))).
  { simpl. unfold peel, remove_xml_elements, remove_xml_element. NoFail.nf. }
  apply N in E. destruct D; discriminate.
Qed.

Example C60_case : exists e s1, attempt early (default_options o0) (next mem3) mem3' (Err e) s1 /\ documented e.
Proof. eexists _, _. split; [apply att_refused; vm_compute; reflexivity|constructor]. Qed.

Example C60_root : forall removed remapped s2,
  cleaning early (default_options o0) (next mem3) mem3' (Ok (removed, remapped)) s2 -> still_root (next mem3) s2.
Proof.
  intros removed remapped s2 C. inversion C as [| | | |dis dup rm rp s1 s1' s1'' s4 E1 E2 E3 E4]; subst.
  vm_compute in E1. injection E1 as <- <-. vm_compute in E2. injection E2 as <- <-.
  destruct E3 as [_ ->]. vm_compute in E4. injection E4 as _ <-. split.
  - vm_compute. repeat constructor; simpl; intuition discriminate.
  - eexists. split; [vm_compute; right; left; reflexivity|reflexivity].
Qed.

(** A chain over the two classes, registered for two versions. *)
Example C59_chain_case : exists new,
  heap (snd (versioned_update o0 ["1.0"; "1.1"; "1.2"] [("1.0", late); ("1.1", early)] (fun _ => ret (Some "1.0"))
    (DElem 0) None None None true mem3)) = (heap mem3 ++ new)%list.
Proof.
  apply C59_chain_untouched; [|intros i s; reflexivity|apply mem3_wf].
  simpl. intros v up [E|[E|[]]]; inversion E; subst; [apply late_well_behaved|apply early_well_behaved].
Qed.

Example C59_chain_result : names_left
  (versioned_update o0 ["1.0"; "1.1"; "1.2"] [("1.0", late); ("1.1", early)] (fun _ => ret (Some "1.0"))
    (DElem 0) None None None true mem3) = Some [].
Proof. vm_compute. reflexivity. Qed.

(** In general forcing goes on with what the failed attempt left. *)
Theorem C60_refuted : exists o up d opts s t c s0 e s1 r s' r2 s2 e1 e2,
  well_behaved up /\ wf_state s /\ denotes s d t /\
  get_etree_root d true s = (Ok (tid c), s0) /\ heap s0 = (heap s ++ [c])%list /\ erase c = erase t /\
  attempt up (or_default o opts) (tid c) s0 (Err e) s1 /\ documented e /\
  updater_update o up d opts true s = (Ok r, s') /\ document s' (r_document r) e1 /\
  repairing up (or_default o opts) (tid c) s0 (Ok r2) s2 /\ document s2 (r_document r2) e2 /\
  map (fun k => h_tag (head k)) (kids e1) = [lq "c"] /\
  map (fun k => h_tag (head k)) (kids e2) = [lq "b"; lq "c"].
Proof.
  exists o0, late, (DElem 0), None, mem3, given3, (last (heap mem3') three), mem3'. do 8 eexists.
  split; [apply late_well_behaved|]. split; [apply mem3_wf|]. split; [apply mem3_given|].
  split; [vm_compute; reflexivity|]. split; [vm_compute; reflexivity|]. split; [vm_compute; reflexivity|].
  split; [eapply att_failed; vm_compute; reflexivity|]. split; [constructor|].
  split; [vm_compute; reflexivity|].
  split; [eexists; split; [vm_compute; right; left; reflexivity|split; vm_compute; reflexivity]|].
  split.
  { eapply rep_done with (r := Results _ (CDict []) (CTuple [])).
    - eapply cl_done; [vm_compute; reflexivity|vm_compute; reflexivity|split; reflexivity|vm_compute; reflexivity].
    - vm_compute; reflexivity.
    - repeat split. }
  split; [eexists; split; [vm_compute; right; left; reflexivity|split; vm_compute; reflexivity]|].
  split; vm_compute; reflexivity.
Qed.
Print Assumptions C60_refuted.
