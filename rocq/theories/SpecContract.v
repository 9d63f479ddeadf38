(** * What an updater class written by someone else must keep to, and what the
    base class then does with it.

    Only [Spec.documented] (the three exceptions forcing recovers from) is
    used from elsewhere. *)

From Coq Require Import String List Bool Arith.
From Verif Require Import Str Xml Utils Base Cybox Spec.
Import ListNotations.

(** The documents [old] are all there, in front of others that share no node
    with them, and no identity of theirs will be given out again. *)
Definition in_front (old : list tree) (s : st) : Prop :=
  exists rest, heap s = (old ++ rest)%list /\
    (forall i, In i (flat_map ids old) -> ~ In i (flat_map ids rest)) /\
    (forall i, In i (flat_map ids old) -> i < next s).

(** A method that is handed [nodes] leaves every document alone that none of
    them belongs to, and what it [yields] belongs to none of those either.
    This says nothing about how it ends: it may raise anything. *)
Definition minds_its_own {A} (nodes : list nat) (m : M A) (yields : A -> list nat) : Prop :=
  forall old s, in_front old s ->
    (forall i, In i nodes -> ~ In i (flat_map ids old)) ->
    in_front old (snd (m s)) /\
    (forall a, fst (m s) = Ok a -> forall i, In i (yields a) -> ~ In i (flat_map ids old)).

Definition some_nodes (l : option (list nat)) : list nat :=
  match l with Some l => l | None => [] end.
Definition dict_nodes (d : list (string * list nat)) : list nat := flat_map snd d.
Definition some_dict_nodes (d : option (list (string * list nat))) : list nat :=
  match d with Some d => dict_nodes d | None => [] end.

(** The contract: each overridable method minds its own document. *)
Record well_behaved (up : updater) : Prop := {
  wb_check : forall root opts, minds_its_own [root] (up_check up root opts) (fun _ => []);
  wb_update : forall root opts, minds_its_own [root] (up_update up root opts) (fun _ => []);
  wb_disallowed : forall root, minds_its_own [root] (up_get_disallowed up root) some_nodes;
  wb_duplicates : forall root, minds_its_own [root] (up_get_duplicates up root) some_dict_nodes;
  wb_clean_disallowed : forall l opts, minds_its_own l (up_clean_disallowed up l opts) (fun _ => []);
  wb_clean_duplicates : forall d opts, minds_its_own (dict_nodes d) (up_clean_duplicates up d opts) (fun _ => [])
}.

(** ** What the base class does with the methods *)

Section Methods.
  Variables (up : updater) (opts : options) (root : nat).

  (** Check, then update. *)
  Inductive attempt (s : st) : res nat -> st -> Prop :=
  | att_refused e s1 : up_check up root opts s = (Err e, s1) -> attempt s (Err e) s1
  | att_failed e s1 s2 : up_check up root opts s = (Ok tt, s1) ->
      up_update up root opts s1 = (Err e, s2) -> attempt s (Err e) s2
  | att_done new s1 s2 : up_check up root opts s = (Ok tt, s1) ->
      up_update up root opts s1 = (Ok new, s2) -> attempt s (Ok new) s2.

  (** Both searches are made before anything is changed; then the duplicated
      ids are renewed and the disallowed nodes are taken away, each only if the
      search found something. *)
  Definition renewed (dup : option (list (string * list nat))) (s : st)
    (r : res (list (string * list nat))) (s' : st) : Prop :=
    match dup with
    | None | Some [] => r = Ok [] /\ s' = s
    | Some d => up_clean_duplicates up d opts s = (r, s')
    end.

  Definition taken_away (dis : option (list nat)) (s : st) (r : res (list nat)) (s' : st) : Prop :=
    match dis with
    | None | Some [] => r = Ok [] /\ s' = s
    | Some l => up_clean_disallowed up l opts s = (r, s')
    end.

  (** [cleaning s (Ok (removed, remapped)) s']. *)
  Inductive cleaning (s : st) : res (list nat * list (string * list nat)) -> st -> Prop :=
  | cl_search1 e s1 : up_get_disallowed up root s = (Err e, s1) -> cleaning s (Err e) s1
  | cl_search2 dis e s1 s2 : up_get_disallowed up root s = (Ok dis, s1) ->
      up_get_duplicates up root s1 = (Err e, s2) -> cleaning s (Err e) s2
  | cl_renew dis dup e s1 s2 s3 : up_get_disallowed up root s = (Ok dis, s1) ->
      up_get_duplicates up root s1 = (Ok dup, s2) ->
      renewed dup s2 (Err e) s3 -> cleaning s (Err e) s3
  | cl_take dis dup remapped e s1 s2 s3 s4 : up_get_disallowed up root s = (Ok dis, s1) ->
      up_get_duplicates up root s1 = (Ok dup, s2) ->
      renewed dup s2 (Ok remapped) s3 -> taken_away dis s3 (Err e) s4 -> cleaning s (Err e) s4
  | cl_done dis dup removed remapped s1 s2 s3 s4 : up_get_disallowed up root s = (Ok dis, s1) ->
      up_get_duplicates up root s1 = (Ok dup, s2) ->
      renewed dup s2 (Ok remapped) s3 -> taken_away dis s3 (Ok removed) s4 ->
      cleaning s (Ok (removed, remapped)) s4.

  (** The node [root] is, in memory [s], the root of a document. *)
  Definition still_root (s : st) : Prop :=
    NoDup (flat_map ids (heap s)) /\ exists t, In t (heap s) /\ tid t = root.

  (** A report as the caller reads it. *)
  Definition reads_as (r : results) (new : nat) (removed : list nat)
    (remapped : list (string * list nat)) : Prop :=
    r_document r = new /\ coll_items (r_removed r) = removed /\ coll_dict (r_remapped r) = remapped.

  (** The whole method.  Forcing goes on with the document as the failed
      attempt left it. *)
  Inductive updating (force : bool) (s : st) : res results -> st -> Prop :=
  | upd_done new r s1 : attempt s (Ok new) s1 -> reads_as r new [] [] -> updating force s (Ok r) s1
  | upd_raised e s1 : attempt s (Err e) s1 -> force = false \/ ~ documented e ->
      updating force s (Err e) s1
  | upd_uncleaned e e' s1 s2 : attempt s (Err e) s1 -> force = true -> documented e ->
      cleaning s1 (Err e') s2 -> updating force s (Err e') s2
  | upd_unforced e e' removed remapped s1 s2 s3 : attempt s (Err e) s1 -> force = true -> documented e ->
      cleaning s1 (Ok (removed, remapped)) s2 -> up_update up root opts s2 = (Err e', s3) ->
      updating force s (Err e') s3
  | upd_forced e new removed remapped r s1 s2 s3 : attempt s (Err e) s1 -> force = true -> documented e ->
      cleaning s1 (Ok (removed, remapped)) s2 -> up_update up root opts s2 = (Ok new, s3) ->
      reads_as r new removed remapped -> updating force s (Ok r) s3.

  (** Cleaning, then updating, with nothing before. *)
  Inductive repairing (s : st) : res results -> st -> Prop :=
  | rep_uncleaned e s1 : cleaning s (Err e) s1 -> repairing s (Err e) s1
  | rep_failed e removed remapped s1 s2 : cleaning s (Ok (removed, remapped)) s1 ->
      up_update up root opts s1 = (Err e, s2) -> repairing s (Err e) s2
  | rep_done new removed remapped r s1 s2 : cleaning s (Ok (removed, remapped)) s1 ->
      up_update up root opts s1 = (Ok new, s2) -> reads_as r new removed remapped -> repairing s (Ok r) s2.
End Methods.

(** A method that has changed nothing when it raises one of the three
    exceptions forcing recovers from. *)
Definition fails_cleanly {A} (m : M A) : Prop :=
  forall s e s', m s = (Err e, s') -> documented e -> s' = s.

(** A method that only looks. *)
Definition only_looks {A} (m : M A) : Prop := forall s, snd (m s) = s.
