(** * What an update returns.

    [stix_single] and [cybox_single] say what one update step does with a
    document; [chain] runs several steps.  Plain functions of the document
    content.  No proofs in this file. *)

From Coq Require Import String Ascii List Bool Arith.
From Verif Require Import Str Xml Utils Base Spec SpecDoc SpecPass SpecStep SpecCheck SpecClean.
Import ListNotations.
Local Open Scope string_scope.

(** The document with its nodes numbered in document order from [n]; a
    working copy is numbered like this. *)
Definition numbered (n : nat) (t : tree) : tree := fst (renum n t).

(** The new document, the contents of the removed nodes, the replaced ids with
    the nodes that carried them (nodes of the document the step started from). *)
Record outcome := Outcome {
  new_document : tree;
  removed_subtrees : list tree;
  replaced : dict (list nat)
}.

(** Errors that [force] overrides. *)
Definition forceable (e : exn) : bool :=
  match e with
  | UpdateError _ _ | UnknownVersionError | InvalidVersionError _ _ _ => true
  | _ => false
  end.

(** Check, then change; when the check fails and [force] is set, clean, then
    change.  [g] counts the ids made so far. *)
Definition single (check : tree -> res unit) (dirt_of : tree -> res dirt) (change : tree -> res tree)
  (f : nat -> string -> string) (force : bool) (g : nat) (t : tree) : res outcome :=
  match check t with
  | Ok _ => rbind (change (erase t)) (fun e => Ok (Outcome e [] []))
  | Err x =>
      if force && forceable x then
        rbind (dirt_of t) (fun d =>
        rbind (change (erase (cleaned f g d t))) (fun e =>
        Ok (Outcome e (map erase (removed_content f g d t)) (snd d))))
      else Err x
  end.

Definition stix_single (o : oracle) (opts : options) (force : bool) (v : string) (g : nat) (t : tree)
  : res outcome :=
  match stix_check o opts v, stix_dirt o v, stix_step o opts v with
  | Some c, Some d, Some f => single c d f (new_id_func opts) force g t
  | _, _, _ => Err KeyError
  end.

Definition cybox_single (opts : options) (force : bool) (v : string) (g : nat) (t : tree)
  : res outcome :=
  match cybox_check opts v, cybox_dirt v, cybox_step opts v with
  | Some c, Some d, Some f => single c d f (new_id_func opts) force g t
  | _, _, _ => Err KeyError
  end.

(** How many ids a step has replaced. *)
Definition replacements (r : outcome) : nat := length (flat_map snd (replaced r)).

(** Several steps, each on the document the previous one returned, up to the
    first one that fails. *)
Fixpoint chain (one : string -> nat -> tree -> res outcome) (vs : list string) (g : nat) (e : tree)
  : res (tree * list tree * list (dict (list nat))) :=
  match vs with
  | [] => Ok (e, [], [])
  | v :: vs' =>
      rbind (one v g (numbered 0 e)) (fun r =>
      rbind (chain one vs' (g + replacements r) (new_document r)) (fun '(e', l, ds) =>
      Ok (e', (removed_subtrees r ++ l)%list, replaced r :: ds)))
  end.

(** Node [i] of a document, seen in its working copy numbered from [n]. *)
Definition shift_dict (n : nat) (d : dict (list nat)) : dict (list nat) :=
  map (fun kv => (fst kv, map (fun i => n + i) (snd kv))) d.

Definition shift_exn (n : nat) (e : exn) : exn :=
  match e with
  | UpdateError l d => UpdateError (option_map (map (fun i => n + i)) l) (option_map (shift_dict n) d)
  | InvalidVersionError i a b => InvalidVersionError (option_map (fun i => n + i) i) a b
  | _ => e
  end.

(** The replaced ids of several steps in one dictionary, as [dict.update] joins
    them; step [k] worked on a copy numbered from the [k]-th number of [ns]. *)
Definition merge (base : dict (list nat)) (ns : list nat) (ds : list (dict (list nat))) : dict (list nat) :=
  fold_left (fun a nd => dict_update a (shift_dict (fst nd) (snd nd))) (combine ns ds) base.

(** The error that names nodes by their place in document order, told about the
    document [T]. *)
Definition dict_about (T : tree) (d : dict (list nat)) : dict (list nat) :=
  map (fun kv => (fst kv, map (fun k => nth k (ids T) 0) (snd kv))) d.

Definition about (T : tree) (e : exn) : exn :=
  match e with
  | UpdateError l d =>
      UpdateError (option_map (map (fun k => nth k (ids T) 0)) l) (option_map (dict_about T) d)
  | InvalidVersionError k a b => InvalidVersionError (option_map (fun k => nth k (ids T) 0) k) a b
  | _ => e
  end.

(** The keys of a dictionary with the lengths of their values. *)
Definition sizes (d : dict (list nat)) : list (string * nat) :=
  map (fun kv => (fst kv, length (snd kv))) d.

(** Two results with the same content: the document, the removed nodes in
    order, the replaced ids with the number of their former holders. *)
Definition same_results (s1 : st) (r1 : results) (s2 : st) (r2 : results) : Prop :=
  exists e l,
    document s1 (r_document r1) e /\ document s2 (r_document r2) e /\
    Forall2 (document s1) (removed_nodes r1) l /\ Forall2 (document s2) (removed_nodes r2) l /\
    sizes (remapped_ids r1) = sizes (remapped_ids r2).

(** Two errors that tell the same about two copies of a document: the copies
    are numbered from [n1] and [n2]. *)
Definition same_error (e1 e2 : exn) : Prop :=
  exists e n1 n2, e1 = shift_exn n1 e /\ e2 = shift_exn n2 e.

(** Node [i] is in memory and its id attribute is [v]. *)
Definition holds_id (s : st) (i : nat) (v : string) : Prop :=
  exists anc x, node_at s i anc x /\ id_of x = Some v.

(** Between two memories the id function [f] was called with the numbers
    [gen s], ..., [gen s' - 1].  Each node listed in [d] under an old id now
    holds the id that one of these calls made from that old id, and no two
    nodes share a call. *)
Definition renumbering (f : nat -> string -> string) (s s' : st) (d : dict (list nat)) : Prop :=
  exists call : nat -> nat,
    (forall old l i, In (old, l) d -> In i l ->
       gen s <= call i < gen s' /\ holds_id s' i (f (call i) old)) /\
    (forall i j, In i (flat_map snd d) -> In j (flat_map snd d) -> call i = call j -> i = j).
