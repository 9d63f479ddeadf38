(** * Two ways of describing how a document changes.

    Used by the specifications of the update steps.  Both are plain functions
    on trees; a node is described by its ancestors (nearest first) and its
    subtree, both as they are before the change.  No proofs in this file. *)

From Coq Require Import List.
From Verif Require Import Str Xml.
Import ListNotations.

(** Every node gets the header computed by [f]; the structure is unchanged. *)
Fixpoint edit (f : list tree -> tree -> hdr) (anc : list tree) (t : tree) : tree :=
  match t with
  | Node h ks => Node (f anc t) (map (edit f (t :: anc)) ks)
  end.

(** Top-most nodes below the root for which [F] gives a list are replaced by
    that list (the empty list removes them); all others are unchanged. *)
Fixpoint subst_nodes (F : list tree -> tree -> option (list tree)) (anc : list tree) (t : tree)
  : tree :=
  match t with
  | Node h ks =>
      Node h (flat_map (fun k => match F (t :: anc) k with
                                 | Some l => l
                                 | None => [subst_nodes F (t :: anc) k]
                                 end) ks)
  end.

(** Removal of the top-most nodes satisfying [p]. *)
Definition prune (p : list tree -> tree -> bool) : tree -> tree :=
  subst_nodes (fun anc t => if p anc t then Some [] else None) [].

(** Rewriting one by one: [G] says what each selected node becomes.  The nodes
    are taken in document order and the first failure is reported; a selected
    node inside another selected node is only rewritten as far as [G] of the
    outer one says. *)
Fixpoint first_err {A} (G : ctx -> res A) (l : list ctx) : option exn :=
  match l with
  | [] => None
  | c :: l' => match G c with
               | Err e => Some e
               | Ok _ => first_err G l'
               end
  end.

Definition rewrite_all (p : list tree -> tree -> bool) (G : tree -> res tree) (t : tree)
  : res tree :=
  match first_err (fun c => G (snd c)) (filter (fun c => p (fst c) (snd c)) (visits [] t)) with
  | Some e => Err e
  | None =>
      Ok (subst_nodes (fun anc x => if p anc x then
                                      match G x with
                                      | Ok e => Some [e]
                                      | Err _ => None
                                      end
                                    else None) [] t)
  end.

(** Running one pass after the other; the first failure ends it. *)
Definition rbind {A B} (r : res A) (k : A -> res B) : res B :=
  match r with Ok a => k a | Err e => Err e end.

Definition passes {A} (f : A -> tree -> res tree) (l : list A) (t : tree) : res tree :=
  fold_left (fun r x => rbind r (f x)) l (Ok t).
