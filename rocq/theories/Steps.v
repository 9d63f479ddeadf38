(** * A call as a sequence of single accesses to the shared memory.

    In Xml.v a call is a function from a memory to an outcome and a memory, as
    if nothing else could happen meanwhile.  Here it is a program: a tree of
    single accesses, each of which continues with what the access gave back.
    Such a program can be stopped between any two accesses, and the accesses
    of several programs can be interleaved.

    No proofs in this file. *)

From Coq Require Import String Ascii List Bool Arith.
From Verif Require Import Str Xml XPath Utils Base.
Import ListNotations.

(** The single accesses.  Each of them is one statement of /repo on lxml
    nodes.  SIMPLIFICATION: an XPath query, a deep copy and a namespace pass
    over a document (base.py:763-789) are single accesses. *)
Inductive op : Type -> Type :=
| Read (i : nat) : op ctx                       (* look at a node *)
| Write (i : nat) (f : hdr -> hdr) : op unit    (* change a node's own data *)
| Fresh : op nat                                (* a new node *)
| Copy (t : tree) : op tree                     (* copy.deepcopy *)
| Push (t : tree) : op nat                      (* a tree becomes a document *)
| Put (i : nat) (new : list tree) (x : tree) : op unit
    (* [new] in place of node [i], which goes on as the tree [x] *)
| Tick : op nat                                 (* one more id has been asked for *)
| Rebuild (u : cls) (root : nat) (c : ctx) : op nat.
    (* the namespace pass over the document at [root] *)

(** What an access does, as in Xml.v:286-325 and Base.v:569-575. *)
Definition exec {X} (a : op X) : Xml.M X :=
  match a with
  | Read i => Xml.deref i
  | Write i f => Xml.modify i f
  | Fresh => Xml.fresh
  | Copy t => Xml.copy_tree t
  | Push t => Xml.push t
  | Put i new x =>
      fun s => (Ok tt, St (map (tsubst i new) (heap s) ++ [x]) (next s) (gen s))
  | Tick => fun s => (Ok (gen s), St (heap s) (next s) (S (gen s)))
  | Rebuild u root c =>
      fun s => let '(t', n) := upd_ns u (fst c) (snd c) (next s) in
               (Ok (tid t'),
                St (map (fun t => if Nat.eqb (tid t) root then t' else t) (heap s)
                    ++ husks u (snd c)) n (gen s))
  end.

(** A program has come to its outcome, or makes an access and goes on. *)
Inductive prog (A : Type) : Type :=
| Done (r : res A)
| Do {X : Type} (a : op X) (k : res X -> prog A).
Arguments Done {A} r.
Arguments Do {A X} a k.

(** All accesses of a program, one after the other and with nothing between
    them. *)
Fixpoint run {A} (p : prog A) (s : st) : res A * st :=
  match p with
  | Done r => (r, s)
  | Do a k => run (k (fst (exec a s))) (snd (exec a s))
  end.

(** ** The combinators of Xml.v:227-340, for programs *)

Definition M (A : Type) := prog A.

Definition ret {A} (a : A) : M A := Done (Ok a).
Definition raise {A} (e : exn) : M A := Done (Err e).
Definition liftr {A} (r : res A) : M A := Done r.

Fixpoint bind {A B} (m : M A) (k : A -> M B) : M B :=
  match m with
  | Done (Ok a) => k a
  | Done (Err e) => Done (Err e)
  | Do a q => Do a (fun x => bind (q x) k)
  end.

Declare Scope step_scope.
Delimit Scope step_scope with step.
Notation "x <- m ;; k" := (bind m (fun x => k))
  (at level 61, m at next level, right associativity) : step_scope.
Notation "m ;;; k" := (bind m (fun _ => k))
  (at level 61, right associativity) : step_scope.
Open Scope step_scope.

Fixpoint try_catch {A} (m : M A) (h : exn -> option (M A)) : M A :=
  match m with
  | Done (Ok a) => Done (Ok a)
  | Done (Err e) => match h e with Some k => k | None => Done (Err e) end
  | Do a q => Do a (fun x => try_catch (q x) h)
  end.

Fixpoint for_each {A} (l : list A) (f : A -> M unit) : M unit :=
  match l with
  | [] => ret tt
  | x :: l' => f x ;;; for_each l' f
  end.

Fixpoint map_m {A B} (f : A -> M B) (l : list A) : M (list B) :=
  match l with
  | [] => ret []
  | x :: l' => y <- f x ;; ys <- map_m f l' ;; ret (y :: ys)
  end.

Fixpoint filter_m {A} (f : A -> M bool) (l : list A) : M (list A) :=
  match l with
  | [] => ret []
  | x :: l' =>
      b <- f x ;;
      r <- filter_m f l' ;;
      ret (if b : bool then x :: r else r)
  end.

Definition act {X} (a : op X) : M X := Do a (fun r => Done r).

Definition deref (i : nat) : M ctx := act (Read i).
Definition get_hdr (i : nat) : M hdr := c <- deref i ;; ret (head (snd c)).
Definition modify (i : nat) (f : hdr -> hdr) : M unit := act (Write i f).
Definition fresh : M nat := act Fresh.
Definition copy_tree (t : tree) : M tree := act (Copy t).
Definition push (t : tree) : M nat := act (Push t).
Definition supplant (i : nat) (new : list tree) : M unit :=
  c <- deref i ;;
  match parent c with
  | None => ret tt
  | Some _ => act (Put i new (snd c))
  end.
Definition new_elem (tag : qname) (text : option string) (ks : list tree) : M tree :=
  n <- fresh ;;
  ret (Node (Hdr n KElem tag [] [] text false None) ks).

(** Utils.v:102 [apply_new_id]: the id function is called, then the node is
    changed. *)
Definition apply_new_id (f : nat -> string -> string) (i : nat) : M unit :=
  h <- get_hdr i ;;
  match attr_get (lq "id") (h_attr h) with
  | None => raise KeyError
  | Some orig =>
      n <- act Tick ;;
      modify i (hset_attr (lq "id") (f n orig))
  end.

(** Base.v:569 [update_namespaces] *)
Definition update_namespaces (u : cls) (root : nat) : M nat :=
  c <- deref root ;;
  if upd_ns_fails u (snd c) then raise ValueError else act (Rebuild u root c).
