(** * Words for calls that are made at the same time, or interrupted.

    Several threads work on one memory.  Each of them makes one call, as a
    program of single accesses (Steps.v); at any moment any thread that has
    not finished may make its next access.  A call that is interrupted
    (KeyboardInterrupt, MemoryError, the end of its thread) is one that never
    makes its next access.

    No proofs in this file. *)

From Coq Require Import String List Bool Arith.
From Verif Require Import Str Xml XPath Utils Base SpecSession Steps.
From Verif Require Stepwise.
Import ListNotations.

(** A thread: what remains to be done, and the identities it may still give
    to new nodes, from [supply] up to [limit].  (In /repo the identity of a
    node is its address; no two nodes have the same one.) *)
Record thread := Thread { code : prog results; supply : nat; limit : nat }.

(** The memory shared by the threads: the trees and the number of ids that
    the id function has made, for whatever thread. *)
Record machine := Machine { shared : list tree; made : nat; threads : list thread }.

(** One access by one thread, whichever it is. *)
Inductive step : machine -> machine -> Prop :=
| one_access : forall hp g before X (a : op X) k n lim after r hp' n' g',
    exec a (St hp n g) = (r, St hp' n' g') ->
    n' <= lim ->
    step (Machine hp g (before ++ Thread (Do a k) n lim :: after))
         (Machine hp' g' (before ++ Thread (k r) n' lim :: after)).

(** Any number of accesses, in any order. *)
Inductive steps : machine -> machine -> Prop :=
| steps_none m : steps m m
| steps_more m1 m2 m3 : steps m1 m2 -> step m2 m3 -> steps m1 m3.

(** A call with the identities set aside for its nodes. *)
Record job := Job { j_call : call; j_from : nat; j_to : nat }.

(** All calls are about to begin. *)
Definition start (o : oracle) (hp : list tree) (g : nat) (jobs : list job) : machine :=
  Machine hp g (map (fun j => Thread (Stepwise.perform o (j_call j)) (j_from j) (j_to j)) jobs).

(** The document a call is about. *)
Definition subject (c : call) : docarg :=
  match c with
  | Parse t => DFile (Some t)
  | Update d _ _ _ _ | StixUpdate d _ _ _ _ | CyboxUpdate d _ _ _ _
  | StixStep _ d _ _ | CyboxStep _ d _ _ | StixClean _ d _ | CyboxClean _ d _ => d
  end.

(** A file, or a node of a document that is there. *)
Definition present (hp : list tree) (d : docarg) : Prop :=
  match d with
  | DElem i | DTree i => In i (flat_map ids hp)
  | DFile _ => True
  end.

(** Every call is about a file or a document that was there from the start,
    and the new nodes of different calls are different nodes. *)
Definition well_prepared (hp : list tree) (jobs : list job) : Prop :=
  Forall (fun j => present hp (subject (j_call j))) jobs /\
  Forall (fun j => forall i, In i (flat_map ids hp) -> i < j_from j) jobs /\
  ForallOrdPairs (fun a b => j_to a <= j_from b \/ j_to b <= j_from a) jobs.

(** The call has finished with the outcome [r]. *)
Definition finished (m : machine) (k : nat) (r : res results) : Prop :=
  exists n lim, nth_error (threads m) k = Some (Thread (Done r) n lim).

(** The memory of the machine, as the calls of a single thread see it. *)
Definition memory_of (m : machine) : st :=
  St (shared m) (fold_right Nat.max 0 (map S (flat_map ids (shared m)))) (made m).

(** The call makes no new ids, or makes them from the old ones alone. *)
Definition reproducible (o : oracle) (c : call) : Prop :=
  match c with
  | Parse _ => True
  | Update _ _ _ opts force | StixUpdate _ _ _ opts force | CyboxUpdate _ _ _ opts force
  | StixStep _ _ opts force | CyboxStep _ _ opts force =>
      force = true -> forgets_calls (or_default o opts)
  | StixClean _ _ opts | CyboxClean _ _ opts => forgets_calls (or_default o opts)
  end.
