(** * Words for what becomes of the caller's id function. *)

From Coq Require Import String List.
From Verif Require Import Xml Utils Base Spec SpecContract.
Import ListNotations.

(** [f] is called on the nodes of the list one after the other, each call
    finding what the earlier ones have left, until one of them raises. *)
Inductive calls (f : nat -> M unit) : list nat -> st -> res unit -> st -> Prop :=
| calls_none s : calls f [] s (Ok tt) s
| calls_raises i l s e s1 : f i s = (Err e, s1) -> calls f (i :: l) s (Err e) s1
| calls_more i l s s1 r s2 : f i s = (Ok tt, s1) -> calls f l s1 r s2 -> calls f (i :: l) s r s2.

(** It does as it likes with the document of the node it is handed, and leaves
    all others alone; it may raise. *)
Definition keeps_to_its_document (f : nat -> M unit) : Prop :=
  forall i, minds_its_own [i] (f i) (fun _ => []).

(** Cleaning the copy [c] in memory [s0] with the outcome [r]: the document is
    searched for what is to be taken away; then the id function is called on
    all nodes of the groups of duplicated ids, group by group and once each; if
    it raises, that is the end; if a result is returned, it has returned every
    time, and the groups are reported under the old ids, whatever it has done. *)
Definition asked (f : nat -> M unit) (found : tree -> res (list nat)) (groups : tree -> list (string * list nat))
  (c : tree) (s0 : st) (r : res results) (s' : st) : Prop :=
  match found c with
  | Err e => r = Err e /\ s' = s0
  | Ok _ => exists ro s1, calls f (flat_map snd (groups c)) s0 ro s1 /\
      (forall e, ro = Err e -> r = Err e /\ s' = s1) /\
      (forall x, r = Ok x -> ro = Ok tt /\ remapped_ids x = groups c)
  end.
