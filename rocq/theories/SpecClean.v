(** * What cleaning does to a document.

    Functions of the document [t]; nodes are named by their identities.
    No proofs in this file. *)

From Coq Require Import String Ascii List Bool Arith.
From Verif Require Import Str Xml Utils Base Spec SpecDoc SpecPass SpecStep SpecCheck.
Import ListNotations.
Local Open Scope string_scope.

(** The place of [i] in a list, counted from 0. *)
Fixpoint position (i : nat) (l : list nat) : option nat :=
  match l with
  | [] => None
  | j :: l' => if Nat.eqb i j then Some 0 else option_map S (position i l')
  end.

(** The listed nodes get new ids, made by [f] from a running number (starting
    at [g]) and the old id; nothing else changes. *)
Definition fresh_ids (f : nat -> string -> string) (g : nat) (l : list nat) : tree -> tree :=
  edit (fun _ x => match position (tid x) l, id_of x with
                   | Some k, Some old => hset_attr (lq "id") (f (g + k) old) (head x)
                   | _, _ => head x
                   end) [].

(** The document without the listed nodes. *)
Definition without (l : list nat) : tree -> tree :=
  prune (fun _ x => existsb (Nat.eqb (tid x)) l).

(** The removed nodes, in the order of the list; what had been removed before
    from inside a node is missing from it. *)
Fixpoint taken (before l : list nat) (t : tree) : list tree :=
  match l with
  | [] => []
  | i :: l' =>
      (map (without before) (filter (fun x => Nat.eqb (tid x) i) (map snd (visits [] t)))
       ++ taken (before ++ [i]) l' t)%list
  end.

(** What there is to clean: nodes to remove and ids to replace. *)
Definition dirt : Type := (list nat * dict (list nat))%type.

(** The nodes whose id is replaced. *)
Definition renumbered (d : dirt) : list nat := flat_map snd (snd d).

Definition cleaned (f : nat -> string -> string) (g : nat) (d : dirt) (t : tree) : tree :=
  without (fst d) (fresh_ids f g (renumbered d) t).

Definition removed_content (f : nat -> string -> string) (g : nat) (d : dirt) (t : tree) : list tree :=
  taken [] (fst d) (fresh_ids f g (renumbered d) t).

(** By starting version.  The STIX 1.2 step cannot clean. *)
Definition stix_dirt (o : oracle) (v : string) : option (tree -> res dirt) :=
  dict_get v
    [("1.0", fun t => rbind (untranslatable stix_1_0_rules t) (fun l => Ok (l, [])));
     ("1.0.1", fun t => rbind (untranslatable (stix_1_0_1_rules o) t) (fun l => Ok (l, stix_duplicates t)));
     ("1.1", fun _ => Ok ([], []));
     ("1.1.1", fun _ => Ok ([], []));
     ("1.2", fun _ => Err NotImplementedError)].

Definition cybox_dirt (v : string) : option (tree -> res dirt) :=
  dict_get v
    [("2.0", fun _ => Ok ([], []));
     ("2.0.1", fun t => rbind (untranslatable cybox_2_0_1_rules t) (fun l => Ok (l, cybox_duplicates t)))].
