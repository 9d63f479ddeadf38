(** * Words for a program that makes any number of calls, one after the other.

    No proofs in this file. *)

From Coq Require Import String List Bool Arith.
From Verif Require Import Str Xml XPath Utils Base Cybox Stix Ramrod Spec SpecUpdate.
Import ListNotations.

(** What the program may do: read a file into memory, call one of the three
    update functions, or call a method of the updater class for a version. *)
Inductive call :=
| Parse (t : tree)
| Update (d : docarg) (from to : option string) (opts : option options) (force : bool)
| StixUpdate (d : docarg) (from to : option string) (opts : option options) (force : bool)
| CyboxUpdate (d : docarg) (from to : option string) (opts : option options) (force : bool)
| StixStep (version : string) (d : docarg) (opts : option options) (force : bool)
| CyboxStep (version : string) (d : docarg) (opts : option options) (force : bool)
| StixClean (version : string) (d : docarg) (opts : option options)
| CyboxClean (version : string) (d : docarg) (opts : option options).

(** What comes back: a result or an exception.  A file that was read is given
    back as a result without reports; a version without a class is a KeyError
    of the table of classes. *)
Definition with_class (table : dict updater) (v : string) (m : updater -> M results) : M results :=
  match dict_get v table with Some up => m up | None => raise KeyError end.

Definition perform (o : oracle) (c : call) : M results :=
  match c with
  | Parse t => i <- get_etree_root (DFile (Some t)) false ;; ret (update_results i (CTuple []) (CDict []))
  | Update d from to opts force => ramrod_update o d from to opts force
  | StixUpdate d from to opts force => stix_update o d from to opts force
  | CyboxUpdate d from to opts force => cybox_update o d from to opts force
  | StixStep v d opts force => with_class (STIX_UPDATERS o) v (fun up => updater_update o up d opts force)
  | CyboxStep v d opts force => with_class (CYBOX_UPDATERS o) v (fun up => updater_update o up d opts force)
  | StixClean v d opts => with_class (STIX_UPDATERS o) v (fun up => clean o up d opts)
  | CyboxClean v d opts => with_class (CYBOX_UPDATERS o) v (fun up => clean o up d opts)
  end.

(** The memory after the calls, each of them made whatever became of the
    previous ones. *)
Fixpoint after (o : oracle) (cs : list call) (s : st) : st :=
  match cs with
  | [] => s
  | c :: cs' => after o cs' (snd (perform o c s))
  end.

(** The new id is made from the old one alone, so that it does not matter how
    often ids have been made before. *)
Definition forgets_calls (p : options) : Prop :=
  forall k k' old, new_id_func p k old = new_id_func p k' old.

(** Two calls, each from its own memory, come to the same: results with the
    same content, or errors that tell the same. *)
Definition same_outcome (a b : res results * st) : Prop :=
  match a, b with
  | (Ok r1, s1), (Ok r2, s2) => same_results s1 r1 s2 r2
  | (Err e1, _), (Err e2, _) => same_error e1 e2
  | _, _ => False
  end.

(** One of the three update functions. *)
Definition update_call (c : call) : option (docarg * option options * bool) :=
  match c with
  | Update d _ _ opts force | StixUpdate d _ _ opts force | CyboxUpdate d _ _ opts force => Some (d, opts, force)
  | _ => None
  end.
