(** What registering updater classes is meant to do, said over the history of
    the attempts and without the dictionaries the code keeps. *)
From Coq Require Import List String.
From Verif Require Import Str Xml XPath Utils Base Cybox Stix Register.
Import ListNotations.

(** [a] is the last of the attempts in [h] of which [P] holds. *)
Definition last_such {A} (P : A -> Prop) (h : list A) (a : A) : Prop :=
  exists before after,
    h = before ++ a :: after /\ P a /\ forall x, In x after -> ~ P x.

(** The attempt is one the package accepts: its version is a known one. *)
Definition accepted (a : family * uclass) : Prop :=
  In (u_version (snd a)) (known_versions (fst a)).

(** The attempt is an accepted one for version [v] of [f]. *)
Definition for_version (f : family) (v : string) (a : family * uclass) : Prop :=
  fst a = f /\ u_version (snd a) = v /\ accepted a.

(** The class lists the helper class [k] somewhere. *)
Definition lists_helper (u : uclass) (k : string) : Prop :=
  (exists d, In (k, d) (u_disallowed u)) \/ (exists d, In (k, d) (u_opt_elems u)) \/
  (exists d, In (k, d) (u_opt_attrs u)) \/ (exists d, In (k, d) (u_trans u)).

(** The attempt gives the helper class [k] a namespace table. *)
Definition wires (k : string) (a : family * uclass) : Prop :=
  accepted a /\ lists_helper (snd a) k.

(** Two classes neither compete for a version nor share a helper. *)
Definition apart (a b : family * uclass) : Prop :=
  (fst a = fst b -> u_version (snd a) <> u_version (snd b)) /\
  (forall k, lists_helper (snd a) k -> ~ lists_helper (snd b) k).

(** So do any two attempts in [h]. *)
Definition independent : list (family * uclass) -> Prop := ForallOrdPairs apart.

(** The class [u] as it is after registration in [w] is the one the rest of
    the model calls [c]: the same version, table and fields, and every helper
    it lists has the table the model gives it. *)
Definition stands_for (w : world) (u : uclass) (c : cls) : Prop :=
  u_version u = c_version c /\ u_nsmap u = c_nsmap c /\
  map snd (u_disallowed u) = c_disallowed c /\
  map snd (u_opt_elems u) = c_opt_elems c /\
  map snd (u_opt_attrs u) = c_opt_attrs c /\
  map snd (u_trans u) = c_trans c /\
  forall k, lists_helper u k -> dict_get k (w_nsmaps w) = Some (c_klass_nsmap c).
