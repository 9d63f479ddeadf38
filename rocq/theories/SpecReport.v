(** * Words for what checks and cleaning report.

    No proofs in this file. *)

From Coq Require Import String Ascii List Bool Arith NArith.
From Verif Require Import Str Xml Utils Base Tables Spec SpecDoc SpecPass SpecStep SpecCheck.
Import ListNotations.
Local Open Scope string_scope.

(** The declared version denotes the same number as [v] ("1.1" and "1.1.0" do),
    or a different one. *)
Definition same_version (found : option string) (v : string) : Prop :=
  exists w n p, found = Some w /\ version_number w n p /\ version_number v n p.

Definition other_version (found v : string) : Prop :=
  exists n p m q, version_number found n p /\ version_number v m q /\ (n, p) <> (m, q).

(** The version of a STIX package. *)
Definition stix_declared (t : tree) : option string := given (attr_get (lq "version") (h_attr (head t))).

(** The nodes of [T] satisfying [p]. *)
Definition every (p : list tree -> tree -> bool) (T : tree) (P : tree -> Prop) : Prop :=
  forall anc x, In (anc, x) (visits [] T) -> p anc x = true -> P x.

(** [x] is the first node of [T], in document order, satisfying [p]. *)
Definition first_of (p : list tree -> tree -> bool) (T x : tree) : Prop :=
  exists anc rest, selected p T = (anc, x) :: rest.

(** The CybOX version that goes with a STIX version, and where it is looked
    for, as far as the step checks it. *)
Definition embedded (v : string) : option (string * (list tree -> tree -> bool)) :=
  dict_get v [("1.0", ("2.0", anywhere cybox_in_stix_1_0));
              ("1.0.1", ("2.0.1", any_inside cybox_in_stix_1_0_1))].

(** The versions found are those the step starts from. *)
Definition stix_versions_ok (v : string) (T : tree) : Prop :=
  (forall x, first_of (anywhere [stix "STIX_Package"]) T x -> same_version (stix_declared x) v) /\
  (forall cv p, embedded v = Some (cv, p) -> every p T (fun x => same_version (cybox_declared x) cv)).

Definition cybox_versions_ok (v : string) (T : tree) : Prop :=
  every (anywhere [cybox "Observables"]) T (fun x => same_version (cybox_declared x) v).

(** [i] is the identity of a node that a rule is about. *)
Definition offends (r : rule) (T : tree) (i : nat) : Prop :=
  exists anc x, In (anc, x) (visits [] T) /\
    match r with
    | Elements p => p anc x = true /\ tid x = i
    | Instances name ns => of_type name ns (anc, x) = true /\ tid x = i
    | Parents p => p anc x = true /\ exists q anc', anc = q :: anc' /\ tid q = i
    end.

(** [i] is the identity of an element below the root of [T] that has the id
    [name] and a name in one of the namespaces. *)
Definition bears (nss : list string) (name : string) (T : tree) (i : nat) : Prop :=
  exists anc x ns, In (anc, x) (visits [] T) /\ anc <> [] /\ is_elem x = true /\ tid x = i /\
    id_of x = Some name /\ q_ns (h_tag (head x)) = Some ns /\ In ns nss.

(** The nodes of [T] that stay when the nodes [l] are taken out with their
    subtrees: neither the node nor an ancestor is in [l].  The root (the last
    of node and ancestors) always stays. *)
Definition survivors (l : list nat) (T : tree) : list ctx :=
  filter (fun c => negb (existsb (fun y => existsb (Nat.eqb (tid y)) l) (removelast (snd c :: fst c))))
    (visits [] T).

(** The headers of a node and its ancestors. *)
Definition path (c : ctx) : list hdr := map head (snd c :: fst c).

(** The header of a node after its id was replaced: only the id differs. *)
Definition with_new_id (new : option string) (h h' : hdr) : Prop :=
  exists attrs, h' = set_attrs attrs h /\ map fst attrs = map fst (h_attr h) /\
    (forall q, q <> lq "id" -> attr_get q attrs = attr_get q (h_attr h)) /\
    attr_get (lq "id") attrs
    = match new with Some i => Some i | None => attr_get (lq "id") (h_attr h) end.
