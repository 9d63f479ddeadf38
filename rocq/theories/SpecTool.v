(** * What the XML helpers of utils.py and of the base class should do, for any
    node of any document.  No proofs in this file. *)

From Coq Require Import String Ascii List Bool Arith.
From Verif Require Import Str Xml XPath Utils Spec SpecDoc SpecPass SpecTrace SpecField SpecLocation SpecRead SpecFault SpecName SpecHelper.
Import ListNotations.
Local Open Scope string_scope.

(** Below the root of the first document the node [x] gives way to [l]; nothing
    else changes. *)
Inductive put_in (x : tree) (l : list tree) : tree -> tree -> Prop :=
| put_here h before after :
    put_in x l (Node h (before ++ x :: after)%list) (Node h (before ++ l ++ after)%list)
| put_deeper h before k k' after :
    put_in x l k k' -> put_in x l (Node h (before ++ k :: after)%list) (Node h (before ++ k' :: after)%list).

(** Below the root the nodes listed in [l] go, with all they contain; nothing
    else changes. *)
Inductive without (l : list nat) : tree -> tree -> Prop :=
| without_node h ks ks' : without_all l ks ks' -> without l (Node h ks) (Node h ks')
with without_all (l : list nat) : list tree -> list tree -> Prop :=
| without_none : without_all l [] []
| without_gone k ks ks' : In (tid k) l -> without_all l ks ks' -> without_all l (k :: ks) ks'
| without_kept k k' ks ks' : ~ In (tid k) l -> without l k k' -> without_all l ks ks' -> without_all l (k :: ks) (k' :: ks').

(** The document [T] in memory becomes [T'], with the same root node; all other
    documents stay. *)
Definition changed (s : st) (T T' : tree) (s' : st) : Prop :=
  wf_state s' /\ In T' (heap s') /\ tid T' = tid T /\ forall X, In X (heap s) -> X <> T -> In X (heap s').

(** A tree of nodes that belong to no document. *)
Definition detached (s : st) (N : tree) : Prop :=
  NoDup (ids N) /\ forall i, In i (ids N) -> i < next s /\ ~ In i (flat_map ids (heap s)).

(** The same element with another name, if one is given. *)
Definition with_tag (tag : option qname) (t : tree) : tree :=
  match t with Node h ks => Node (match tag with Some q => set_tag q h | None => h end) ks end.

(** Only the header of node [i] changes, as [R] says. *)
Definition only_node (i : nat) (R : hdr -> hdr -> Prop) : tree -> tree -> Prop :=
  node_by_node (fun _ y h' => (tid y = i -> R (head y) h') /\ (tid y <> i -> h' = head y)) [].

(** The attributes in [l] go. *)
Definition attributes_go (l : list qname) (h h' : hdr) : Prop :=
  exists f, attributes_become f h h' /\ forall k, (In k l -> f k = None) /\ (~ In k l -> f k = attr_of k h).

(** The attribute [k] has the value [v]; the others are as before. *)
Definition attribute_is (k : qname) (v : string) (h h' : hdr) : Prop :=
  exists f, attributes_become f h h' /\ f k = Some v /\ forall j, j <> k -> f j = attr_of j h.

(** No colon in [s]. *)
Definition no_colon (s : string) : Prop := forall a b, s <> a ++ ":" ++ b.

(** Only the namespace of the name changes. *)
Definition in_namespace (ns : string) (h h' : hdr) : Prop :=
  h' = set_tag (QN (Some ns) (q_local (h_tag h))) h.

(** What [_apply_namespace_updates] says: every element below the root is in
    the successor of its namespace. *)
Definition namespaces_applied (m : dict string) (anc : list tree) (x : tree) (h' : hdr) : Prop :=
  match q_ns (h_tag (head x)) with
  | Some ns => if is_elem x && negb (match anc with [] => true | _ => false end)
               then in_namespace (lookup ns ns m) (head x) h' else h' = head x
  | None => h' = head x
  end.

(** A namespace name as it can be replaced in a tag: not empty, no brace, and
    nowhere in the local name. *)
Definition replaceable (ns local : string) : Prop :=
  ns <> "" /\ (forall a b, ns <> a ++ "{" ++ b) /\ (forall a b, ns <> a ++ "}" ++ b) /\ (forall a b, local <> a ++ ns ++ b).

(** A namespace name and a local name as lxml accepts them. *)
Definition proper (ns local : string) : Prop :=
  ns <> "" /\ (forall a b, ns <> a ++ "}" ++ b) /\
  local <> "" /\ (forall a b, local <> a ++ "{" ++ b) /\ (forall a b, local <> a ++ "}" ++ b).
