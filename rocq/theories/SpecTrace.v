(** * Following nodes through a step.

    A step is run on a document whose nodes are labelled 1, 2, ...  A node of
    the result with label [i] stands for node [i] of the document; nodes made
    by the step are labelled 0.  No proofs in this file. *)

From Coq Require Import String Ascii List Bool Arith.
From Verif Require Import Str Xml Utils Base Spec SpecDoc SpecPass SpecStep SpecUpdate.
Import ListNotations.
Local Open Scope string_scope.

Fixpoint nodes (t : tree) : list tree :=
  match t with Node _ ks => t :: flat_map nodes ks end.

(** The document with its nodes labelled 1, 2, ... in document order. *)
Definition labelled (t : tree) : tree := numbered 1 t.

(** The labels in document order, without the zeros. *)
Definition labels (t : tree) : list nat := filter (fun i => negb (Nat.eqb i 0)) (ids t).

Inductive sublist {A} : list A -> list A -> Prop :=
| sub_nil l : sublist [] l
| sub_keep x l l' : sublist l l' -> sublist (x :: l) (x :: l')
| sub_skip x l l' : sublist l l' -> sublist l (x :: l').

(** Every labelled node of [e] stands for the node of [T] with its label, and
    the two are related by [R]. *)
Definition stems (R : hdr -> hdr -> Prop) (T e : tree) : Prop :=
  forall x, In x (nodes e) -> tid x <> 0 ->
  exists y, In y (nodes T) /\ tid y = tid x /\ R (head y) (head x).

(** [e] is made from [T]: its labelled nodes are nodes of [T] in their order,
    none twice; every node of [T] that is not inside a field for which [gone]
    holds is there, below the same nodes of [T] as before (and possibly below
    new nodes). *)
Definition carried (gone : hdr -> bool) (T e : tree) : Prop :=
  sublist (labels e) (labels T) /\
  forall anc x, In (anc, x) (visits [] T) -> (forall z, In z (x :: anc) -> gone (head z) = false) ->
  exists anc' x', In (anc', x') (visits [] e) /\ tid x' = tid x /\
    filter (fun i => negb (Nat.eqb i 0)) (map tid anc') = map tid anc.

(** ** The fields that a step replaces by new ones or may remove *)

Definition one_of (qs : list qname) (h : hdr) : bool := named_in qs (Node h []).

Definition cybox_2_0_1_replaced : list qname :=
  [http_name "DNT"; http_name "Vary"; http_name "Refresh"; object_name "WinMailslot" "Handle"].

(** The xsi:type is a generic test mechanism, with any prefix. *)
Definition generic_mechanism (h : hdr) : bool :=
  match attr_get TAG_XSI_TYPE (h_attr h) with
  | Some v => match split_char ":" v with
              | [_; name] => String.eqb name "GenericTestMechanismType"
              | _ => false
              end
  | None => false
  end.

Definition cybox_gone (opts : options) (v : string) (h : hdr) : bool :=
  String.eqb v "2.0.1" &&
  (one_of cybox_2_0_1_replaced h || remove_optionals opts && one_of cybox_2_1_optional h).

Definition stix_gone (opts : options) (v : string) (h : hdr) : bool :=
  (String.eqb v "1.0.1" &&
   (one_of (common "Contributors" :: cybox_2_0_1_replaced) h
    || remove_optionals opts &&
       one_of (marking "Controlled_Structure" :: marking "Marking_Structure" :: cybox_2_1_optional) h))
  || (String.eqb v "1.1" &&
      (one_of [common "Source"; indicator "Source"] h || remove_optionals opts && generic_mechanism h)).

(** The same with the surroundings of the node in [T]. *)
Definition stems_at (R : list tree -> tree -> hdr -> Prop) (T e : tree) : Prop :=
  forall x', In x' (nodes e) -> tid x' <> 0 ->
  exists anc x, In (anc, x) (visits [] T) /\ tid x = tid x' /\ R anc x (head x').

(** ** The document a step works on: the given one, or with force what cleaning
    makes of it. *)
Definition worked_on (o : oracle) (up : updater) (d : docarg) (opts : option options) (force : bool) (s : st)
  (t t1 : tree) : Prop :=
  t1 = erase t \/
  force = true /\ exists k s1, clean o up d opts s = (Ok k, s1) /\ document s1 (r_document k) t1.
