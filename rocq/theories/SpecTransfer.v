(** * Words for the translation of fields that keep their type.

    No proofs in this file. *)

From Coq Require Import String Ascii List Bool Arith.
From Verif Require Import Str Xml XPath Spec SpecField SpecHelper.
Import ListNotations.

(** The header of the new element for a field with the header [h]: the new name
    (or the old one), the attributes as copied and overridden, no declarations,
    no text, nothing behind it. *)
Definition new_header (tag : option qname) (copy : bool) (over : list (qname * string)) (h h' : hdr) : Prop :=
  h_kind h' = KElem /\ h_tag h' = match tag with Some q => q | None => h_tag h end /\
  h_decl h' = [] /\ h_text h' = None /\ h_tail h' = None /\
  forall k, attr_of k h' = new_attribute copy over h k.

(** Every node chosen, inside another or not, is a new element with the same
    children; all others stay. *)
Definition moved (l : list ralt) (tag : option qname) (copy : bool) (over : list (qname * string)) : tree -> tree -> Prop :=
  node_by_node (fun anc x h' => if chosen l anc x then new_header tag copy over (head x) h' else h' = head x) [].

(** Node by node, every prefix means the same. *)
Definition same_scopes (t t' : tree) : Prop :=
  Forall2 (fun c c' => forall p, env_get p (env_of (fst c') (snd c')) = env_get p (env_of (fst c) (snd c))) (visits [] t) (visits [] t').

(** Node by node, text and tail are the same. *)
Definition same_texts (t t' : tree) : Prop :=
  Forall2 (fun c c' => h_text (head (snd c')) = h_text (head (snd c)) /\ h_tail (head (snd c')) = h_tail (head (snd c))) (visits [] t) (visits [] t').
