(** * Translatable fields without an XPATH_VALUE: the branches of
      [TranslatableField] that Base.v leaves out, because no shipped class uses
      them.  No proofs in this file. *)

From Coq Require Import String Ascii List Bool Arith.
From Verif Require Import Str Xml XPath Utils Base.
Import ListNotations.

(** The tree with the children of node [i] taken away. *)
Fixpoint tbare (i : nat) (t : tree) : tree :=
  match t with
  | Node h ks => Node h (if Nat.eqb (h_id h) i then [] else map (tbare i) ks)
  end.

(** base.py:149-151 [new[:] = old[:]]: lxml moves the child nodes of [old] (with
    their tails) into [new]; [old] keeps its text.  SIMPLIFICATION: namespace
    declarations that libxml2 re-adds at moved nodes for the names in them are
    not represented (names are expanded); a prefix that only occurs in a value,
    as in [xsi:type], is never re-declared. *)
Definition take_children (i : nat) : M (list tree) :=
  c <- deref i ;;
  fun s => (Ok (kids (snd c)), St (map (tbare i) (heap s)) (next s) (gen s)).

(** base.py:181-197 [_translate_fields] when XPATH_VALUE is empty or None:
    [etree.Element(tag)] without text, the children moved, and the attributes of
    [old] itself (base.py:168-169).  Then utils.py:71-80 [replace_xml_element];
    for a node without parent it does nothing, but the children have gone: they
    are in the new element, which is in no document. *)
Definition translate_same (tag : option qname) (copy : bool) (override : list (qname * string)) (i : nat) : M unit :=
  h <- get_hdr i ;;
  n <- fresh ;;
  ks <- take_children i ;;
  let new := Node (Hdr n KElem (match tag with Some q => q | None => h_tag h end) [] (translate_attributes copy override h) None false None) ks in
  c <- deref i ;;
  match parent c with
  | Some _ => replace_xml_element i new
  | None => push new ;;; ret tt
  end.

(** base.py:208-215 [translate] for such a class *)
Definition translate_moved (ns : nsmap_t) (xnode : string) (tag : option qname) (copy : bool) (override : list (qname * string)) (root : nat) : M unit :=
  found <- xpath root xnode ns ;;
  for_each found (translate_same tag copy override).
