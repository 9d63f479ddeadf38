(** * /repo/ramrod/utils.py

    Function-by-function model.  No proofs in this file. *)

From Coq Require Import String Ascii List Bool Arith.
From Verif Require Import Str Xml XPath.
Import ListNotations.
Local Open Scope string_scope.

(** The documents accepted by the API: an lxml element, an lxml tree (given
    by its root element), or a file, represented by what the XML parser makes
    of it ([None]: not well-formed or not readable).  The parser itself
    (utils.py:30-40, 64-66) is not modelled. *)
Inductive docarg :=
| DElem (i : nat)
| DTree (i : nat)
| DFile (parsed : option tree).

(** utils.py:43-68 [get_etree_root] *)
Definition get_etree_root (d : docarg) (make_copy : bool) : M nat :=
  match d with
  | DElem i | DTree i =>
      if make_copy then
        c <- deref i ;; t <- copy_tree (snd c) ;; push t
      else ret i
  | DFile None => raise XMLSyntaxError
  | DFile (Some t) => t' <- copy_tree t ;; push t'
  end.

(** utils.py:71-80 [replace_xml_element]; [new] is a detached new tree, so
    the "old is new" case cannot arise. *)
Definition replace_xml_element (old : nat) (new : tree) : M unit :=
  supplant old [new].

(** utils.py:83-88 *)
Definition remove_xml_element (i : nat) : M unit := supplant i [].

(** utils.py:91-94 *)
Definition remove_xml_elements (l : list nat) : M unit :=
  for_each l remove_xml_element.

(** utils.py:97-104 [copy_xml_element(node, tag)].  Assigning [.tag] to a
    comment, PI or entity raises AttributeError in lxml. *)
Definition copy_xml_element (i : nat) (tag : option qname) : M tree :=
  c <- deref i ;;
  t <- copy_tree (snd c) ;;
  if is_elem t then
    match t with
    | Node h ks =>
        ret (Node (set_tag (match tag with Some q => q | None => h_tag h end) h) ks)
    end
  else raise AttributeError.

(** utils.py:107-122 *)
Definition remove_xml_attribute (i : nat) (a : qname) : M unit :=
  modify i (hdel_attr a).
Definition remove_xml_attributes (i : nat) (l : list qname) : M unit :=
  for_each l (remove_xml_attribute i).

(** utils.py:125-136 [get_type_info]: KeyError without xsi:type, ValueError
    unless there is exactly one colon. *)
Definition type_info (h : hdr) : res (string * string) :=
  match attr_get TAG_XSI_TYPE (h_attr h) with
  | None => Err KeyError
  | Some v =>
      match split_char ":" v with
      | [alias; typename] => Ok (alias, typename)
      | _ => Err ValueError
      end
  end.

Definition get_type_info (i : nat) : M (string * string) :=
  h <- get_hdr i ;; liftr (type_info h).

(** utils.py:139-149 [get_typed_nodes]: proper descendants only. *)
Definition get_typed_nodes (root : nat) : M (list nat) :=
  xpath root ".//*[@xsi:type]" [("xsi", NS_XSI)].

(** utils.py:152-174 [get_ext_namespace]: the namespace bound, at the node, to
    the part of xsi:type before the first colon. *)
Definition ext_namespace (c : ctx) : res string :=
  match attr_get TAG_XSI_TYPE (h_attr (head (snd c))) with
  | None => Err KeyError
  | Some v =>
      match env_get (Some (hd "" (split_char ":" v))) (env_of (fst c) (snd c)) with
      | Some ns => Ok ns
      | None => Err KeyError
      end
  end.

Definition get_ext_namespace (i : nat) : M string :=
  c <- deref i ;; liftr (ext_namespace c).

(** utils.py:177-207 [create_new_id]/[new_id]; the UUID of the k-th call is
    [uuid k].  KeyError without an id attribute. *)
Definition create_new_id (uuid : nat -> string) (k : nat) (orig : string) : string :=
  orig ++ "-cleaned-" ++ uuid k.

(** Call [options.new_id_func] on a node.  A custom function is modelled by
    the id it assigns, computed from the number of earlier calls and the
    node's current id (SIMPLIFICATION: it changes nothing else). *)
Definition apply_new_id (f : nat -> string -> string) (i : nat) : M unit :=
  h <- get_hdr i ;;
  match attr_get (lq "id") (h_attr h) with
  | None => raise KeyError
  | Some orig =>
      fun s => (modify i (hset_attr (lq "id") (f (gen s) orig)))
                 (St (heap s) (next s) (S (gen s)))
  end.

(** utils.py:239-253 [get_schemaloc_pairs]: [zip(l[::2], l[1::2])]. *)
Fixpoint pair_up (l : list string) : list (string * string) :=
  match l with
  | a :: b :: l' => (a, b) :: pair_up l'
  | _ => []
  end.

Definition schemaloc_pairs (v : string) : list (string * string) :=
  pair_up (split_ws v).

(** utils.py:256-268 [is_version_equal]; ValueError on a malformed version. *)
Definition is_version_equal (x y : string) : res bool :=
  match strict_version x, strict_version y with
  | Some a, Some b =>
      Ok (match sver_compare a b with Eq => true | _ => false end)
  | _, _ => Err ValueError
  end.

(** utils.py:271-287 [validate_version] *)
Definition validate_version (v : option string) (allowed : list string) : res unit :=
  match v with
  | None => Err UnknownVersionError
  | Some s =>
      if negb (truthy v) then Err UnknownVersionError
      else if mem_str s allowed then Ok tt
      else Err (InvalidVersionError None None None)
  end.

(** utils.py:290-306 [validate_versions] *)
Definition validate_versions (from to : option string) (allowed : list string) : res unit :=
  match validate_version from allowed with
  | Err e => Err e
  | Ok _ =>
      match validate_version to allowed with
      | Err e => Err e
      | Ok _ =>
          match from, to with
          | Some f, Some t =>
              match strict_version f, strict_version t with
              | Some a, Some b =>
                  match sver_compare a b with
                  | Lt => Ok tt
                  | _ => Err (InvalidVersionError None None None)
                  end
              | _, _ => Err ValueError
              end
          | _, _ => Err UnknownVersionError
          end
      end
  end.

(** utils.py:309-335 [iterchildren]/[children]/[iterdescendants]: elements only. *)
Definition elem_children (t : tree) : list tree := filter is_elem (kids t).

(** utils.py:338-345 [strip_whitespace] *)
Definition strip_whitespace (o : option string) : option string :=
  match o with
  | None => None
  | Some s => Some (join "" (split_ws s))
  end.
