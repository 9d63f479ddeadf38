(** * Helpers of the base class and of utils.py that no shipped updater calls,
    offered to the authors of updater classes.  No proofs in this file. *)

From Coq Require Import String Ascii List Bool Arith.
From Verif Require Import Str Xml XPath Utils Base UpdateNs.
Import ListNotations.
Local Open Scope string_scope.

(** base.py:481-483 [_is_leaf]: the XPath "./*" selects child elements only. *)
Definition is_leaf (i : nat) : M bool :=
  c <- deref i ;;
  ret (match elem_children (snd c) with [] => true | _ :: _ => false end).

(** base.py:485-499 [_get_ns_alias]: [root.nsmap] maps prefixes to namespaces
    and is asked for the key [ns]. *)
Definition get_ns_alias (root : nat) (ns : string) : M (option string) :=
  c <- deref root ;;
  ret (env_get (Some ns) (env_of (fst c) (snd c))).

(** base.py:597-599 [_remove_schemalocations] *)
Definition remove_schemalocations (root : nat) : M unit :=
  remove_xml_attribute root TAG_SCHEMALOCATION.

(** base.py:682-685: the new tag of one node.  Without a namespace [node_ns] is
    None, and so is [updated_ns] (no key of the map is None):
    [node.tag.replace(None, None)] raises TypeError.  Otherwise the namespace is
    replaced wherever it occurs in the tag as a string, and lxml reads the
    string it is assigned. *)
Definition updated_tag (m : dict string) (q : qname) : res qname :=
  match q_ns q with
  | None => Err TypeError
  | Some ns => unclark (replace ns (dict_getd ns ns m) (clark q))
  end.

(** base.py:671-685 [_apply_namespace_updates]: the descendant elements, in
    document order. *)
Definition apply_namespace_updates (u : cls) (root : nat) : M unit :=
  c <- deref root ;;
  for_each (map (fun d => tid (snd d)) (filter (fun d => is_elem (snd d)) (tl (visits (fst c) (snd c)))))
    (fun i => h <- get_hdr i ;;
              q <- liftr (updated_tag (c_ns_map u) (h_tag h)) ;;
              modify i (set_tag q)).

(** What utils.py:220-236 [get_node_text] returns: a plain text (or None), or
    an [etree.CDATA]. *)
Inductive node_text := Plain (s : option string) | Section (s : string).

(** utils.py:220-236.  [behind] says whether the text behind the node has a
    CDATA section, which headers do not record: [etree.tostring] writes that
    text too.  [etree.CDATA] raises TypeError for None and ValueError for a text
    with "]]>". *)
Definition get_node_text (behind : bool) (t : tree) : res node_text :=
  match kids t with
  | _ :: _ => Ok (Plain None)
  | [] =>
      if h_cdata (head t) || behind then
        match h_text (head t) with
        | None => Err TypeError
        | Some s => if contains "]]>" s then Err ValueError else Ok (Section s)
        end
      else Ok (Plain (h_text (head t)))
  end.
