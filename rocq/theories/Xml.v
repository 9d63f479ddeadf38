(** * XML trees, the node heap, and the lxml operations the code uses.

    lxml nodes have identity: a Python variable holding a node keeps
    designating that node after it has been moved or removed.  The model makes
    identity explicit: every node carries a number [h_id], a Python reference
    to a node is that number, and the heap is the list of all trees that exist
    (the caller's documents, working copies, detached subtrees).
    No proofs in this file. *)

From Coq Require Import String Ascii List Bool Arith.
From Verif Require Import Str.
Import ListNotations.
Local Open Scope string_scope.

(** ** Names *)

(** An expanded name: lxml's "{ns}local", or "local" with no namespace. *)
Record qname := QN { q_ns : option string; q_local : string }.

Definition qn_eqb (a b : qname) : bool :=
  ostr_eqb (q_ns a) (q_ns b) && String.eqb (q_local a) (q_local b).

(** "{ns}local" and a name in no namespace. *)
Definition qn (ns l : string) : qname := QN (Some ns) l.
Definition lq (l : string) : qname := QN None l.

(** /repo/ramrod/xmlconst.py:10 *)
Definition NS_XSI : string := "http://www.w3.org/2001/XMLSchema-instance".
(** /repo/ramrod/xmlconst.py:16-17 *)
Definition TAG_XSI_TYPE : qname := qn NS_XSI "type".
Definition TAG_SCHEMALOCATION : qname := qn NS_XSI "schemaLocation".

(** ** Nodes and trees *)

(** lxml child nodes are elements, comments, processing instructions and
    (with resolve_entities=False, /repo/ramrod/utils.py:34) entity references. *)
Inductive kind := KElem | KComment | KPI | KEntity.

(** A node without its children.
    - [h_tag]: expanded element name (meaningless for the other kinds);
    - [h_decl]: namespace declarations made on this very node
      (prefix, uri), [None] being the default namespace;
    - [h_attr]: attributes in document order;
    - [h_text]: the text before the first child node (for a comment, a PI or
      an entity: its content);
    - [h_cdata]: whether that text contains a CDATA section;
    - [h_tail]: the text between this node and its next sibling.
    SIMPLIFICATIONS: a tail never contains a CDATA section; source lines and
    prefixes chosen by lxml at serialisation time are not represented. *)
Record hdr := Hdr {
  h_id : nat;
  h_kind : kind;
  h_tag : qname;
  h_decl : list (option string * string);
  h_attr : list (qname * string);
  h_text : option string;
  h_cdata : bool;
  h_tail : option string
}.

Inductive tree := Node (h : hdr) (ks : list tree).

Definition head (t : tree) : hdr := match t with Node h _ => h end.
Definition kids (t : tree) : list tree := match t with Node _ ks => ks end.
Definition tid (t : tree) : nat := h_id (head t).

Definition is_elem (t : tree) : bool :=
  match h_kind (head t) with KElem => true | _ => false end.

(** ** Header updates *)

Definition set_attrs (l : list (qname * string)) (h : hdr) : hdr :=
  Hdr (h_id h) (h_kind h) (h_tag h) (h_decl h) l (h_text h) (h_cdata h) (h_tail h).
Definition set_tag (q : qname) (h : hdr) : hdr :=
  Hdr (h_id h) (h_kind h) q (h_decl h) (h_attr h) (h_text h) (h_cdata h) (h_tail h).
(** [node.text = s] with a plain string: an existing CDATA section is lost. *)
Definition set_text (s : option string) (h : hdr) : hdr :=
  Hdr (h_id h) (h_kind h) (h_tag h) (h_decl h) (h_attr h) s false (h_tail h).
Definition set_id (n : nat) (h : hdr) : hdr :=
  Hdr n (h_kind h) (h_tag h) (h_decl h) (h_attr h) (h_text h) (h_cdata h) (h_tail h).

(** ** Attributes: lxml's [node.attrib] is a dict keyed by expanded names. *)

Fixpoint attr_get (k : qname) (l : list (qname * string)) : option string :=
  match l with
  | [] => None
  | (k', v) :: l' => if qn_eqb k k' then Some v else attr_get k l'
  end.

Definition has_attr (k : qname) (h : hdr) : bool :=
  match attr_get k (h_attr h) with Some _ => true | None => false end.

Fixpoint attr_set (k : qname) (v : string) (l : list (qname * string))
  : list (qname * string) :=
  match l with
  | [] => [(k, v)]
  | (k', v') :: l' =>
      if qn_eqb k k' then (k', v) :: l' else (k', v') :: attr_set k v l'
  end.

Fixpoint attr_del (k : qname) (l : list (qname * string)) : list (qname * string) :=
  match l with
  | [] => []
  | (k', v') :: l' => if qn_eqb k k' then l' else (k', v') :: attr_del k l'
  end.

Definition hset_attr (k : qname) (v : string) (h : hdr) : hdr :=
  set_attrs (attr_set k v (h_attr h)) h.
Definition hdel_attr (k : qname) (h : hdr) : hdr :=
  set_attrs (attr_del k (h_attr h)) h.

(** [new.attrib.update(node.attrib)] *)
Definition attr_update (l e : list (qname * string)) : list (qname * string) :=
  fold_left (fun acc kv => attr_set (fst kv) (snd kv) acc) e l.

(** ** Navigation *)

(** A node in context: its ancestors (nearest first) and its subtree. *)
Definition ctx := (list tree * tree)%type.

(** All nodes of a tree with their ancestors, in document order. *)
Fixpoint visits (anc : list tree) (t : tree) : list ctx :=
  match t with
  | Node h ks => (anc, t) :: flat_map (visits (t :: anc)) ks
  end.

(** Identifiers of all nodes, in document order. *)
Fixpoint ids (t : tree) : list nat :=
  match t with
  | Node h ks => h_id h :: flat_map ids ks
  end.

(** [node.getparent()] *)
Definition parent (c : ctx) : option tree :=
  match fst c with [] => None | p :: _ => Some p end.

(** The root element of the document holding the node. *)
Definition root_of (c : ctx) : tree := last (fst c) (snd c).

(** In-scope namespace declarations, innermost first; [node.nsmap] is this
    list read as a dict in which the first entry for a prefix wins. *)
Definition env_of (anc : list tree) (t : tree) : list (option string * string) :=
  flat_map (fun a => h_decl (head a)) (t :: anc).

Fixpoint env_get (p : option string) (e : list (option string * string)) : option string :=
  match e with
  | [] => None
  | (p', u) :: e' => if ostr_eqb p p' then Some u else env_get p e'
  end.

(** The items of the dict [node.nsmap] (each prefix once). *)
Fixpoint env_items (seen : list (option string)) (e : list (option string * string))
  : list (option string * string) :=
  match e with
  | [] => []
  | (p, u) :: e' =>
      if existsb (ostr_eqb p) seen then env_items seen e'
      else (p, u) :: env_items (p :: seen) e'
  end.

(** ** Whole-tree operations *)

(** Apply [f] to the header of node [i]. *)
Fixpoint tset (i : nat) (f : hdr -> hdr) (t : tree) : tree :=
  match t with
  | Node h ks => Node (if Nat.eqb (h_id h) i then f h else h) (map (tset i f) ks)
  end.

(** Replace the (non-root) node [i] by the list [new] in its parent. *)
Fixpoint tsubst (i : nat) (new : list tree) (t : tree) : tree :=
  match t with
  | Node h ks =>
      Node h (flat_map (fun k => if Nat.eqb (tid k) i then new
                                 else [tsubst i new k]) ks)
  end.

(** Renumber a tree in document order starting from [n] (fresh identities of
    a deep copy); also returns the next unused number. *)
Fixpoint renum (n : nat) (t : tree) : tree * nat :=
  match t with
  | Node h ks =>
      let fix go (m : nat) (l : list tree) : list tree * nat :=
        match l with
        | [] => ([], m)
        | k :: l' =>
            let '(k', m1) := renum m k in
            let '(l'', m2) := go m1 l' in
            (k' :: l'', m2)
        end in
      let '(ks', m) := go (S n) ks in
      (Node (set_id n h) ks', m)
  end.

(** The content of a tree, i.e. the tree with all identities forgotten. *)
Fixpoint erase (t : tree) : tree :=
  match t with
  | Node h ks => Node (set_id 0 h) (map erase ks)
  end.

(** ** The heap and the error-state monad *)

(** [gen] counts the calls made so far to the new-id function (uuid4). *)
Record st := St { heap : list tree; next : nat; gen : nat }.

(** Python exceptions.  [Dangling] is not a Python exception: it marks the
    use of a reference to a node that does not exist. *)
Inductive exn :=
| UpdateError (disallowed : option (list nat)) (duplicates : option (dict (list nat)))
| UnknownVersionError
| InvalidVersionError (node : option nat) (expected found : option string)
| KeyError
| ValueError
| IndexError
| TypeError
| AttributeError
| XMLSyntaxError
| XPathEvalError
| NotImplementedError
| Dangling.

Inductive res (A : Type) := Ok (a : A) | Err (e : exn).
Arguments Ok {A} a.
Arguments Err {A} e.

Definition M (A : Type) := st -> res A * st.

Definition ret {A} (a : A) : M A := fun s => (Ok a, s).
Definition raise {A} (e : exn) : M A := fun s => (Err e, s).
(** Sequencing; an exception keeps the mutations made so far. *)
Definition bind {A B} (m : M A) (k : A -> M B) : M B :=
  fun s => match m s with
           | (Ok a, s') => k a s'
           | (Err e, s') => (Err e, s')
           end.

Declare Scope py_scope.
Delimit Scope py_scope with py.
Notation "x <- m ;; k" := (bind m (fun x => k))
  (at level 61, m at next level, right associativity) : py_scope.
Notation "m ;;; k" := (bind m (fun _ => k))
  (at level 61, right associativity) : py_scope.
Open Scope py_scope.

(** [try: m except <caught>: h]. *)
Definition try_catch {A} (m : M A) (h : exn -> option (M A)) : M A :=
  fun s => match m s with
           | (Err e, s') => match h e with
                            | Some k => k s'
                            | None => (Err e, s')
                            end
           | r => r
           end.

(** [for x in l: f(x)] *)
Fixpoint for_each {A} (l : list A) (f : A -> M unit) : M unit :=
  match l with
  | [] => ret tt
  | x :: l' => f x ;;; for_each l' f
  end.

(** [[f(x) for x in l]] *)
Fixpoint map_m {A B} (f : A -> M B) (l : list A) : M (list B) :=
  match l with
  | [] => ret []
  | x :: l' => y <- f x ;; ys <- map_m f l' ;; ret (y :: ys)
  end.

(** [[x for x in l if f(x)]] *)
Fixpoint filter_m {A} (f : A -> M bool) (l : list A) : M (list A) :=
  match l with
  | [] => ret []
  | x :: l' =>
      b <- f x ;;
      r <- filter_m f l' ;;
      ret (if b : bool then x :: r else r)
  end.

Definition liftr {A} (r : res A) : M A := fun s => (r, s).

(** ** Node operations *)

(** Dereference a node. *)
Definition hfind (i : nat) (hp : list tree) : option ctx :=
  find (fun c => Nat.eqb (tid (snd c)) i) (flat_map (visits []) hp).

Definition deref (i : nat) : M ctx :=
  fun s => match hfind i (heap s) with
           | Some c => (Ok c, s)
           | None => (Err Dangling, s)
           end.

Definition get_hdr (i : nat) : M hdr :=
  c <- deref i ;; ret (head (snd c)).

(** In-place change of a node's own data (attributes, text, tag). *)
Definition modify (i : nat) (f : hdr -> hdr) : M unit :=
  fun s => (Ok tt, St (map (tset i f) (heap s)) (next s) (gen s)).

Definition fresh : M nat :=
  fun s => (Ok (next s), St (heap s) (S (next s)) (gen s)).

(** A fresh copy of a tree value ([copy.deepcopy]); the copy is not yet
    attached anywhere.  lxml copies the tail of the copied node as well.
    SIMPLIFICATION: namespace declarations that libxml2 re-adds at the top of
    a copy taken below their declaring ancestor are not represented; names are
    expanded, so element and attribute names are unaffected. *)
Definition copy_tree (t : tree) : M tree :=
  fun s => let '(t', n) := renum (next s) t in
           (Ok t', St (heap s) n (gen s)).

(** Add a tree to the heap as a document of its own. *)
Definition push (t : tree) : M nat :=
  fun s => (Ok (tid t), St (heap s ++ [t]) (next s) (gen s)).

(** [parent.remove(node)] / [parent.insert(idx, new); parent.remove(old)]:
    node [i], when it has a parent, is replaced by [new] and becomes a tree of
    its own; a node without parent is left alone (and [new] is discarded).
    lxml's [remove] takes the tail text along with the removed node. *)
Definition supplant (i : nat) (new : list tree) : M unit :=
  c <- deref i ;;
  match parent c with
  | None => ret tt
  | Some _ =>
      fun s => (Ok tt, St (map (tsubst i new) (heap s) ++ [snd c])
                          (next s) (gen s))
  end.

(** A new element with no declarations, attributes or tail
    ([etree.Element(tag)], then children appended). *)
Definition new_elem (tag : qname) (text : option string) (ks : list tree) : M tree :=
  n <- fresh ;;
  ret (Node (Hdr n KElem tag [] [] text false None) ks).
