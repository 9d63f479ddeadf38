(** * What the translations of a step do to the fields they are about.

    No proofs in this file. *)

From Coq Require Import String Ascii List Bool Arith.
From Verif Require Import Str Xml Utils Base Spec SpecDoc SpecPass SpecStep SpecRead.
Import ListNotations.
Local Open Scope string_scope.

(** ** Documents with replaced or renamed fields *)

(** The outermost nodes of [t] that are fields are replaced by what they
    become; everything else is the same. *)
Inductive replaced_in (field : list tree -> tree -> Prop) (becomes : tree -> tree -> Prop)
  : list tree -> tree -> tree -> Prop :=
| replaced_here anc t t' : field anc t -> becomes t t' -> replaced_in field becomes anc t t'
| replaced_below anc h ks ks' : ~ field anc (Node h ks) ->
    Forall2 (replaced_in field becomes (Node h ks :: anc)) ks ks' ->
    replaced_in field becomes anc (Node h ks) (Node h ks').

(** All fields of [t] are renamed to [q]; everything else is the same. *)
Inductive renamed_in (field : list tree -> tree -> Prop) (q : qname)
  : list tree -> tree -> tree -> Prop :=
| renamed_here anc h h' ks ks' : field anc (Node h ks) ->
    h' = Hdr (h_id h) (h_kind h) q (h_decl h) (h_attr h) (h_text h) (h_cdata h) (h_tail h) ->
    Forall2 (renamed_in field q (Node h ks :: anc)) ks ks' ->
    renamed_in field q anc (Node h ks) (Node h' ks')
| renamed_below anc h ks ks' : ~ field anc (Node h ks) ->
    Forall2 (renamed_in field q (Node h ks :: anc)) ks ks' ->
    renamed_in field q anc (Node h ks) (Node h ks').

Definition element_named (q : qname) (t : tree) : Prop := h_kind (head t) = KElem /\ h_tag (head t) = q.

(** Every element [q] but the root. *)
Definition every_field (q : qname) (anc : list tree) (t : tree) : Prop := anc <> [] /\ element_named q t.

(** The elements [q] whose parent is not the root and has one of the names. *)
Definition field_of (parents : list qname) (q : qname) (anc : list tree) (t : tree) : Prop :=
  element_named q t /\ exists p anc', anc = p :: anc' /\ anc' <> [] /\ exists n, In n parents /\ element_named n p.

(** The elements [q] but the root with a child element [inner]. *)
Definition list_field (q inner : qname) (anc : list tree) (t : tree) : Prop :=
  every_field q anc t /\ exists k, In k (kids t) /\ element_named inner k.

(** ** What becomes of a field *)

(** A new element, without declarations and without text behind it. *)
Definition new_element (q : qname) (attrs : list (qname * string)) (text : option string) (ks : list tree) : tree :=
  Node (Hdr 0 KElem q [] attrs text false None) ks.

(** The same node under another name. *)
Definition with_name (q : qname) (t : tree) : tree :=
  let h := head t in
  Node (Hdr (h_id h) (h_kind h) q (h_decl h) (h_attr h) (h_text h) (h_cdata h) (h_tail h)) (kids t).

(** [v] is the first child element [q] of [t]. *)
Definition first_child (q : qname) (t v : tree) : Prop :=
  exists l1 l2, kids t = (l1 ++ v :: l2)%list /\ element_named q v /\ forall k, In k l1 -> ~ element_named q k.

(** A field of the same name with the text and the attributes of its child [q]. *)
Definition takes_value_of (q : qname) (t t' : tree) : Prop :=
  exists v attrs, first_child q t v /\
    t' = new_element (h_tag (head t)) attrs (h_text (head v)) [] /\
    (NoDup (map fst (h_attr (head v))) -> attrs = h_attr (head v)).

(** A field of the same name with its text and its attributes, the datatype
    becoming string where there is one. *)
Definition becomes_string (t t' : tree) : Prop :=
  exists attrs, t' = new_element (h_tag (head t)) attrs (h_text (head t)) [] /\
    (NoDup (map fst (h_attr (head t))) ->
     attrs = map (fun kv => if qn_eqb (fst kv) (lq "datatype") then (fst kv, "string") else kv) (h_attr (head t))).

(** Its (first) child [inner], as [q]. *)
Definition becomes_child (inner q : qname) (t t' : tree) : Prop :=
  exists k, first_child inner t k /\ t' = with_name q k.

(** A new element [q] with the field inside. *)
Definition wrapped_in (q : qname) (t t' : tree) : Prop := t' = new_element q [] None [t].

(** A new element [q] with the field inside, as [inner]. *)
Definition wrapped_as (q inner : qname) (t t' : tree) : Prop := t' = new_element q [] None [with_name inner t].

(** Contributing sources: each contributor is the identity of a source. *)
Definition contributors_wrapped (t t' : tree) : Prop :=
  t' = new_element (common "Contributing_Sources") [] None
         (map (fun k => new_element (common "Source") [] None [with_name (common "Identity") k]) (kids t)).

(** A source with an identity whose name is [name]: [t'] has the name [q],
    contains one element, Identity, which contains one element, Name, with
    this text. *)
Definition source_named (q : qname) (name : string) (t' : tree) : Prop :=
  exists identity nm, element_named q t' /\ kids t' = [identity] /\ h_attr (head t') = [] /\
    element_named (common "Identity") identity /\ kids identity = [nm] /\ h_attr (head identity) = [] /\
    element_named (common "Name") nm /\ kids nm = [] /\ h_attr (head nm) = [] /\
    h_text (head nm) = (if String.eqb name "" then None else Some name).

(** A source whose text is the name of its identity.  Text that cannot be read
    does not become a source. *)
Definition becomes_source (q : qname) (t t' : tree) : Prop :=
  (forall s, h_text (head t) = Some s -> without_tags s -> exists name, source_name (Some s) name) /\
  (forall name, source_name (h_text (head t)) name -> source_named q name t').

(** ** The translations of the steps *)

Inductive translation :=
| Replace (field : list tree -> tree -> Prop) (becomes : tree -> tree -> Prop)
| Renaming (field : list tree -> tree -> Prop) (q : qname).

Definition done (tr : translation) (t t' : tree) : Prop :=
  match tr with
  | Replace field becomes => replaced_in field becomes [] t t'
  | Renaming field q => renamed_in field q [] t t'
  end.

Fixpoint all_done (l : list translation) (t t' : tree) : Prop :=
  match l with
  | [] => t' = t
  | tr :: l' => exists m, done tr t m /\ all_done l' m t'
  end.

Definition uri_value : qname := object_name "URI" "Value".
Definition mailslot : qname := object_name "WinMailslot" "Handle".

Definition cybox_2_0_1_translations : list translation :=
  [Replace (every_field (http_name "DNT")) (takes_value_of uri_value);
   Replace (every_field (http_name "Vary")) (takes_value_of uri_value);
   Replace (every_field (http_name "Refresh")) becomes_string;
   Renaming (every_field (http_name "X_Requested_For")) (http_name "X_Forwarded_For");
   Renaming (every_field (packet_name "Authenication_Data")) (packet_name "Authentication_Data");
   Renaming (every_field (packet_name "Excapsulating_Security_Payload")) (packet_name "Encapsulating_Security_Payload");
   Renaming (every_field (packet_name "Protol_Addr_Size")) (packet_name "Proto_Addr_Size");
   Replace (list_field mailslot (object_name "WinHandle" "Handle"))
           (becomes_child (object_name "WinHandle" "Handle") mailslot)].

Definition stix_1_0_1_translations : list translation :=
  [Replace (every_field (common "Contributors")) contributors_wrapped;
   Replace (field_of [ttp "Exploit_Targets"] (common "Exploit_Target")) (wrapped_in (ttp "Exploit_Target"))].

Definition stix_1_1_translations : list translation :=
  [Replace (field_of sourced (common "Source")) (becomes_source (common "Source"));
   Replace (field_of [indicator "Sighting"] (indicator "Source")) (becomes_source (indicator "Source"));
   Replace (field_of [indicator "Related_Campaigns"] (indicator "Related_Campaign"))
           (wrapped_as (indicator "Related_Campaign") (common "Campaign"))].
