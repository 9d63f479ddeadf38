(** * What the parts of an update step do to a document.

    Plain functions on document content (trees whose identities do not
    matter).  Nothing here refers to memory, XPath strings or the updater
    code; tables (namespace, schema location and vocabulary tables) are
    parameters.  No proofs in this file. *)

From Coq Require Import String Ascii List Bool Arith.
From Verif Require Import Str Xml Utils Base SpecDoc.
Import ListNotations.
Local Open Scope string_scope.

(** ** Vocabulary *)

(** An element with the given name. *)
Definition named (q : qname) (t : tree) : bool :=
  match h_kind (head t) with KElem => qn_eqb (h_tag (head t)) q | _ => false end.

Definition named_in (qs : list qname) (t : tree) : bool := existsb (fun q => named q t) qs.

(** Not the root of the document. *)
Definition inside (anc : list tree) : bool := match anc with [] => false | _ => true end.

(** The parent is an element below the root with one of the given names. *)
Definition child_of (qs : list qname) (anc : list tree) : bool :=
  match anc with
  | p :: anc' => named_in qs p && inside anc'
  | [] => false
  end.

(** A change of the root element only. *)
Definition on_root (f : hdr -> hdr) (t : tree) : tree := Node (f (head t)) (kids t).

(** A change of the selected nodes only. *)
Definition edit_where (p : list tree -> tree -> bool) (g : hdr -> hdr) : tree -> tree :=
  edit (fun anc t => if p anc t then g (head t) else head t) [].

(** A new element without attributes, declarations or tail. *)
Definition element (q : qname) (ks : list tree) : tree :=
  Node (Hdr 0 KElem q [] [] None false None) ks.

Definition renamed_to (q : qname) (t : tree) : tree := Node (set_tag q (head t)) (kids t).

(** ** Schema locations: pairs of a disallowed namespace are dropped, the
    others get the new namespace name and the location known for it. *)
Fixpoint in_pairs (l : list string) : list (string * string) :=
  match l with
  | ns :: loc :: l' => (ns, loc) :: in_pairs l'
  | _ => []
  end.

Definition lookup (k d : string) (m : dict string) : string :=
  match dict_get k m with Some v => v | None => d end.

Definition relocated (drop : list string) (ns_map loc_map : dict string) (v : string) : string :=
  join "   "
    (map (fun p => let ns := lookup (fst p) (fst p) ns_map in
                   ns ++ " " ++ lookup ns (snd p) loc_map)
       (filter (fun p => negb (mem_str (fst p) drop)) (in_pairs (split_ws v)))).

Definition schemaloc_pass (drop : list string) (ns_map loc_map : dict string) : tree -> tree :=
  on_root (fun h =>
    match attr_get TAG_SCHEMALOCATION (h_attr h) with
    | Some v => hset_attr TAG_SCHEMALOCATION (relocated drop ns_map loc_map v) h
    | None => h
    end).

(** ** Versions *)

Definition stamp_cybox_2_0_1 (h : hdr) : hdr :=
  hset_attr (lq "cybox_update_version") "1"
    (hset_attr (lq "cybox_minor_version") "0"
       (hset_attr (lq "cybox_major_version") "2" h)).

Definition stamp_cybox_2_1 (h : hdr) : hdr :=
  hdel_attr (lq "cybox_update_version")
    (hset_attr (lq "cybox_minor_version") "1"
       (hset_attr (lq "cybox_major_version") "2" h)).

Definition stamp_stix (indicator other : string) (h : hdr) : hdr :=
  hset_attr (lq "version")
    (if String.eqb (q_local (h_tag h)) "Indicator" then indicator else other) h.

(** ** List values: commas become "##comma##" and "&comma;" becomes a comma in
    the text of every element below a Properties element of an Object. *)
Definition convert_text (h : hdr) : hdr :=
  match h_text h with
  | Some s => if String.eqb s "" then h
              else set_text (Some (replace "&comma;" "," (replace "," "##comma##" s))) h
  | None => h
  end.

Fixpoint repeat_edit (n : nat) (h : hdr) : hdr :=
  match n with
  | O => h
  | S n' => convert_text (repeat_edit n' h)
  end.

(** How many of the nodes above are such Properties elements. *)
Fixpoint properties_above (obj prop : qname) (anc : list tree) : nat :=
  match anc with
  | p :: (g :: _) as anc' =>
      (if named prop p && named obj g then 1 else 0) + properties_above obj prop anc'
  | _ => 0
  end.

Definition lists_pass (obj prop : qname) : tree -> tree :=
  edit (fun anc t => if is_elem t then repeat_edit (properties_above obj prop anc) (head t)
                     else head t) [].

(** ** Controlled vocabularies *)

(** An element below the root carrying xsi:type. *)
Definition typed (c : ctx) : bool :=
  inside (fst c) && is_elem (snd c) && has_attr TAG_XSI_TYPE (head (snd c)).

(** Its xsi:type: prefix, type name and the namespace the prefix stands for. *)
Definition type_of (c : ctx) : res (string * string * string) :=
  match attr_get TAG_XSI_TYPE (h_attr (head (snd c))) with
  | None => Err KeyError
  | Some v =>
      match split_char ":" v with
      | [alias; name] =>
          match env_get (Some alias) (env_of (fst c) (snd c)) with
          | Some ns => Ok (alias, name, ns)
          | None => Err KeyError
          end
      | _ => Err ValueError
      end
  end.

(** A term of an outdated version of the vocabulary. *)
Definition outdated (v : vocab) (c : ctx) : bool :=
  typed c &&
  match type_of c with
  | Ok (_, name, ns) => String.eqb ns (v_namespace v) && mem_str name (v_old_types v)
  | Err _ => false
  end.

Definition set_if_present (k : qname) (v : pystr) (h0 : hdr) (h : hdr) : res hdr :=
  if has_attr k h0 then
    match v with PStr s => Ok (hset_attr k s h) | PTuple _ => Err TypeError end
  else Ok h.

(** The header of an outdated term after the update. *)
Definition upgraded_with (v : vocab) (alias : string) (h : hdr) : res hdr :=
  rbind (set_if_present (lq "vocab_reference") (v_reference v) h
           (hset_attr TAG_XSI_TYPE (alias ++ ":" ++ v_new_type v) h)) (fun h1 =>
  rbind (set_if_present (lq "vocab_name") (v_name v) h h1) (fun h2 =>
  Ok (match h_text h with
      | Some text => match dict_get text (v_terms v) with
                     | Some new => set_text (Some new) h2
                     | None => h2
                     end
      | None => h2
      end))).

Definition upgraded (v : vocab) (c : ctx) : res hdr :=
  rbind (type_of c) (fun i => upgraded_with v (fst (fst i)) (head (snd c))).

(** One vocabulary: every xsi:type must be readable; every outdated term is
    upgraded. *)
Definition vocab_pass (v : vocab) (t : tree) : res tree :=
  match first_err type_of (filter typed (visits [] t)) with
  | Some e => Err e
  | None =>
      match first_err (upgraded v) (filter (outdated v) (visits [] t)) with
      | Some e => Err e
      | None =>
          Ok (edit (fun anc x => if outdated v (anc, x) then
                                   match upgraded v (anc, x) with
                                   | Ok h => h
                                   | Err _ => head x
                                   end
                                 else head x) [] t)
      end
  end.

(** ** Optional fields *)

(** No element of the subtree has an attribute or text that is not blank. *)
Definition blank_text (s : option string) : bool :=
  match s with None => true | Some s => match split_ws s with [] => true | _ => false end end.

Definition blank (t : tree) : bool :=
  forallb (fun c => let h := head (snd c) in
                    negb (is_elem (snd c))
                    || (match h_attr h with [] => true | _ => false end && blank_text (h_text h)))
    (visits [] t).

Definition optional_pass (p : list tree -> tree -> bool) : tree -> tree :=
  prune (fun anc t => p anc t && blank t).

(** The same for the child elements of the nodes of one xsi:type; every
    xsi:type must be readable. *)
Definition of_type (name ns : string) (c : ctx) : bool :=
  typed c && match type_of c with
             | Ok (_, n, u) => String.eqb n name && String.eqb u ns
             | Err _ => false
             end.

Definition optional_in_type (name ns : string) (t : tree) : res tree :=
  match first_err type_of (filter typed (visits [] t)) with
  | Some e => Err e
  | None => Ok (prune (fun anc x => match anc with
                                    | p :: anc' => of_type name ns (anc', p) && is_elem x && blank x
                                    | [] => false
                                    end) t)
  end.

(** ** Translations: what a selected node becomes. *)

(** A value moved up from the node selected by [p] inside. *)
Definition take_value (p : ctx -> bool) (copy : bool) (override : list (qname * string))
  (t : tree) : res tree :=
  match filter p (visits [] t) with
  | [] => Err IndexError
  | c :: _ =>
      let hv := head (snd c) in
      let attrs := if copy then attr_update [] (h_attr hv) else [] in
      Ok (Node (Hdr 0 KElem (h_tag (head t)) []
                  (fold_left (fun acc kv => if has_attr (fst kv) hv
                                            then attr_set (fst kv) (snd kv) acc else acc)
                     override attrs)
                  (h_text hv) false None) [])
  end.

Definition wrap (wrapper : qname) (t : tree) : res tree := Ok (element wrapper [t]).

Definition wrap_renamed (wrapper q : qname) (t : tree) : res tree :=
  Ok (element wrapper [renamed_to q t]).

(** Contributors: each becomes the Identity of a Source. *)
Definition contributing_sources (ns : string) (t : tree) : res tree :=
  if forallb is_elem (kids t) then
    Ok (element (qn ns "Contributing_Sources")
          (map (fun k => element (qn ns "Source") [renamed_to (qn ns "Identity") k]) (kids t)))
  else Err AttributeError.

(** A Source holding text, rebuilt as a structured Source: the text is pasted
    into an XML template, which is then parsed ([parse_source]). *)
Definition structured_source (o : oracle) (sighting : bool) (t : tree) : res tree :=
  match parse_source o sighting (match h_text (head t) with Some s => s | None => "None" end) with
  | Some t' => Ok (erase t')
  | None => Err XMLSyntaxError
  end.

(** A wrapper element below the root replaced by its (first) child of the
    given name, renamed. *)
Definition unwrap_pass (outer inner new : qname) : tree -> tree :=
  subst_nodes (fun anc t =>
    if inside anc && named outer t then
      match filter (named inner) (kids t) with
      | k :: _ => Some [renamed_to new k]
      | [] => None
      end
    else None) [].

(** ** Namespaces: every element (reached through elements) whose namespace is
    in the table is rebuilt with the new namespace.  It keeps its attributes;
    its declarations are those in scope, translated; it keeps its text only
    when it has no children and always loses its tail. *)
Definition new_ns (m : dict string) (ns : string) : string := lookup ns ns m.

Definition rebuilt (drop : list string) (m : dict string) (anc : list tree) (t : tree) : hdr :=
  let h := head t in
  Hdr (h_id h) KElem
    (QN (match q_ns (h_tag h) with Some ns => Some (new_ns m ns) | None => None end)
        (q_local (h_tag h)))
    (map (fun p => (fst p, new_ns m (snd p)))
       (filter (fun p => negb (mem_str (snd p) drop)) (env_items [] (env_of anc t))))
    (attr_update [] (h_attr h))
    (match kids t with [] => h_text h | _ => None end)
    (match kids t with [] => h_cdata h | _ => false end)
    None.

Definition moves (m : dict string) (t : tree) : bool :=
  match q_ns (h_tag (head t)) with
  | Some ns => mem_str ns (map fst m)
  | None => false
  end.

Fixpoint ns_pass (drop : list string) (m : dict string) (anc : list tree) (t : tree) : tree :=
  match t with
  | Node h ks =>
      Node (if moves m t then rebuilt drop m anc t else h)
           (map (fun k => if is_elem k then ns_pass drop m (t :: anc) k else k) ks)
  end.

(** The text that is kept is kept as a CDATA section if it had one, and a CDATA
    section cannot contain "]]>": the pass then fails. *)
Definition breaks_section (t : tree) : bool :=
  match kids t with
  | [] => h_cdata (head t) && contains "]]>" (match h_text (head t) with Some s => s | None => "" end)
  | _ :: _ => false
  end.

Fixpoint stuck (m : dict string) (t : tree) : bool :=
  match t with
  | Node h ks => moves m t && breaks_section t || existsb (fun k => is_elem k && stuck m k) ks
  end.

Definition namespaces_pass (drop : list string) (m : dict string) (t : tree) : res tree :=
  if stuck m t then Err ValueError else Ok (ns_pass drop m [] t).
