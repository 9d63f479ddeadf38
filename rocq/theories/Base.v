(** * /repo/ramrod/base.py, options.py, results.py

    Class attributes become record fields, methods become functions on the
    record, method overriding is done by the [updater] record at the end.
    No proofs in this file. *)

From Coq Require Import String Ascii List Bool Arith.
From Verif Require Import Str Xml XPath Utils.
Import ListNotations.
Local Open Scope string_scope.

(** ** What is taken from outside the modelled code.
    - [o_datetime t]: does libxml2's XMLSchema accept the element [t] as an
      xs:dateTime (stix_1_0_1.py:127-140)?  It sees content, not identities.
    - [o_fromstring xml]: [etree.fromstring(xml)], only consulted when the text
      spliced into the template contains markup or character references.
    - [o_uuid k]: the k-th [str(uuid.uuid4())]. *)
Record oracle := Oracle {
  o_datetime : tree -> bool;
  o_fromstring : string -> option tree;
  o_uuid : nat -> string
}.

(** ** options.py:7-44 *)
Record options := Options {
  check_versions : bool;
  new_id_func : nat -> string -> string;
  update_vocabularies : bool;
  remove_optionals : bool
}.

(** options.py:38-44 [DEFAULT_UPDATE_OPTIONS] *)
Definition default_options (o : oracle) : options :=
  Options true (create_new_id (o_uuid o)) true true.

Definition or_default (o : oracle) (x : option options) : options :=
  match x with Some p => p | None => default_options o end.

(** ** Controlled vocabularies (base.py:21-110) *)

(** A class attribute meant to be a string; a stray trailing comma in the
    source makes it a 1-tuple. *)
Inductive pystr := PStr (s : string) | PTuple (s : string).

Record vocab := Vocab {
  v_namespace : string;
  v_old_types : list string;
  v_new_type : string;
  v_reference : pystr;
  v_name : pystr;
  v_terms : dict string
}.

(** base.py:45-66 [Vocab.find] *)
Definition vocab_find (v : vocab) (typed : list nat) : M (list nat) :=
  filter_m (fun i =>
    ti <- get_type_info i ;;
    ns <- get_ext_namespace i ;;
    ret (String.eqb ns (v_namespace v) && mem_str (snd ti) (v_old_types v)))
    typed.

(** [attribs[k] = value]: lxml rejects a tuple with a TypeError. *)
Definition set_pystr (i : nat) (k : qname) (v : pystr) : M unit :=
  match v with
  | PStr s => modify i (hset_attr k s)
  | PTuple _ => raise TypeError
  end.

(** base.py:68-110 [Vocab.update], loop body *)
Definition vocab_update_node (v : vocab) (i : nat) : M unit :=
  ti <- get_type_info i ;;
  modify i (hset_attr TAG_XSI_TYPE (fst ti ++ ":" ++ v_new_type v)) ;;;
  h <- get_hdr i ;;
  (if has_attr (lq "vocab_reference") h
   then set_pystr i (lq "vocab_reference") (v_reference v) else ret tt) ;;;
  (if has_attr (lq "vocab_name") h
   then set_pystr i (lq "vocab_name") (v_name v) else ret tt) ;;;
  match h_text h with
  | None => ret tt
  | Some value =>
      match dict_get value (v_terms v) with
      | Some new => modify i (set_text (Some new))
      | None => ret tt
      end
  end.

Definition vocab_update (v : vocab) (typed : list nat) : M unit :=
  vs <- vocab_find v typed ;; for_each vs (vocab_update_node v).

(** ** Disallowed and optional fields (base.py:234-415) *)

(** The [_interrogate] overrides. *)
Inductive interrogation :=
| IAll                          (* base.py:257-275 *)
| IEmptyAttrs (attrs : list qname) (* base.py:351-377 OptionalAttributes *)
| IEmptyElem                    (* base.py:389-415 OptionalElements *)
| IOnlyExt (ns : string)        (* stix_1_0.py:54-68, 87-103; stix_1_0_1.py:64-80, 102-117 *)
| IManyKids                     (* cybox_2_0_1.py:47-70 *)
| IBadDateTime.                 (* stix_1_0_1.py:135-154 *)

Record dfield := DField {
  d_ctx_types : dict string;
  d_xpath : string;
  d_interrogate : interrogation
}.

(** base.py:389-397 [OptionalElements._is_empty]: no attribute and no
    non-blank [.text] on the node or any descendant element. *)
Definition is_empty (t : tree) : bool :=
  negb (existsb (fun c =>
    let h := head (snd c) in
    is_elem (snd c)
    && (negb (match h_attr h with [] => true | _ => false end)
        || truthy (strip_whitespace (h_text h))))
    (visits [] t)).

(** base.py:361-366, inner function of [OptionalAttributes._interrogate] *)
Definition empty_attr (h : hdr) (a : qname) : bool :=
  match attr_get a (h_attr h) with
  | Some v => String.eqb v ""
  | None => false
  end.

(** stix_1_0_1.py:64-76 [_check_maec]/[_check_capec]: every element child has
    an xsi:type that resolves to [ns] (vacuously true without children). *)
Definition only_ext (ns : string) (c : ctx) : bool :=
  forallb (fun k => match ext_namespace (snd c :: fst c, k) with
                    | Ok n => String.eqb n ns
                    | Err _ => false
                    end)
    (elem_children (snd c)).

(** stix_1_0_1.py:135-140 [_validate] *)
Definition valid_datetime (o : oracle) (t : tree) : bool :=
  truthy (h_text (head t)) && o_datetime o (erase t).

(** base.py:257-275 and the overrides listed above *)
Definition interrogate (o : oracle) (k : interrogation) (nodes : list nat) : M (list nat) :=
  match k with
  | IAll => ret nodes
  | IEmptyAttrs attrs =>
      filter_m (fun i => h <- get_hdr i ;; ret (existsb (empty_attr h) attrs)) nodes
  | IEmptyElem =>
      filter_m (fun i => c <- deref i ;; ret (is_empty (snd c))) nodes
  | IOnlyExt ns =>
      filter_m (fun i => c <- deref i ;; ret (only_ext ns c)) nodes
  | IManyKids =>
      filter_m (fun i => c <- deref i ;;
                         ret (Nat.ltb 1 (length (kids (snd c))))) nodes
  | IBadDateTime =>
      bad <- filter_m (fun i => c <- deref i ;;
                                ret (negb (valid_datetime o (snd c)))) nodes ;;
      map_m (fun i => c <- deref i ;;
                      match parent c with
                      | Some p => ret (tid p)
                      | None => raise AttributeError
                      end) bad
  end.

(** base.py:277-313 [_get_contexts]; [typed = None] means "search root". *)
Definition get_contexts (d : dfield) (root : nat) (typed : option (list nat)) : M (list nat) :=
  match d_ctx_types d with
  | [] => ret [root]
  | ctxs =>
      ty <- (match typed with Some l => ret l | None => get_typed_nodes root end) ;;
      filter_m (fun i =>
        ti <- get_type_info i ;;
        ns <- get_ext_namespace i ;;
        ret (ostr_eqb (dict_get (snd ti) ctxs) (Some ns))) ty
  end.

(** base.py:315-329 [find] *)
Fixpoint find_in (o : oracle) (d : dfield) (ns : nsmap_t) (contexts : list nat) : M (list nat) :=
  match contexts with
  | [] => ret []
  | c :: cs =>
      nodes <- xpath c (d_xpath d) ns ;;
      found <- interrogate o (d_interrogate d) nodes ;;
      rest <- find_in o d ns cs ;;
      ret (found ++ rest)%list
  end.

Definition dfind (o : oracle) (d : dfield) (ns : nsmap_t) (root : nat)
  (typed : option (list nat)) : M (list nat) :=
  contexts <- get_contexts d root typed ;;
  find_in o d ns contexts.

(** ** Translatable fields (base.py:113-231) *)

(** The translation classes:
    - [TDefault]: base.py:146-197 with XPATH_NODE, XPATH_VALUE, NEW_TAG,
      COPY_ATTRIBUTES, OVERRIDE_ATTRIBUTES.  SIMPLIFICATION: the branches for
      a false XPATH_VALUE (base.py:149-151, 168-169) are dropped, no class
      uses them;
    - [TRenamed]: base.py:218-231;
    - [TExploitTargets]: stix_1_0_1.py:157-190;
    - [TContributors]: stix_1_0_1.py:193-256;
    - [TCommonSource], [TSightingsSource]: stix_1_1.py:27-138;
    - [TRelatedCampaign]: stix_1_1.py:141-180;
    - [TMailslot]: cybox_2_0_1.py:209-223. *)
Inductive tkind :=
| TDefault (xvalue : string) (new_tag : option qname) (copy : bool)
           (override : list (qname * string))
| TRenamed (new_tag : qname)
| TExploitTargets (tag : qname)
| TContributors (ns_common : string)
| TCommonSource
| TSightingsSource
| TRelatedCampaign (wrapper new_tag : qname)
| TMailslot (new_tag : qname).

Record tfield := TField { t_xnode : string; t_kind : tkind }.

(** base.py:153-179 [_translate_attributes], on a new element without
    attributes *)
Definition translate_attributes (copy : bool) (override : list (qname * string))
  (source : hdr) : list (qname * string) :=
  let copied := if copy then attr_update [] (h_attr source) else [] in
  fold_left (fun acc kv =>
               if has_attr (fst kv) source then attr_set (fst kv) (snd kv) acc
               else acc) override copied.

(** base.py:181-197 [_translate_fields] with [_translate_value]
    (base.py:143-151): [old.xpath(xpath)[0]] raises IndexError when nothing
    matches. *)
Definition translate_default (ns : nsmap_t) (xvalue : string) (new_tag : option qname)
  (copy : bool) (override : list (qname * string)) (i : nat) : M tree :=
  h <- get_hdr i ;;
  vs <- xpath i xvalue ns ;;
  match vs with
  | [] => raise IndexError
  | v :: _ =>
      hv <- get_hdr v ;;
      n <- fresh ;;
      ret (Node (Hdr n KElem
                   (match new_tag with Some q => q | None => h_tag h end)
                   [] (translate_attributes copy override hv)
                   (h_text hv) false None) [])
  end.

(** stix_1_0_1.py:161-190 [TransTTPExploitTargets._translate_fields]
    stix_1_1.py:146-180 [TransIndicatorRelatedCampaign._translate_fields]:
    a copy of the node (renamed for the second) inside a new wrapper. *)
Definition translate_wrap (wrapper : qname) (new_tag : option qname) (i : nat) : M tree :=
  dup <- copy_xml_element i new_tag ;;
  new_elem wrapper None [dup].

(** stix_1_0_1.py:197-256 [TransCommonContributors._translate_fields]: every
    child node, whatever its kind, is copied, renamed and wrapped. *)
Definition translate_contributors (ns : string) (i : nat) : M tree :=
  c <- deref i ;;
  sources <- map_m (fun k =>
               dup <- copy_xml_element (tid k) (Some (qn ns "Identity")) ;;
               new_elem (qn ns "Source") None [dup]) (kids (snd c)) ;;
  new_elem (qn ns "Contributing_Sources") None sources.

(** *** Sources rebuilt through a text template (stix_1_1.py:81-91, 128-138) *)

Definition NS_COMMON_1 : string := "http://stix.mitre.org/common-1".
Definition NS_INDICATOR_2 : string := "http://stix.mitre.org/Indicator-2".

(** [str.format(node.text)]: [None] is printed as "None". *)
Definition format_text (o : option string) : string :=
  match o with Some s => s | None => "None" end.

Definition dq : string := String (ascii_of_nat 34) EmptyString.

(** stix_1_1.py:81-88 *)
Definition common_source_xml (text : string) : string :=
  nl ++ spaces 8 ++ "<stixCommon:Source xmlns:stixCommon=" ++ dq
     ++ NS_COMMON_1 ++ dq ++ ">" ++
  nl ++ spaces 12 ++ "<stixCommon:Identity>" ++
  nl ++ spaces 16 ++ "<stixCommon:Name>" ++ text ++ "</stixCommon:Name>" ++
  nl ++ spaces 12 ++ "</stixCommon:Identity>" ++
  nl ++ spaces 8 ++ "</stixCommon:Source>" ++
  nl ++ spaces 8.

(** stix_1_1.py:128-135 *)
Definition sightings_source_xml (text : string) : string :=
  nl ++ spaces 8 ++ "<indicator:Source xmlns:indicator=" ++ dq
     ++ NS_INDICATOR_2 ++ dq ++ ">" ++
  nl ++ spaces 12 ++ "<stixCommon:Identity xmlns:stixCommon=" ++ dq
     ++ NS_COMMON_1 ++ dq ++ ">" ++
  nl ++ spaces 16 ++ "<stixCommon:Name>" ++ text ++ "</stixCommon:Name>" ++
  nl ++ spaces 12 ++ "</stixCommon:Identity>" ++
  nl ++ spaces 8 ++ "</indicator:Source>" ++
  nl ++ spaces 8.

(** XML end-of-line normalisation by the parser. *)
Fixpoint norm_eol (s : string) : string :=
  match s with
  | EmptyString => EmptyString
  | String a s' =>
      if Nat.eqb (nat_of_ascii a) 13 then
        match s' with
        | String b s'' =>
            if Nat.eqb (nat_of_ascii b) 10 then norm_eol s'
            else String (ascii_of_nat 10) (norm_eol s')
        | EmptyString => nl
        end
      else String a (norm_eol s')
  end.

(** The five predefined entities. *)
Definition entity (s : string) : option (ascii * nat) :=
  if starts_with "&amp;" s then Some ("&"%char, 5)
  else if starts_with "&lt;" s then Some ("<"%char, 4)
  else if starts_with "&gt;" s then Some (">"%char, 4)
  else if starts_with "&quot;" s then Some (ascii_of_nat 34, 6)
  else if starts_with "&apos;" s then Some ("'"%char, 6)
  else None.

(** Character data without markup: references to the predefined entities are
    expanded; any other "&" makes the document not well-formed. *)
Fixpoint decode (skip : nat) (s : string) : option string :=
  match s with
  | EmptyString => Some EmptyString
  | String a s' =>
      match skip with
      | S k => decode k s'
      | O =>
          if Ascii.eqb a "&" then
            match entity s with
            | Some (c, n) => option_map (String c) (decode (n - 1) s')
            | None => None
            end
          else option_map (String a) (decode 0 s')
      end
  end.

Definition no_markup (s : string) : bool :=
  negb (contains "<" s) && negb (contains "&#" s).

(** Parse character data; "]]>" is not allowed in it. *)
Definition chardata (s : string) : option string :=
  if contains "]]>" s then None else decode 0 (norm_eol s).

Definition opt_text (s : string) : option string :=
  if String.eqb s "" then None else Some s.

(** The element produced by parsing a template whose Name text is [name]:
    whitespace of the template included; identities are renumbered by
    [copy_tree] on use. *)
Definition source_tree (outer : qname) (outer_decl inner_decl : list (option string * string))
  (name : string) : tree :=
  Node (Hdr 0 KElem outer outer_decl [] (Some (nl ++ spaces 12)) false None)
    [Node (Hdr 0 KElem (qn NS_COMMON_1 "Identity") inner_decl []
             (Some (nl ++ spaces 16)) false (Some (nl ++ spaces 8)))
       [Node (Hdr 0 KElem (qn NS_COMMON_1 "Name") [] [] (opt_text name) false
                (Some (nl ++ spaces 12))) []]].

(** [etree.fromstring(xml)] for the two templates. *)
Definition parse_source (o : oracle) (sighting : bool) (text : string) : option tree :=
  if no_markup text then
    match chardata text with
    | Some name =>
        Some (if sighting
              then source_tree (qn NS_INDICATOR_2 "Source")
                     [(Some "indicator", NS_INDICATOR_2)]
                     [(Some "stixCommon", NS_COMMON_1)] name
              else source_tree (qn NS_COMMON_1 "Source")
                     [(Some "stixCommon", NS_COMMON_1)] [] name)
    | None => None
    end
  else o_fromstring o (if sighting then sightings_source_xml text
                       else common_source_xml text).

(** stix_1_1.py:51-91 and :99-138 [_translate_fields] *)
Definition translate_source (o : oracle) (sighting : bool) (i : nat) : M tree :=
  h <- get_hdr i ;;
  match parse_source o sighting (format_text (h_text h)) with
  | Some t => copy_tree t
  | None => raise XMLSyntaxError
  end.

(** cybox_2_0_1.py:213-217 [TransWinMailslotHandle._replace] *)
Definition mailslot_replace (new_tag : qname) (i : nat) : M unit :=
  c <- deref i ;;
  dup <- copy_xml_element i (Some new_tag) ;;
  match parent c with
  | Some p => replace_xml_element (tid p) dup
  | None => raise AttributeError
  end.

(** base.py:209-215 [translate] with [_find] (base.py:199-207), and its
    overrides base.py:226-231 and cybox_2_0_1.py:219-223 *)
Definition translate_node (o : oracle) (ns : nsmap_t) (k : tkind) (i : nat) : M unit :=
  match k with
  | TDefault xv tag copy over =>
      new <- translate_default ns xv tag copy over i ;; replace_xml_element i new
  | TRenamed tag => modify i (set_tag tag)
  | TExploitTargets tag =>
      new <- translate_wrap tag None i ;; replace_xml_element i new
  | TContributors c =>
      new <- translate_contributors c i ;; replace_xml_element i new
  | TCommonSource =>
      new <- translate_source o false i ;; replace_xml_element i new
  | TSightingsSource =>
      new <- translate_source o true i ;; replace_xml_element i new
  | TRelatedCampaign w tag =>
      new <- translate_wrap w (Some tag) i ;; replace_xml_element i new
  | TMailslot tag => mailslot_replace tag i
  end.

Definition translate (o : oracle) (ns : nsmap_t) (f : tfield) (root : nat) : M unit :=
  nodes <- xpath root (t_xnode f) ns ;;
  for_each nodes (translate_node o ns (t_kind f)).

(** ** Updater classes (base.py:418-986) *)

(** The class attributes.  [c_nsmap] is the instance's NSMAP;
    [c_klass_nsmap] the NSMAP wired into the helper classes at registration
    (/repo/ramrod/stix/__init__.py:87-97), which stays the class's own when an
    embedded CybOX updater gets a merged instance NSMAP
    (/repo/ramrod/stix/base.py:65-72). *)
Record cls := Cls {
  c_version : string;
  c_nsmap : nsmap_t;
  c_klass_nsmap : nsmap_t;
  c_disallowed_ns : list string;
  c_ns_map : dict string;
  c_schemaloc_map : dict string;
  c_vocabs : list vocab;
  c_x_versioned : string;
  c_x_root : string;
  c_disallowed : list dfield;
  c_opt_elems : list dfield;
  c_opt_attrs : list dfield;
  c_trans : list tfield
}.

(** base.py:501-529 [_get_duplicates] *)
Definition id_groups (namespaces : list string) (t : tree) : dict (list nat) :=
  fold_left (fun acc c =>
    let h := head (snd c) in
    if is_elem (snd c) then
      match attr_get (lq "id") (h_attr h), q_ns (h_tag h) with
      | Some id_, Some ns =>
          if mem_str ns namespaces
          then dict_set id_ (match dict_get id_ acc with
                             | Some l => (l ++ [h_id h])%list
                             | None => [h_id h]
                             end) acc
          else acc
      | _, _ => acc
      end
    else acc)
    (tl (visits [] t)) [].

Definition duplicate_groups (namespaces : list string) (t : tree) : dict (list nat) :=
  filter (fun kv => Nat.ltb 1 (length (snd kv))) (id_groups namespaces t).

Definition get_duplicates (u : cls) (root : nat) : M (dict (list nat)) :=
  c <- deref root ;;
  ret (duplicate_groups (map snd (c_nsmap u)) (snd c)).

(** base.py:531-562 [_get_versioned_nodes], [_get_root_nodes] *)
Definition get_versioned_nodes (u : cls) (root : nat) : M (list nat) :=
  xpath root (c_x_versioned u) (c_nsmap u).
Definition get_root_nodes (u : cls) (root : nat) : M (list nat) :=
  xpath root (c_x_root u) (c_nsmap u).

(** base.py:578-595 [_update_vocabs] *)
Definition update_vocabs (u : cls) (root : nat) : M unit :=
  typed <- get_typed_nodes root ;;
  for_each (c_vocabs u) (fun v => vocab_update v typed).

(** base.py:601-613 [_create_schemaloc_str] *)
Definition create_schemaloc_str (pairs : list (string * string)) : string :=
  join "   " (map (fun p => fst p ++ " " ++ snd p) pairs).

(** base.py:615-628 [_clean_schemalocs] *)
Definition clean_schemalocs (u : cls) (pairs : list (string * string)) :=
  filter (fun p => negb (mem_str (fst p) (c_disallowed_ns u))) pairs.

(** base.py:630-648 [_remap_schemalocs] *)
Definition remap_schemalocs (u : cls) (pairs : list (string * string)) :=
  map (fun p =>
         let ns' := dict_getd (fst p) (fst p) (c_ns_map u) in
         (ns', dict_getd ns' (snd p) (c_schemaloc_map u))) pairs.

(** base.py:650-669 [_update_schemalocs] *)
Definition update_schemalocs (u : cls) (root : nat) : M unit :=
  h <- get_hdr root ;;
  match attr_get TAG_SCHEMALOCATION (h_attr h) with
  | None => ret tt
  | Some v =>
      modify root (hset_attr TAG_SCHEMALOCATION
        (create_schemaloc_str (remap_schemalocs u (clean_schemalocs u (schemaloc_pairs v)))))
  end.

(** base.py:687-710 [_remap_namespaces] *)
Definition remap_namespaces (u : cls) (env : list (option string * string))
  : list (option string * string) :=
  map (fun p => (fst p, dict_getd (snd p) (snd p) (c_ns_map u)))
    (filter (fun p => negb (mem_str (snd p) (c_disallowed_ns u))) (env_items [] env)).

(** base.py:739-761 [_update_nsmap] with [_get_remapped_tag]
    (base.py:712-725) and utils.py:220-236 [get_node_text]: the new element
    has the remapped name and declarations and the same attributes; its text
    is the old one only when the old node had no child node; it has no tail. *)
Definition renamespaced (u : cls) (n : nat) (anc : list tree) (t : tree) : hdr :=
  let h := head t in
  Hdr n KElem
    (QN (match q_ns (h_tag h) with
         | Some ns => Some (dict_getd ns ns (c_ns_map u))
         | None => None
         end) (q_local (h_tag h)))
    (remap_namespaces u (env_of anc t))
    (attr_update [] (h_attr h))
    (match kids t with [] => h_text h | _ => None end)
    (match kids t with [] => h_cdata h | _ => false end)
    None.

Definition ns_listed (u : cls) (t : tree) : bool :=
  match q_ns (h_tag (head t)) with
  | Some ns => mem_str ns (map fst (c_ns_map u))
  | None => false
  end.

(** base.py:763-788 [_update_namespaces]: children first, then the node. *)
Fixpoint upd_ns (u : cls) (anc : list tree) (t : tree) (n : nat) : tree * nat :=
  match t with
  | Node h ks =>
      let fix go (l : list tree) (m : nat) : list tree * nat :=
        match l with
        | [] => ([], m)
        | k :: l' =>
            let '(k', m1) := if is_elem k then upd_ns u (t :: anc) k m else (k, m) in
            let '(l'', m2) := go l' m1 in
            (k' :: l'', m2)
        end in
      let '(ks', m) := go ks n in
      if ns_listed u t then (Node (renamespaced u m anc t) ks', S m)
      else (Node h ks', m)
  end.

(** The replaced nodes: they lost their children (base.py:759) and their
    parent (utils.py:71-80), and live on as elements of their own. *)
Fixpoint husks (u : cls) (t : tree) : list tree :=
  match t with
  | Node h ks =>
      ((if ns_listed u t then [Node h []] else [])
       ++ flat_map (fun k => if is_elem k then husks u k else []) ks)%list
  end.

(** utils.py:230-234 [get_node_text]: the text of a node without children is
    wrapped in an [etree.CDATA] when it contains a CDATA section, and lxml
    refuses to make one of a text with "]]>" in it (such a text takes two CDATA
    sections to write, or one beside an escaped "]]&gt;"). *)
Definition unwrappable (t : tree) : bool :=
  match kids t with
  | [] => h_cdata (head t) && contains "]]>" (match h_text (head t) with Some s => s | None => "" end)
  | _ :: _ => false
  end.

(** One of the nodes that [upd_ns] replaces has such a text. *)
Fixpoint upd_ns_fails (u : cls) (t : tree) : bool :=
  match t with
  | Node h ks =>
      ns_listed u t && unwrappable t
      || existsb (fun k => is_elem k && upd_ns_fails u k) ks
  end.

(** The call on a document root.  SIMPLIFICATIONS: lxml's removal of redundant
    declarations on moved nodes is not represented; when the call fails, the
    nodes replaced before the failure are not represented (the only callers
    work on a copy that is then given up). *)
Definition update_namespaces (u : cls) (root : nat) : M nat :=
  c <- deref root ;;
  if upd_ns_fails u (snd c) then raise ValueError else
  fun s => let '(t', n) := upd_ns u (fst c) (snd c) (next s) in
           (Ok (tid t'),
            St (map (fun t => if Nat.eqb (tid t) root then t' else t) (heap s)
                ++ husks u (snd c))%list n (gen s)).

(** stix_1_0_1.py:394-396, stix_1_1.py:292-294, cybox_2_0_1.py:534-539
    [_translate_fields] *)
Definition translate_fields (o : oracle) (u : cls) (root : nat) : M unit :=
  for_each (c_trans u) (fun f => translate o (c_klass_nsmap u) f root).

(** cybox_2_0_1.py:541-562, stix_1_0_1.py:398-411, stix_1_1.py:296-309
    [_update_optionals] (OPTIONAL_ATTRIBUTES is empty in every class) *)
Definition update_optionals (o : oracle) (u : cls) (root : nat) : M unit :=
  typed <- get_typed_nodes root ;;
  for_each (c_opt_elems u) (fun d =>
    found <- dfind o d (c_klass_nsmap u) root (Some typed) ;;
    remove_xml_elements found) ;;;
  for_each (c_opt_attrs u) (fun d =>
    found <- dfind o d (c_klass_nsmap u) root (Some typed) ;;
    for_each found (fun i =>
      remove_xml_attributes i (match d_interrogate d with
                               | IEmptyAttrs l => l
                               | _ => []
                               end))).

(** cybox_2_0_1.py:574-580, stix_1_0.py / stix_1_0_1.py:426-430: collect the
    disallowed nodes of every DISALLOWED class. *)
Fixpoint find_disallowed (o : oracle) (ns : nsmap_t) (l : list dfield) (root : nat) : M (list nat) :=
  match l with
  | [] => ret []
  | d :: l' =>
      found <- dfind o d ns root None ;;
      rest <- find_disallowed o ns l' root ;;
      ret (found ++ rest)%list
  end.

(** cybox_2_0_1.py:582-598, stix_1_0.py:259-275, stix_1_0_1.py:476-492
    [_clean_disallowed]: copy,
    remove, and return the copies. *)
Definition clean_disallowed (l : list nat) : M (list nat) :=
  map_m (fun i =>
    dup <- copy_xml_element i None ;;
    remove_xml_element i ;;;
    push dup) l.

(** cybox_2_0_1.py:600-615, stix_1_0_1.py:494-510 [_clean_duplicates] *)
Definition clean_duplicates (opts : options) (d : dict (list nat)) : M (dict (list nat)) :=
  for_each d (fun kv => for_each (snd kv) (apply_new_id (new_id_func opts))) ;;;
  ret d.

(** ** Results (results.py:10-42) *)

(** The collections found in [removed] and [remapped_ids]; which Python type
    is used is part of the documented interface. *)
Inductive coll :=
| CTuple (l : list nat)
| CList (l : list nat)
| CDict (d : dict (list nat)).

Record results := Results { r_document : nat; r_removed : coll; r_remapped : coll }.

Definition coll_empty (c : coll) : bool :=
  match c with
  | CTuple [] | CList [] | CDict [] => true
  | _ => false
  end.

(** [c or d] *)
Definition coll_or (c d : coll) : coll := if coll_empty c then d else c.

(** base.py:791-807 [_create_update_results]; note the defaults *)
Definition create_update_results (root : nat) (remapped removed : option coll) : results :=
  let dflt o d := match o with Some c => coll_or c d | None => d end in
  Results root (dflt removed (CDict [])) (dflt remapped (CTuple [])).

(** results.py:20-23 [UpdateResults(document, removed, remapped_ids)] *)
Definition update_results (root : nat) (removed remapped : coll) : results :=
  Results root (coll_or removed (CTuple [])) (coll_or remapped (CDict [])).

(** results.py:66-84 [ResultDocument(x).as_element()]: the document's root. *)
Definition as_element (i : nat) : M nat :=
  c <- deref i ;; ret (tid (root_of c)).

(** ** The overridable methods of an updater *)
Record updater := Updater {
  up_check : nat -> options -> M unit;
  up_update : nat -> options -> M nat;
  up_get_disallowed : nat -> M (option (list nat));
  up_get_duplicates : nat -> M (option (dict (list nat)));
  up_clean_disallowed : list nat -> options -> M (list nat);
  up_clean_duplicates : dict (list nat) -> options -> M (dict (list nat))
}.

(** base.py:818-838 [_clean] *)
Definition clean_root (up : updater) (root : nat) (opts : options) : M results :=
  dis <- up_get_disallowed up root ;;
  dup <- up_get_duplicates up root ;;
  remapped <- (match dup with
               | Some (x :: l) => up_clean_duplicates up (x :: l) opts
               | _ => ret []
               end) ;;
  removed <- (match dis with
              | Some (x :: l) => up_clean_disallowed up (x :: l) opts
              | _ => ret []
              end) ;;
  ret (Results root (CTuple removed) (CDict remapped)).

(** base.py:840-877 [clean] *)
Definition clean (o : oracle) (up : updater) (doc : docarg) (opts : option options) : M results :=
  root <- get_etree_root doc true ;;
  clean_root up root (or_default o opts).

(** base.py:891-913 [_force_update] *)
Definition force_update (up : updater) (root : nat) (opts : options) : M results :=
  cleaned <- clean_root up root opts ;;
  doc <- as_element (r_document cleaned) ;;
  updated <- up_update up doc opts ;;
  ret (create_update_results updated (Some (r_remapped cleaned)) (Some (r_removed cleaned))).

(** The exceptions caught at base.py:980 *)
Definition is_update_failure (e : exn) : bool :=
  match e with
  | UpdateError _ _ | UnknownVersionError | InvalidVersionError _ _ _ => true
  | _ => false
  end.

(** base.py:922-986 [BaseUpdater.update] *)
Definition updater_update (o : oracle) (up : updater) (doc : docarg)
  (opts : option options) (force : bool) : M results :=
  root <- get_etree_root doc true ;;
  let options := or_default o opts in
  try_catch
    (up_check up root options ;;;
     updated <- up_update up root options ;;
     ret (create_update_results updated None None))
    (fun e => if is_update_failure e && force
              then Some (force_update up root options)
              else None).
