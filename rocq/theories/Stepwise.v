(** * /repo/ramrod as programs of single accesses (Steps.v).

    The functions of XPath.v, Utils.v, Base.v, Cybox.v, Stix.v and Ramrod.v
    that touch the memory, with the same text, over the programs of Steps.v in
    place of Xml.v.  The tables and the functions that do not touch the memory
    are those of the model.  StepRun.v proves that each of these programs, run
    without interruption, is the function of the model of the same name.

    No proofs in this file. *)

From Coq Require Import String Ascii List Bool Arith.
From Verif Require Import Str Xml XPath Utils Base Cybox Stix Ramrod SpecSession Steps.
Import ListNotations.
Local Open Scope string_scope.
Local Open Scope step_scope.

(** ** XPath.v *)

(** [node.xpath(x, namespaces=ns)]: the matching nodes in document order,
    without duplicates.  A union is either all absolute or all relative in
    /repo; a mixed one is rejected here. *)
Definition xpath (i : nat) (x : string) (ns : nsmap_t) : M (list nat) :=
  c <- deref i ;;
  match xcompile ns x with
  | None => raise XPathEvalError
  | Some l =>
      if forallb alt_abs l then ret (select_ids (match_path l) (root_of c))
      else if existsb alt_abs l then raise XPathEvalError
      else ret (select_ids (match_path l) (snd c))
  end.


(** ** Utils.v *)

(** utils.py:43-68 [get_etree_root] *)
Definition get_etree_root (d : docarg) (make_copy : bool) : M nat :=
  match d with
  | DElem i | DTree i =>
      if make_copy then
        c <- deref i ;; t <- copy_tree (snd c) ;; push t
      else ret i
  | DFile None => raise XMLSyntaxError
  | DFile (Some t) => t' <- copy_tree t ;; push t'
  end.

(** utils.py:71-80 [replace_xml_element]; [new] is a detached new tree, so
    the "old is new" case cannot arise. *)
Definition replace_xml_element (old : nat) (new : tree) : M unit :=
  supplant old [new].

(** utils.py:83-88 *)
Definition remove_xml_element (i : nat) : M unit := supplant i [].

(** utils.py:91-94 *)
Definition remove_xml_elements (l : list nat) : M unit :=
  for_each l remove_xml_element.

(** utils.py:97-104 [copy_xml_element(node, tag)].  Assigning [.tag] to a
    comment, PI or entity raises AttributeError in lxml. *)
Definition copy_xml_element (i : nat) (tag : option qname) : M tree :=
  c <- deref i ;;
  t <- copy_tree (snd c) ;;
  if is_elem t then
    match t with
    | Node h ks =>
        ret (Node (set_tag (match tag with Some q => q | None => h_tag h end) h) ks)
    end
  else raise AttributeError.

(** utils.py:107-122 *)
Definition remove_xml_attribute (i : nat) (a : qname) : M unit :=
  modify i (hdel_attr a).

(** As in Utils.v. *)
Definition remove_xml_attributes (i : nat) (l : list qname) : M unit :=
  for_each l (remove_xml_attribute i).

(** As in Utils.v. *)
Definition get_type_info (i : nat) : M (string * string) :=
  h <- get_hdr i ;; liftr (type_info h).

(** utils.py:139-149 [get_typed_nodes]: proper descendants only. *)
Definition get_typed_nodes (root : nat) : M (list nat) :=
  xpath root ".//*[@xsi:type]" [("xsi", NS_XSI)].

(** As in Utils.v. *)
Definition get_ext_namespace (i : nat) : M string :=
  c <- deref i ;; liftr (ext_namespace c).


(** ** Base.v *)

(** base.py:45-66 [Vocab.find] *)
Definition vocab_find (v : vocab) (typed : list nat) : M (list nat) :=
  filter_m (fun i =>
    ti <- get_type_info i ;;
    ns <- get_ext_namespace i ;;
    ret (String.eqb ns (v_namespace v) && mem_str (snd ti) (v_old_types v)))
    typed.

(** [attribs[k] = value]: lxml rejects a tuple with a TypeError. *)
Definition set_pystr (i : nat) (k : qname) (v : pystr) : M unit :=
  match v with
  | PStr s => modify i (hset_attr k s)
  | PTuple _ => raise TypeError
  end.

(** base.py:68-110 [Vocab.update], loop body *)
Definition vocab_update_node (v : vocab) (i : nat) : M unit :=
  ti <- get_type_info i ;;
  modify i (hset_attr TAG_XSI_TYPE (fst ti ++ ":" ++ v_new_type v)) ;;;
  h <- get_hdr i ;;
  (if has_attr (lq "vocab_reference") h
   then set_pystr i (lq "vocab_reference") (v_reference v) else ret tt) ;;;
  (if has_attr (lq "vocab_name") h
   then set_pystr i (lq "vocab_name") (v_name v) else ret tt) ;;;
  match h_text h with
  | None => ret tt
  | Some value =>
      match dict_get value (v_terms v) with
      | Some new => modify i (set_text (Some new))
      | None => ret tt
      end
  end.

(** As in Base.v. *)
Definition vocab_update (v : vocab) (typed : list nat) : M unit :=
  vs <- vocab_find v typed ;; for_each vs (vocab_update_node v).

(** base.py:257-275 and the overrides listed above *)
Definition interrogate (o : oracle) (k : interrogation) (nodes : list nat) : M (list nat) :=
  match k with
  | IAll => ret nodes
  | IEmptyAttrs attrs =>
      filter_m (fun i => h <- get_hdr i ;; ret (existsb (empty_attr h) attrs)) nodes
  | IEmptyElem =>
      filter_m (fun i => c <- deref i ;; ret (is_empty (snd c))) nodes
  | IOnlyExt ns =>
      filter_m (fun i => c <- deref i ;; ret (only_ext ns c)) nodes
  | IManyKids =>
      filter_m (fun i => c <- deref i ;;
                         ret (Nat.ltb 1 (length (kids (snd c))))) nodes
  | IBadDateTime =>
      bad <- filter_m (fun i => c <- deref i ;;
                                ret (negb (valid_datetime o (snd c)))) nodes ;;
      map_m (fun i => c <- deref i ;;
                      match parent c with
                      | Some p => ret (tid p)
                      | None => raise AttributeError
                      end) bad
  end.

(** base.py:277-313 [_get_contexts]; [typed = None] means "search root". *)
Definition get_contexts (d : dfield) (root : nat) (typed : option (list nat)) : M (list nat) :=
  match d_ctx_types d with
  | [] => ret [root]
  | ctxs =>
      ty <- (match typed with Some l => ret l | None => get_typed_nodes root end) ;;
      filter_m (fun i =>
        ti <- get_type_info i ;;
        ns <- get_ext_namespace i ;;
        ret (ostr_eqb (dict_get (snd ti) ctxs) (Some ns))) ty
  end.

(** base.py:315-329 [find] *)
Fixpoint find_in (o : oracle) (d : dfield) (ns : nsmap_t) (contexts : list nat) : M (list nat) :=
  match contexts with
  | [] => ret []
  | c :: cs =>
      nodes <- xpath c (d_xpath d) ns ;;
      found <- interrogate o (d_interrogate d) nodes ;;
      rest <- find_in o d ns cs ;;
      ret (found ++ rest)%list
  end.

(** As in Base.v. *)
Definition dfind (o : oracle) (d : dfield) (ns : nsmap_t) (root : nat)
  (typed : option (list nat)) : M (list nat) :=
  contexts <- get_contexts d root typed ;;
  find_in o d ns contexts.

(** base.py:181-197 [_translate_fields] with [_translate_value]
    (base.py:143-151): [old.xpath(xpath)[0]] raises IndexError when nothing
    matches. *)
Definition translate_default (ns : nsmap_t) (xvalue : string) (new_tag : option qname)
  (copy : bool) (override : list (qname * string)) (i : nat) : M tree :=
  h <- get_hdr i ;;
  vs <- xpath i xvalue ns ;;
  match vs with
  | [] => raise IndexError
  | v :: _ =>
      hv <- get_hdr v ;;
      n <- fresh ;;
      ret (Node (Hdr n KElem
                   (match new_tag with Some q => q | None => h_tag h end)
                   [] (translate_attributes copy override hv)
                   (h_text hv) false None) [])
  end.

(** stix_1_0_1.py:161-190 [TransTTPExploitTargets._translate_fields]
    stix_1_1.py:146-180 [TransIndicatorRelatedCampaign._translate_fields]:
    a copy of the node (renamed for the second) inside a new wrapper. *)
Definition translate_wrap (wrapper : qname) (new_tag : option qname) (i : nat) : M tree :=
  dup <- copy_xml_element i new_tag ;;
  new_elem wrapper None [dup].

(** stix_1_0_1.py:197-256 [TransCommonContributors._translate_fields]: every
    child node, whatever its kind, is copied, renamed and wrapped. *)
Definition translate_contributors (ns : string) (i : nat) : M tree :=
  c <- deref i ;;
  sources <- map_m (fun k =>
               dup <- copy_xml_element (tid k) (Some (qn ns "Identity")) ;;
               new_elem (qn ns "Source") None [dup]) (kids (snd c)) ;;
  new_elem (qn ns "Contributing_Sources") None sources.

(** stix_1_1.py:51-91 and :99-138 [_translate_fields] *)
Definition translate_source (o : oracle) (sighting : bool) (i : nat) : M tree :=
  h <- get_hdr i ;;
  match parse_source o sighting (format_text (h_text h)) with
  | Some t => copy_tree t
  | None => raise XMLSyntaxError
  end.

(** cybox_2_0_1.py:213-217 [TransWinMailslotHandle._replace] *)
Definition mailslot_replace (new_tag : qname) (i : nat) : M unit :=
  c <- deref i ;;
  dup <- copy_xml_element i (Some new_tag) ;;
  match parent c with
  | Some p => replace_xml_element (tid p) dup
  | None => raise AttributeError
  end.

(** base.py:209-215 [translate] with [_find] (base.py:199-207), and its
    overrides base.py:226-231 and cybox_2_0_1.py:219-223 *)
Definition translate_node (o : oracle) (ns : nsmap_t) (k : tkind) (i : nat) : M unit :=
  match k with
  | TDefault xv tag copy over =>
      new <- translate_default ns xv tag copy over i ;; replace_xml_element i new
  | TRenamed tag => modify i (set_tag tag)
  | TExploitTargets tag =>
      new <- translate_wrap tag None i ;; replace_xml_element i new
  | TContributors c =>
      new <- translate_contributors c i ;; replace_xml_element i new
  | TCommonSource =>
      new <- translate_source o false i ;; replace_xml_element i new
  | TSightingsSource =>
      new <- translate_source o true i ;; replace_xml_element i new
  | TRelatedCampaign w tag =>
      new <- translate_wrap w (Some tag) i ;; replace_xml_element i new
  | TMailslot tag => mailslot_replace tag i
  end.

(** As in Base.v. *)
Definition translate (o : oracle) (ns : nsmap_t) (f : tfield) (root : nat) : M unit :=
  nodes <- xpath root (t_xnode f) ns ;;
  for_each nodes (translate_node o ns (t_kind f)).

(** As in Base.v. *)
Definition get_duplicates (u : cls) (root : nat) : M (dict (list nat)) :=
  c <- deref root ;;
  ret (duplicate_groups (map snd (c_nsmap u)) (snd c)).

(** base.py:531-562 [_get_versioned_nodes], [_get_root_nodes] *)
Definition get_versioned_nodes (u : cls) (root : nat) : M (list nat) :=
  xpath root (c_x_versioned u) (c_nsmap u).

(** As in Base.v. *)
Definition get_root_nodes (u : cls) (root : nat) : M (list nat) :=
  xpath root (c_x_root u) (c_nsmap u).

(** base.py:578-595 [_update_vocabs] *)
Definition update_vocabs (u : cls) (root : nat) : M unit :=
  typed <- get_typed_nodes root ;;
  for_each (c_vocabs u) (fun v => vocab_update v typed).

(** base.py:650-669 [_update_schemalocs] *)
Definition update_schemalocs (u : cls) (root : nat) : M unit :=
  h <- get_hdr root ;;
  match attr_get TAG_SCHEMALOCATION (h_attr h) with
  | None => ret tt
  | Some v =>
      modify root (hset_attr TAG_SCHEMALOCATION
        (create_schemaloc_str (remap_schemalocs u (clean_schemalocs u (schemaloc_pairs v)))))
  end.

(** stix_1_0_1.py:394-396, stix_1_1.py:292-294, cybox_2_0_1.py:534-539
    [_translate_fields] *)
Definition translate_fields (o : oracle) (u : cls) (root : nat) : M unit :=
  for_each (c_trans u) (fun f => translate o (c_klass_nsmap u) f root).

(** cybox_2_0_1.py:541-562, stix_1_0_1.py:398-411, stix_1_1.py:296-309
    [_update_optionals] (OPTIONAL_ATTRIBUTES is empty in every class) *)
Definition update_optionals (o : oracle) (u : cls) (root : nat) : M unit :=
  typed <- get_typed_nodes root ;;
  for_each (c_opt_elems u) (fun d =>
    found <- dfind o d (c_klass_nsmap u) root (Some typed) ;;
    remove_xml_elements found) ;;;
  for_each (c_opt_attrs u) (fun d =>
    found <- dfind o d (c_klass_nsmap u) root (Some typed) ;;
    for_each found (fun i =>
      remove_xml_attributes i (match d_interrogate d with
                               | IEmptyAttrs l => l
                               | _ => []
                               end))).

(** cybox_2_0_1.py:574-580, stix_1_0.py / stix_1_0_1.py:426-430: collect the
    disallowed nodes of every DISALLOWED class. *)
Fixpoint find_disallowed (o : oracle) (ns : nsmap_t) (l : list dfield) (root : nat) : M (list nat) :=
  match l with
  | [] => ret []
  | d :: l' =>
      found <- dfind o d ns root None ;;
      rest <- find_disallowed o ns l' root ;;
      ret (found ++ rest)%list
  end.

(** cybox_2_0_1.py:582-598, stix_1_0.py:259-275, stix_1_0_1.py:476-492
    [_clean_disallowed]: copy,
    remove, and return the copies. *)
Definition clean_disallowed (l : list nat) : M (list nat) :=
  map_m (fun i =>
    dup <- copy_xml_element i None ;;
    remove_xml_element i ;;;
    push dup) l.

(** cybox_2_0_1.py:600-615, stix_1_0_1.py:494-510 [_clean_duplicates] *)
Definition clean_duplicates (opts : options) (d : dict (list nat)) : M (dict (list nat)) :=
  for_each d (fun kv => for_each (snd kv) (apply_new_id (new_id_func opts))) ;;;
  ret d.

(** results.py:66-84 [ResultDocument(x).as_element()]: the document's root. *)
Definition as_element (i : nat) : M nat :=
  c <- deref i ;; ret (tid (root_of c)).

(** ** The overridable methods of an updater *)
Record updater := Updater {
  up_check : nat -> options -> M unit;
  up_update : nat -> options -> M nat;
  up_get_disallowed : nat -> M (option (list nat));
  up_get_duplicates : nat -> M (option (dict (list nat)));
  up_clean_disallowed : list nat -> options -> M (list nat);
  up_clean_duplicates : dict (list nat) -> options -> M (dict (list nat))
}.

(** base.py:818-838 [_clean] *)
Definition clean_root (up : updater) (root : nat) (opts : options) : M results :=
  dis <- up_get_disallowed up root ;;
  dup <- up_get_duplicates up root ;;
  remapped <- (match dup with
               | Some (x :: l) => up_clean_duplicates up (x :: l) opts
               | _ => ret []
               end) ;;
  removed <- (match dis with
              | Some (x :: l) => up_clean_disallowed up (x :: l) opts
              | _ => ret []
              end) ;;
  ret (Results root (CTuple removed) (CDict remapped)).

(** base.py:840-877 [clean] *)
Definition clean (o : oracle) (up : updater) (doc : docarg) (opts : option options) : M results :=
  root <- get_etree_root doc true ;;
  clean_root up root (or_default o opts).

(** base.py:891-913 [_force_update] *)
Definition force_update (up : updater) (root : nat) (opts : options) : M results :=
  cleaned <- clean_root up root opts ;;
  doc <- as_element (r_document cleaned) ;;
  updated <- up_update up doc opts ;;
  ret (create_update_results updated (Some (r_remapped cleaned)) (Some (r_removed cleaned))).

(** base.py:922-986 [BaseUpdater.update] *)
Definition updater_update (o : oracle) (up : updater) (doc : docarg)
  (opts : option options) (force : bool) : M results :=
  root <- get_etree_root doc true ;;
  let options := or_default o opts in
  try_catch
    (up_check up root options ;;;
     updated <- up_update up root options ;;
     ret (create_update_results updated None None))
    (fun e => if is_update_failure e && force
              then Some (force_update up root options)
              else None).


(** ** Cybox.v *)

(** As in Cybox.v. *)
Definition cybox_node_version (i : nat) : M string :=
  h <- get_hdr i ;; liftr (cybox_hdr_version h).

(** base.py:55-90 [_check_version]: every root node is checked. *)
Definition cybox_check_version (u : cls) (root : nat) : M unit :=
  roots <- get_root_nodes u root ;;
  for_each roots (fun i =>
    found <- cybox_node_version i ;;
    eq <- liftr (is_version_equal (c_version u) found) ;;
    if eq : bool then ret tt
    else raise (InvalidVersionError (Some i) (Some (c_version u)) (Some found))).

(** cybox_2_0.py:217-228 [_update_versions] *)
Definition cybox_2_0_update_versions (u : cls) (root : nat) : M unit :=
  nodes <- get_versioned_nodes u root ;;
  for_each nodes (fun i =>
    modify i (hset_attr TAG_CYBOX_MAJOR "2") ;;;
    modify i (hset_attr TAG_CYBOX_MINOR "0") ;;;
    modify i (hset_attr TAG_CYBOX_UPDATE "1")).

(** cybox_2_0.py:230-258 [_update_lists].  [findall('.//*')] yields the
    descendant elements; the list of properties is computed first. *)
Definition update_lists (u : cls) (root : nat) : M unit :=
  props <- xpath root XPATH_OBJECT_PROPS (c_nsmap u) ;;
  for_each props (fun p =>
    c <- deref p ;;
    for_each (map (fun d => tid (snd d))
                (filter (fun d => is_elem (snd d)) (tl (visits [] (snd c)))))
      (fun i =>
         h <- get_hdr i ;;
         match h_text h with
         | Some t => if truthy (h_text h)
                     then modify i (set_text (Some (convert_list t)))
                     else ret tt
         | None => ret tt
         end)).

(** cybox_2_0.py:279-301 [check_update] *)
Definition cybox_2_0_check (u : cls) (root : nat) (opts : options) : M unit :=
  if check_versions opts then cybox_check_version u root else ret tt.

(** cybox_2_0.py:303-311 [_update] *)
Definition cybox_2_0_do_update (u : cls) (root : nat) (opts : options) : M nat :=
  update_schemalocs u root ;;;
  cybox_2_0_update_versions u root ;;;
  update_lists u root ;;;
  (if update_vocabularies opts then update_vocabs u root else ret tt) ;;;
  ret root.

(** cybox_2_0.py:260-277: [_get_disallowed] and [_get_duplicates] return None;
    the cleaning methods are those of base.py:812-816. *)
Definition Cybox_2_0_Updater : updater :=
  Updater (cybox_2_0_check Cybox_2_0)
          (cybox_2_0_do_update Cybox_2_0)
          (fun _ => ret None)
          (fun _ => ret None)
          (fun _ _ => raise NotImplementedError)
          (fun _ _ => raise NotImplementedError).

(** cybox_2_0_1.py:519-532 [_update_versions] *)
Definition cybox_2_0_1_update_versions (u : cls) (root : nat) : M unit :=
  nodes <- get_versioned_nodes u root ;;
  for_each nodes (fun i =>
    modify i (hset_attr TAG_CYBOX_MAJOR "2") ;;;
    modify i (hset_attr TAG_CYBOX_MINOR "1") ;;;
    modify i (hdel_attr TAG_CYBOX_UPDATE)).

(** cybox_2_0_1.py:564-580 [_get_disallowed] *)
Definition cybox_2_0_1_get_disallowed (o : oracle) (u : cls) (root : nat) : M (list nat) :=
  find_disallowed o (c_klass_nsmap u) (c_disallowed u) root.

(** [if not (disallowed or duplicates): return; raise UpdateError(...)] *)
Definition report (disallowed : list nat) (duplicates : dict (list nat)) : M unit :=
  match disallowed, duplicates with
  | [], [] => ret tt
  | _, _ => raise (UpdateError (Some disallowed) (Some duplicates))
  end.

(** cybox_2_0_1.py:617-653 [check_update] *)
Definition cybox_2_0_1_check (o : oracle) (u : cls) (root : nat) (opts : options) : M unit :=
  (if check_versions opts then cybox_check_version u root else ret tt) ;;;
  duplicates <- get_duplicates u root ;;
  disallowed <- cybox_2_0_1_get_disallowed o u root ;;
  report disallowed duplicates.

(** cybox_2_0_1.py:655-668 [_update] *)
Definition cybox_2_0_1_do_update (o : oracle) (u : cls) (root : nat) (opts : options) : M nat :=
  updated <- update_namespaces u root ;;
  update_schemalocs u updated ;;;
  cybox_2_0_1_update_versions u updated ;;;
  translate_fields o u updated ;;;
  (if update_vocabularies opts then update_vocabs u updated else ret tt) ;;;
  (if remove_optionals opts then update_optionals o u updated else ret tt) ;;;
  ret updated.

(** As in Cybox.v. *)
Definition Cybox_2_0_1_Updater (o : oracle) : updater :=
  Updater (cybox_2_0_1_check o Cybox_2_0_1)
          (cybox_2_0_1_do_update o Cybox_2_0_1)
          (fun root => l <- cybox_2_0_1_get_disallowed o Cybox_2_0_1 root ;; ret (Some l))
          (fun root => d <- get_duplicates Cybox_2_0_1 root ;; ret (Some d))
          (fun l _ => clean_disallowed l)
          (fun d opts => clean_duplicates opts d).

(** __init__.py:82-126 [CYBOX_UPDATERS]: the registered updaters by version *)
Definition CYBOX_UPDATERS (o : oracle) : dict updater :=
  [("2.0", Cybox_2_0_Updater); ("2.0.1", Cybox_2_0_1_Updater o)].

(** __init__.py:15-18 [get_version] *)
Definition cybox_get_version (d : docarg) : M string :=
  root <- get_etree_root d false ;; cybox_node_version root.

(** The loop shared by /repo/ramrod/cybox/__init__.py:60-70 and
    /repo/ramrod/stix/__init__.py:63-71: [removed.extend(result.removed)]
    (iterating a dict yields its keys; the only dict that occurs is empty) and
    [remapped.update(result.remapped_ids)] (the only tuple is empty). *)
Fixpoint run_steps (o : oracle) (table : dict updater) (steps : list string) (root : nat)
  (opts : option options) (force : bool) (removed : list nat) (remapped : dict (list nat))
  : M (nat * list nat * dict (list nat)) :=
  match steps with
  | [] => ret (root, removed, remapped)
  | v :: vs =>
      match dict_get v table with
      | None => raise KeyError
      | Some up =>
          result <- updater_update o up (DElem root) opts force ;;
          root' <- as_element (r_document result) ;;
          run_steps o table vs root' opts force
            (removed ++ coll_items (r_removed result))
            (dict_update remapped (coll_dict (r_remapped result)))
      end
  end.

(** __init__.py:21-78 [update]: [from_ or get_version(root)],
    [to_ or versions[-1]], validation, then the steps. *)
Definition versioned_update (o : oracle) (versions : list string) (table : dict updater)
  (get_version : nat -> M (option string))
  (d : docarg) (from to : option string) (opts : option options) (force : bool) : M results :=
  root <- get_etree_root d false ;;
  from' <- (if truthy from then ret from else get_version root) ;;
  let to' := if truthy to then to else Some (last versions "") in
  liftr (validate_versions from' to' versions) ;;;
  match from', to' with
  | Some a, Some b =>
      r <- run_steps o table (version_slice a b versions) root opts force [] [] ;;
      let '(doc, removed, remapped) := r in
      ret (update_results doc (CList removed) (CDict remapped))
  | _, _ => raise UnknownVersionError
  end.

(** As in Cybox.v. *)
Definition cybox_update (o : oracle) : docarg -> option string -> option string ->
  option options -> bool -> M results :=
  versioned_update o CYBOX_VERSIONS (CYBOX_UPDATERS o)
    (fun root => v <- cybox_node_version root ;; ret (Some v)).


(** ** Stix.v *)

(** base.py:76-82 [get_version] *)
Definition stix_node_version (i : nat) : M (option string) :=
  h <- get_hdr i ;; ret (attr_get (lq "version") (h_attr h)).

(** base.py:84-118 [_check_version]: returns or raises on the first root. *)
Definition stix_check_version (u : cls) (root : nat) : M unit :=
  roots <- get_root_nodes u root ;;
  match roots with
  | [] => ret tt
  | i :: _ =>
      found <- stix_node_version i ;;
      match found with
      | None => raise UnknownVersionError
      | Some f =>
          if negb (truthy found) then raise UnknownVersionError
          else
            eq <- liftr (is_version_equal f (c_version u)) ;;
            if eq : bool then ret tt
            else raise (InvalidVersionError (Some i) (Some (c_version u)) (Some f))
      end
  end.

(** [_update_versions] of the STIX updaters: stix_1_0.py:277-289,
    stix_1_0_1.py:450-462, stix_1_1.py:331-343, stix_1_1_1.py:121-133. *)
Definition stix_update_versions (u : cls) (indicator other : string) (root : nat) : M unit :=
  nodes <- get_versioned_nodes u root ;;
  for_each nodes (fun i =>
    h <- get_hdr i ;;
    if String.eqb (q_local (h_tag h)) "Indicator"
    then modify i (hset_attr (lq "version") indicator)
    else modify i (hset_attr (lq "version") other)).

(** stix_1_0.py:233-257 [_get_disallowed]; the CybOX 2.0 updater contributes
    nothing (cybox_2_0.py:260-265). *)
Definition stix_1_0_get_disallowed (o : oracle) (root : nat) : M (list nat) :=
  find_disallowed o (c_klass_nsmap STIX_1_0) (c_disallowed STIX_1_0) root.

(** stix_1_0.py:302-336 [check_update] *)
Definition stix_1_0_check (o : oracle) (root : nat) (opts : options) : M unit :=
  (if check_versions opts
   then stix_check_version STIX_1_0 root ;;; cybox_check_version Cybox_in_1_0 root
   else ret tt) ;;;
  disallowed <- stix_1_0_get_disallowed o root ;;
  match disallowed with
  | [] => ret tt
  | _ => raise (UpdateError (Some disallowed) None)
  end.

(** stix_1_0.py:338-348 [_update] with [_update_cybox] (stix_1_0.py:291-300) *)
Definition stix_1_0_do_update (root : nat) (opts : options) : M nat :=
  updated <- cybox_2_0_do_update Cybox_in_1_0 root opts ;;
  updated <- update_namespaces STIX_1_0 updated ;;
  update_schemalocs STIX_1_0 updated ;;;
  stix_update_versions STIX_1_0 "2.0.1" "1.0.1" updated ;;;
  (if update_vocabularies opts then update_vocabs STIX_1_0 updated else ret tt) ;;;
  ret updated.

(** [_get_duplicates] returns None (stix_1_0.py:223-231); [_clean_duplicates]
    is base.py:815-816. *)
Definition STIX_1_0_Updater (o : oracle) : updater :=
  Updater (stix_1_0_check o)
          stix_1_0_do_update
          (fun root => l <- stix_1_0_get_disallowed o root ;; ret (Some l))
          (fun _ => ret None)
          (fun l _ => clean_disallowed l)
          (fun _ _ => raise NotImplementedError).

(** stix_1_0_1.py:413-436 [_get_disallowed] *)
Definition stix_1_0_1_get_disallowed (o : oracle) (root : nat) : M (list nat) :=
  disallowed <- find_disallowed o (c_klass_nsmap STIX_1_0_1) (c_disallowed STIX_1_0_1) root ;;
  disallowed_cybox <- cybox_2_0_1_get_disallowed o Cybox_in_1_0_1 root ;;
  ret (disallowed ++ disallowed_cybox)%list.

(** stix_1_0_1.py:438-448 [_get_duplicates] *)
Definition stix_1_0_1_get_duplicates (root : nat) : M (dict (list nat)) :=
  duplicates <- get_duplicates STIX_1_0_1 root ;;
  cybox <- get_duplicates Cybox_in_1_0_1 root ;;
  ret (dict_update duplicates cybox).

(** stix_1_0_1.py:512-549 [check_update] *)
Definition stix_1_0_1_check (o : oracle) (root : nat) (opts : options) : M unit :=
  (if check_versions opts
   then stix_check_version STIX_1_0_1 root ;;; cybox_check_version Cybox_in_1_0_1 root
   else ret tt) ;;;
  duplicates <- stix_1_0_1_get_duplicates root ;;
  disallowed <- stix_1_0_1_get_disallowed o root ;;
  report disallowed duplicates.

(** stix_1_0_1.py:551-565 [_update] with [_update_cybox]
    (stix_1_0_1.py:464-474) *)
Definition stix_1_0_1_do_update (o : oracle) (root : nat) (opts : options) : M nat :=
  updated <- cybox_2_0_1_do_update o Cybox_in_1_0_1 root opts ;;
  updated <- update_namespaces STIX_1_0_1 updated ;;
  update_schemalocs STIX_1_0_1 updated ;;;
  stix_update_versions STIX_1_0_1 "2.1" "1.1" updated ;;;
  translate_fields o STIX_1_0_1 updated ;;;
  (if update_vocabularies opts then update_vocabs STIX_1_0_1 updated else ret tt) ;;;
  (if remove_optionals opts then update_optionals o STIX_1_0_1 updated else ret tt) ;;;
  ret updated.

(** As in Stix.v. *)
Definition STIX_1_0_1_Updater (o : oracle) : updater :=
  Updater (stix_1_0_1_check o)
          (stix_1_0_1_do_update o)
          (fun root => l <- stix_1_0_1_get_disallowed o root ;; ret (Some l))
          (fun root => d <- stix_1_0_1_get_duplicates root ;; ret (Some d))
          (fun l _ => clean_disallowed l)
          (fun d opts => clean_duplicates opts d).

(** stix_1_1.py:360-395 [check_update]; stix_1_1.py:311-329: [_get_disallowed]
    and [_get_duplicates] return None. *)
Definition stix_1_1_check (root : nat) (opts : options) : M unit :=
  if check_versions opts then stix_check_version STIX_1_1 root else ret tt.

(** stix_1_1.py:397-409 [_update]; [_update_cybox] (stix_1_1.py:345-357) only
    updates the schema locations with the CybOX 2.0.1 tables. *)
Definition stix_1_1_do_update (o : oracle) (root : nat) (opts : options) : M nat :=
  update_schemalocs Cybox_2_0_1 root ;;;
  update_schemalocs STIX_1_1 root ;;;
  stix_update_versions STIX_1_1 "2.1.1" "1.1.1" root ;;;
  translate_fields o STIX_1_1 root ;;;
  (if update_vocabularies opts then update_vocabs STIX_1_1 root else ret tt) ;;;
  (if remove_optionals opts then update_optionals o STIX_1_1 root else ret tt) ;;;
  ret root.

(** As in Stix.v. *)
Definition STIX_1_1_Updater (o : oracle) : updater :=
  Updater stix_1_1_check
          (stix_1_1_do_update o)
          (fun _ => ret None)
          (fun _ => ret None)
          (fun _ _ => raise NotImplementedError)
          (fun _ _ => raise NotImplementedError).

(** stix_1_1_1.py:135-156 [check_update]; stix_1_1_1.py:101-119: [_get_disallowed]
    and [_get_duplicates] return None. *)
Definition stix_1_1_1_check (root : nat) (opts : options) : M unit :=
  if check_versions opts then stix_check_version STIX_1_1_1 root else ret tt.

(** stix_1_1_1.py:158-165 [_update] *)
Definition stix_1_1_1_do_update (root : nat) (opts : options) : M nat :=
  update_schemalocs STIX_1_1_1 root ;;;
  stix_update_versions STIX_1_1_1 "2.2" "1.2" root ;;;
  (if update_vocabularies opts then update_vocabs STIX_1_1_1 root else ret tt) ;;;
  ret root.

(** As in Stix.v. *)
Definition STIX_1_1_1_Updater : updater :=
  Updater stix_1_1_1_check
          stix_1_1_1_do_update
          (fun _ => ret None)
          (fun _ => ret None)
          (fun _ _ => raise NotImplementedError)
          (fun _ _ => raise NotImplementedError).

(** stix_1_2.py:52-73 [check_update] *)
Definition stix_1_2_check (root : nat) (opts : options) : M unit :=
  if check_versions opts then stix_check_version STIX_1_2 root else ret tt.

(** stix_1_2.py:75-81 [_update] *)
Definition stix_1_2_do_update (root : nat) (opts : options) : M nat :=
  root <- update_namespaces STIX_1_2 root ;;
  update_schemalocs STIX_1_2 root ;;;
  modify root (hset_attr (lq "version") "1.2.1") ;;;
  ret root.

(** The cleaning methods are those of base.py:501-529 and 809-816. *)
Definition STIX_1_2_Updater : updater :=
  Updater stix_1_2_check
          stix_1_2_do_update
          (fun _ => raise NotImplementedError)
          (fun root => d <- get_duplicates STIX_1_2 root ;; ret (Some d))
          (fun _ _ => raise NotImplementedError)
          (fun _ _ => raise NotImplementedError).

(** __init__.py:81-122 [STIX_UPDATERS] *)
Definition STIX_UPDATERS (o : oracle) : dict updater :=
  [("1.0", STIX_1_0_Updater o); ("1.0.1", STIX_1_0_1_Updater o);
   ("1.1", STIX_1_1_Updater o); ("1.1.1", STIX_1_1_1_Updater);
   ("1.2", STIX_1_2_Updater)].

(** __init__.py:15-18 [get_version] *)
Definition stix_get_version (d : docarg) : M (option string) :=
  root <- get_etree_root d false ;; stix_node_version root.

(** __init__.py:21-78 [update] *)
Definition stix_update (o : oracle) : docarg -> option string -> option string ->
  option options -> bool -> M results :=
  versioned_update o STIX_VERSIONS (STIX_UPDATERS o) stix_node_version.


(** ** Ramrod.v *)

(** __init__.py:14-82 [update].  [utils.get_localname(root)] reads the local
    part of the root's name; the dict lookup raises KeyError, turned into
    UpdateError, for any other name. *)
Definition ramrod_update (o : oracle) (d : docarg) (from to : option string)
  (opts : option options) (force : bool) : M results :=
  root <- get_etree_root d false ;;
  h <- get_hdr root ;;
  let options := Some (or_default o opts) in
  let name := q_local (h_tag h) in
  if String.eqb name "STIX_Package" then
    from' <- (if truthy from then ret from else stix_get_version (DElem root)) ;;
    stix_update o (DElem root) from' to options force
  else if String.eqb name "Observables" then
    from' <- (if truthy from then ret from
              else v <- cybox_get_version (DElem root) ;; ret (Some v)) ;;
    cybox_update o (DElem root) from' to options force
  else raise (UpdateError None None).


(** ** SpecSession.v *)

(** What comes back: a result or an exception.  A file that was read is given
    back as a result without reports; a version without a class is a KeyError
    of the table of classes. *)
Definition with_class (table : dict updater) (v : string) (m : updater -> M results) : M results :=
  match dict_get v table with Some up => m up | None => raise KeyError end.

(** As in SpecSession.v. *)
Definition perform (o : oracle) (c : call) : M results :=
  match c with
  | Parse t => i <- get_etree_root (DFile (Some t)) false ;; ret (update_results i (CTuple []) (CDict []))
  | Update d from to opts force => ramrod_update o d from to opts force
  | StixUpdate d from to opts force => stix_update o d from to opts force
  | CyboxUpdate d from to opts force => cybox_update o d from to opts force
  | StixStep v d opts force => with_class (STIX_UPDATERS o) v (fun up => updater_update o up d opts force)
  | CyboxStep v d opts force => with_class (CYBOX_UPDATERS o) v (fun up => updater_update o up d opts force)
  | StixClean v d opts => with_class (STIX_UPDATERS o) v (fun up => clean o up d opts)
  | CyboxClean v d opts => with_class (CYBOX_UPDATERS o) v (fun up => clean o up d opts)
  end.

