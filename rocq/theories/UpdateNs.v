(** * /repo/ramrod/scripts/update_ns.py.  No proofs in this file.

    The script owns its document, so node identities play no role: the model
    is a function on trees. *)

From Coq Require Import String Ascii List Bool Arith.
From Verif Require Import Str Xml XPath Utils Base Tables.
Import ListNotations.
Local Open Scope string_scope.

(** [name.rfind("}")] seen as a split: what precedes and what follows the last
    closing brace. *)
Fixpoint rsplit_brace (s : string) : option (string * string) :=
  match s with
  | EmptyString => None
  | String a s' =>
      match rsplit_brace s' with
      | Some (x, y) => Some (String a x, y)
      | None => if Ascii.eqb a "}" then Some (EmptyString, s') else None
      end
  end.

(** update_ns.py:89-99 [split_braced_name]; [name[0]] raises IndexError on the
    empty string. *)
Definition split_braced_name (name : string) : res (option string * string) :=
  match name with
  | EmptyString => Err IndexError
  | String a s =>
      if Ascii.eqb a "{" then
        match rsplit_brace s with
        | Some (x, y) => Ok (Some x, y)
        | None => Ok (None, name)
        end
      else Ok (None, name)
  end.

(** lxml's string form of a name. *)
Definition clark (q : qname) : string :=
  match q_ns q with
  | Some ns => "{" ++ ns ++ "}" ++ q_local q
  | None => q_local q
  end.

(** Split at the first closing brace. *)
Fixpoint split_brace (s : string) : option (string * string) :=
  match s with
  | EmptyString => None
  | String a s' =>
      if Ascii.eqb a "}" then Some (EmptyString, s')
      else match split_brace s' with
           | Some (x, y) => Some (String a x, y)
           | None => None
           end
  end.

(** lxml's reading of a name given as a string ([_getNsTag]): split at the
    first closing brace, "{}x" is in no namespace, ValueError on a bad name.
    SIMPLIFICATION: of the NCName rules only "not empty" and "no brace" are
    checked. *)
Definition valid_local (l : string) : bool :=
  negb (String.eqb l "") && negb (contains "{" l) && negb (contains "}" l).

Definition unclark (s : string) : res qname :=
  match s with
  | String a r =>
      if Ascii.eqb a "{" then
        match split_brace r with
        | Some (ns, l) =>
            if valid_local l
            then Ok (QN (if String.eqb ns "" then None else Some ns) l)
            else Err ValueError
        | None => Err ValueError
        end
      else if valid_local s then Ok (lq s) else Err ValueError
  | EmptyString => Err ValueError
  end.

(** update_ns.py:147-151, 154-160, 184-186, 190-194: the new string for a
    name, [None] when the name is in no namespace *)
Definition mapped_name (m : dict string) (name : string) : res (option string) :=
  match split_braced_name name with
  | Err e => Err e
  | Ok (None, _) => Ok None
  | Ok (Some ns, l) => Ok (Some ("{" ++ dict_getd ns ns m ++ "}" ++ l))
  end.

Definition rbind {A B} (r : res A) (k : A -> res B) : res B :=
  match r with Ok a => k a | Err e => Err e end.

(** The name assigned to an element or attribute. *)
Definition remap_name (m : dict string) (q : qname) : res qname :=
  rbind (mapped_name m (clark q)) (fun o =>
  match o with
  | None => Ok q
  | Some s => unclark s
  end).

(** update_ns.py:153-160: the attribute dict of a replacement element *)
Fixpoint new_attrib (m : dict string) (l acc : list (qname * string))
  : res (list (qname * string)) :=
  match l with
  | [] => Ok acc
  | (k, v) :: l' =>
      rbind (remap_name m k) (fun k' => new_attrib m l' (attr_set k' v acc))
  end.

(** update_ns.py:189-194: attributes changed in place, one after the other *)
Fixpoint inplace_attrib (m : dict string) (l acc : list (qname * string))
  : res (list (qname * string)) :=
  match l with
  | [] => Ok acc
  | (k, v) :: l' =>
      rbind (mapped_name m (clark k)) (fun o =>
      match o with
      | None => inplace_attrib m l' acc
      | Some s =>
          rbind (unclark s) (fun k' =>
          inplace_attrib m l' (attr_set k' v (attr_del k acc)))
      end)
  end.

(** Namespaces used by the names of a subtree and not declared inside it:
    libxml2 re-declares them on the top of the subtree when it is moved under
    the replacement of its parent (update_ns.py:166). *)
Definition name_ns (h : hdr) : list string :=
  flat_map (fun q => match q_ns q with Some u => [u] | None => [] end)
    (h_tag h :: map fst (h_attr h)).

Fixpoint free_ns (t : tree) : list string :=
  match t with
  | Node h ks =>
      match h_kind h with
      | KElem =>
          (name_ns h ++
           filter (fun u => negb (mem_str u (map snd (h_decl h))))
             (flat_map free_ns ks))%list
      | _ => []
      end
  end.

(** update_ns.py:129-133: is a mapped namespace visible from the element?
    [env]: the declarations in scope at its (already updated) parent. *)
Definition need_replace (m : dict string) (env : list (option string * string)) (t : tree) : bool :=
  existsb (fun u => mem_str u (map fst m))
    (map snd (env_items [] (h_decl (head t) ++ env)) ++ free_ns t).

(** update_ns.py:102-200 [update_namespaces].  The prefixes of declarations
    re-added by libxml2, and its removal of redundant ones, are not
    represented. *)
Fixpoint update_ns (m : dict string) (env : list (option string * string)) (t : tree) : res tree :=
  match t with
  | Node h ks =>
      match h_kind h with
      | KComment | KEntity => Ok t
      | KPI => Err TypeError
      | KElem =>
          rbind
            (if need_replace m env t then
               let decl := map (fun p => (fst p, dict_getd (snd p) (snd p) m))
                             (env_items [] (h_decl h ++ env)) in
               rbind (remap_name m (h_tag h)) (fun tag =>
               rbind (new_attrib m (h_attr h) []) (fun attrs =>
               Ok (Hdr (h_id h) KElem tag decl attrs (h_text h) false (h_tail h))))
             else
               rbind (remap_name m (h_tag h)) (fun tag =>
               rbind (inplace_attrib m (h_attr h) (h_attr h)) (fun attrs =>
               Ok (set_attrs attrs (set_tag tag h)))))
            (fun h' =>
               rbind ((fix go (l : list tree) : res (list tree) :=
                         match l with
                         | [] => Ok []
                         | k :: l' =>
                             rbind (update_ns m (h_decl h' ++ env) k) (fun k' =>
                             rbind (go l') (fun l'' => Ok (k' :: l'')))
                         end) ks)
                     (fun ks' => Ok (Node h' ks')))
      end
  end.

(** update_ns.py:221-225: the tokens at even positions are mapped *)
Fixpoint map_even (f : string -> string) (l : list string) : list string :=
  match l with
  | [] => []
  | [a] => [f a]
  | a :: b :: l' => f a :: b :: map_even f l'
  end.

Definition remap_schemaloc (m : dict string) (v : string) : string :=
  join " " (map_even (fun u => dict_getd u u m) (split_ws v)).

(** update_ns.py:203-225 [update_schemalocations] *)
Fixpoint update_schemalocations (m : dict string) (t : tree) : tree :=
  match t with
  | Node h ks =>
      Node (match h_kind h, attr_get TAG_SCHEMALOCATION (h_attr h) with
            | KElem, Some v => hset_attr TAG_SCHEMALOCATION (remap_schemaloc m v) h
            | _, _ => h
            end)
           (map (update_schemalocations m) ks)
  end.

(** update_ns.py:228-241 [special_case_version_update] *)
Definition special_case_version_update (to_id : string) (t : tree) : tree :=
  match t with
  | Node h ks =>
      if String.eqb to_id "stix1.2" then
        if has_attr (lq "version") h then Node (hset_attr (lq "version") "1.2" h) ks else t
      else if String.eqb to_id "stix1.2.1" then
        if has_attr (lq "version") h then Node (hset_attr (lq "version") "1.2.1" h) ks else t
      else t
  end.

(** update_ns.py:255-264: a file of namespaces, given by its lines *)
Definition namespace_lines (lines : list string) : list string :=
  filter (fun l => negb (String.eqb l "") && negb (starts_with "#" l)) (map strip lines).

(** update_ns.py:244-266 [get_namespace_list]; [files] stands for the file
    system *)
Definition get_namespace_list (files : string -> list string) (id_ : string) : list string :=
  if String.eqb id_ "stix1.2" then STIX_NS_1_2
  else if String.eqb id_ "stix1.2.1" then STIX_NS_1_2_1
  else namespace_lines (files id_).

(** update_ns.py:310 [dict(zip(from_ns, to_ns))] *)
Definition dict_zip (a b : list string) : dict string :=
  dict_update [] (combine a b).

(** update_ns.py:308-316 [update_from_lists] *)
Definition update_from_lists (from_ns to_ns : list string) (t : tree) : res tree :=
  let m := dict_zip from_ns to_ns in
  rbind (update_ns m [] t) (fun t' => Ok (update_schemalocations m t')).

(** update_ns.py:319-326 [main] *)
Definition update_ns_main (files : string -> list string) (from_id to_id : string) (t : tree)
  : res tree :=
  rbind (update_from_lists (get_namespace_list files from_id)
                           (get_namespace_list files to_id) t)
        (fun t' => Ok (special_case_version_update to_id t')).
