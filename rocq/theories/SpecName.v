(** * Words for names, text and fields after a step.  No proofs in this file. *)

From Coq Require Import String Ascii List Bool Arith.
From Verif Require Import Str Xml Utils Base Tables Spec SpecDoc SpecPass SpecStep SpecUpdate SpecTrace SpecField SpecLocation.
Import ListNotations.
Local Open Scope string_scope.

(** ** Namespaces that are replaced *)

(** The new namespace of [x], when [x] is an element in a namespace of [m]. *)
Definition successor (m : dict string) (x : tree) : option string :=
  if is_elem x then match q_ns (h_tag (head x)) with Some ns => dict_get ns m | None => None end
  else None.

(** Everything but identity and attributes. *)
Definition same_but_attributes (h h' : hdr) : Prop :=
  h_kind h' = h_kind h /\ h_tag h' = h_tag h /\ h_decl h' = h_decl h /\
  h_text h' = h_text h /\ h_cdata h' = h_cdata h /\ h_tail h' = h_tail h.

(** The local name stays.  Every prefix that had a meaning at [x] is declared
    with the successor of that meaning, and no other.  An element without
    children keeps its text. *)
Definition moved (m : dict string) (anc : list tree) (x : tree) (h' : hdr) : Prop :=
  match successor m x with
  | Some new =>
      h_kind h' = KElem /\ h_tag h' = QN (Some new) (q_local (h_tag (head x))) /\
      (forall p, env_get p (h_decl h') = option_map (fun ns => lookup ns ns m) (env_get p (env_of anc x))) /\
      (kids x = [] -> h_text h' = h_text (head x) /\ h_cdata h' = h_cdata (head x))
  | None => same_but_attributes (head x) h'
  end.

(** The attributes stay; on the root, schemaLocation and version aside. *)
Definition attributes_stay (anc : list tree) (x : tree) (h' : hdr) : Prop :=
  forall k, (anc = [] -> k <> TAG_SCHEMALOCATION /\ k <> lq "version") -> attr_of k h' = attr_of k (head x).

(** Only elements are above (as everywhere in an XML document). *)
Definition among_elements (anc : list tree) : Prop := forall a, In a anc -> is_elem a = true.

(** ** Character data *)

(** The pieces of text that are not blank, in document order.  The text of a
    comment or processing instruction is not character data, what follows it
    is. *)
Definition piece (s : option string) : list string :=
  match s with Some s => if blank_text (Some s) then [] else [s] | None => [] end.

Fixpoint pieces (t : tree) : list string :=
  match t with
  | Node h ks => ((if is_elem t then piece (h_text h) else [])
                  ++ flat_map (fun k => pieces k ++ piece (h_tail (head k))) ks)%list
  end.

(** The elements in a namespace of [m] have text only when they have no
    children, and none is followed by text. *)
Definition no_mixed_text (m : dict string) (t : tree) : Prop :=
  forall x, In x (nodes t) -> successor m x <> None ->
  (kids x <> [] -> blank_text (h_text (head x)) = true) /\ blank_text (h_tail (head x)) = true.

(** What is left of these pieces: an element in a namespace of [m] loses its
    text when it has children, and always the text that follows it. *)
Fixpoint pieces_left (m : dict string) (t : tree) : list string :=
  match t with
  | Node h ks =>
      if is_elem t then
        ((match successor m t, ks with Some _, _ :: _ => [] | _, _ => piece (h_text h) end)
         ++ flat_map (fun k => pieces_left m k
                               ++ (match successor m k with Some _ => [] | None => piece (h_tail (head k)) end)) ks)%list
      else pieces t
  end.

(** ** Lists in texts *)

(** Python's [s.split(sep)]: cut at the first place where [sep] stands, go on
    behind it. *)
Inductive split_at (sep : string) : string -> list string -> Prop :=
| split_none s : (forall a b, s <> a ++ sep ++ b) -> split_at sep s [s]
| split_first a b l :
    (forall a' b', a ++ sep ++ b = a' ++ sep ++ b' -> String.length a <= String.length a') ->
    split_at sep b l -> split_at sep (a ++ sep ++ b) (a :: l).

(** A list item before and after its escaped commas became commas. *)
Definition decoded (x y : string) : Prop :=
  exists parts, split_at "&comma;" x parts /\ y = join "," parts.

(** A text and the same list, decoded and written in the new way. *)
Definition relisted (s s' : string) : Prop :=
  exists l l', split_at "," s l /\ Forall2 decoded l l' /\ s' = join "##comma##" l'.

Fixpoint relisted_times (n : nat) (s s' : string) : Prop :=
  match n with
  | O => s' = s
  | S n' => exists m, relisted_times n' s m /\ relisted m s'
  end.

(** Written one after the other with the new separator between them, the items
    can be told apart: none contains the separator, and none but the last ends
    in so much of it that the separator behind it seems to begin earlier. *)
Definition unmistakable (l : list string) : Prop :=
  (forall x a b, In x l -> x <> a ++ "##comma##" ++ b) /\
  (forall x a, In x (removelast l) -> x <> a ++ "##comma" /\ x <> a ++ "##comma#").

(** The value of an object property after the step from CybOX 2.0: written anew
    once for every Properties element of an Object around it.  If there is one,
    splitting gives the same items, decoded, exactly when they can be told
    apart. *)
Definition list_kept (vs : list vocab) (anc : list tree) (x : tree) (h' : hdr) : Prop :=
  is_elem x = true -> (forall v, In v vs -> outdated v (anc, x) = false) ->
  (properties_above (cybox "Object") (cybox "Properties") anc = 0 -> h_text h' = h_text (head x)) /\
  (h_text (head x) = None -> h_text h' = None) /\
  (forall s, h_text (head x) = Some s ->
   exists s', h_text h' = Some s' /\
     relisted_times (properties_above (cybox "Object") (cybox "Properties") anc) s s') /\
  (properties_above (cybox "Object") (cybox "Properties") anc = 1 ->
   forall s l, h_text (head x) = Some s -> split_at "," s l ->
   exists s' l', h_text h' = Some s' /\ Forall2 decoded l l' /\
     (split_at "##comma##" s' l' <-> unmistakable l')).

(** ** Optional elements *)

(** The options with removal of empty optional elements on or off. *)
Definition removing (b : bool) (opts : options) : options :=
  Options (check_versions opts) (new_id_func opts) (update_vocabularies opts) b.

(** No attribute and no text but white space, on [x] and everything in it. *)
Definition empty_field (x : tree) : Prop :=
  forall y, In y (nodes x) -> is_elem y = true -> h_attr (head y) = [] /\ blank_text (h_text (head y)) = true.

(** The elements that may go when they are empty.  The step from STIX 1.0.1
    includes the one from CybOX 2.0.1, its other changes are
    [stix_1_0_1_rest]. *)
Definition listed_optional (v : string) (anc : list tree) (x : tree) : bool :=
  match dict_get v
    [("2.0.1", any_inside cybox_2_1_optional);
     ("1.0.1", any_inside [marking "Controlled_Structure"; marking "Marking_Structure"]);
     ("1.1", fun anc x =>
        match anc with
        | p :: anc' => of_type "GenericTestMechanismType" "http://stix.mitre.org/extensions/TestMechanism#Generic-1" (anc', p)
                       && is_elem x
        | [] => false
        end)] with
  | Some p => p anc x
  | None => false
  end.

(** A node and the nodes above it, given as the path up to the root: none,
    the root aside, satisfies [p]. *)
Fixpoint spared (p : list tree -> tree -> bool) (path : list tree) : Prop :=
  match path with
  | z :: (_ :: _) as above => p above z = false /\ spared p above
  | _ => True
  end.

Definition stix_1_0_1_rest (opts : options) : tree -> res tree :=
  in_order
    [ always (schemaloc_pass ["http://stix.mitre.org/extensions/AP#CAPEC2.6-1";
                              "http://stix.mitre.org/extensions/Malware#MAEC4.0-1"]
                [] stix_1_0_1_schemaloc_map);
      always (edit_where carries_version (stamp_stix "2.1" "1.1"));
      rewrite_all (any_inside [common "Contributors"]) (contributing_sources NS_COMMON);
      rewrite_all (child_in [ttp "Exploit_Targets"] (common "Exploit_Target"))
                  (wrap (ttp "Exploit_Target"));
      when (update_vocabularies opts) (passes vocab_pass [motivation_1_1; indicator_type]) ].

(** [x] and the nodes in it are followed by white space only. *)
Definition nothing_follows (x : tree) : Prop :=
  forall y, In y (nodes x) -> blank_text (h_tail (head y)) = true.
