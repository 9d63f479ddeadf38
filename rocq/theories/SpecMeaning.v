(** * What a prefix stands for, and which type an xsi:type names.  No proofs in
    this file. *)

From Coq Require Import String Ascii List Bool Arith.
From Verif Require Import Str Xml Utils Base Tables Spec SpecDoc SpecPass SpecStep SpecUpdate SpecTrace SpecField.
Import ListNotations.
Local Open Scope string_scope.

(** A node is given with the elements around it: [line] is the node followed
    by its parent and so on up to the root. *)

(** The nearest declaration of the prefix. *)
Fixpoint meaning (prefix : string) (line : list tree) : option string :=
  match line with
  | [] => None
  | x :: up =>
      match env_get (Some prefix) (h_decl (head x)) with
      | Some ns => Some ns
      | None => meaning prefix up
      end
  end.

(** The namespaces a step replaces, by starting version. *)
Definition replaced_namespaces (v : string) : dict string :=
  if existsb (String.eqb v) ["1.0.1"; "2.0.1"]
  then [("http://cybox.mitre.org/objects#WinDriverObject-2",
         "http://cybox.mitre.org/objects#WinDriverObject-3")]
  else if String.eqb v "1.2" then stix_1_2_ns_map else [].

(** The first node of the line is an element (below elements) whose name is in
    a replaced namespace. *)
Definition replaced (m : dict string) (line : list tree) : bool :=
  match line with
  | x :: _ =>
      forallb is_elem line &&
      match q_ns (h_tag (head x)) with Some ns => mem_str ns (map fst m) | None => false end
  | [] => false
  end.

(** What the prefix stands for afterwards: an element that moves to another
    namespace takes all prefixes with it, as seen from there; prefixes whose
    nearest declaration comes first keep their meaning. *)
Fixpoint meaning_after (m : dict string) (prefix : string) (line : list tree) : option string :=
  match line with
  | [] => None
  | x :: up =>
      if replaced m line then option_map (fun ns => lookup ns ns m) (meaning prefix line)
      else match env_get (Some prefix) (h_decl (head x)) with
           | Some ns => Some ns
           | None => meaning_after m prefix up
           end
  end.

(** Every node of [e] that stems from a node of [T] is related to it, both with
    the nodes above them. *)
Definition stems_in (R : list tree -> list tree -> Prop) (T e : tree) : Prop :=
  forall above x', In (above, x') (visits [] e) -> tid x' <> 0 ->
  exists anc x, In (anc, x) (visits [] T) /\ tid x = tid x' /\ R (x :: anc) (x' :: above).

Definition prefixes_follow (m : dict string) (line line' : list tree) : Prop :=
  forall prefix, meaning prefix line' = meaning_after m prefix line.

(** The type an xsi:type attribute names, the prefix being read by [look]: its
    namespace (if the prefix stands for one) and its name. *)
Definition type_read (look : string -> option string) (x : tree) : option (option string * string) :=
  match attr_of xsi_type (head x) with
  | Some s => match split_char ":" s with
              | [prefix; name] => Some (look prefix, name)
              | _ => None
              end
  | None => None
  end.

Definition type_named (line : list tree) : option (option string * string) :=
  match line with
  | x :: _ => type_read (fun prefix => meaning prefix line) x
  | [] => None
  end.

(** A value of an outdated vocabulary has the new type of the same vocabulary
    namespace; every other node has the type it had, in the namespace that its
    prefix has come to stand for. *)
Definition types_follow (vs : list vocab) (m : dict string) (line line' : list tree) : Prop :=
  match line with
  | x :: anc =>
      (forall v, In v vs -> outdated v (anc, x) = true ->
         type_named line' = Some (Some (v_namespace v), v_new_type v)) /\
      ((forall v, In v vs -> outdated v (anc, x) = false) ->
         type_named line' = type_read (fun prefix => meaning_after m prefix line) x)
  | [] => False
  end.

(** No namespace is declared below the root. *)
Definition declared_on_root (t : tree) : Prop :=
  forall x, In x (flat_map nodes (kids t)) -> h_decl (head x) = [].

(** No prefix is declared for a namespace that the step replaces. *)
Definition declares_no_replaced (m : dict string) (t : tree) : Prop :=
  forall x, In x (nodes t) -> forall prefix ns, In (prefix, ns) (h_decl (head x)) -> ~ In ns (map fst m).

(** The same type, in the successor of its namespace. *)
Definition in_successor (m : dict string) (type : option string * string) : option string * string :=
  (option_map (fun ns => lookup ns ns m) (fst type), snd type).
