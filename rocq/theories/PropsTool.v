(** * Property theorems: the XML helpers offered to the authors of updater
    classes. *)

From Coq Require Import String Ascii List Bool Arith.
From Verif Require Import Str Xml XPath Utils Base UpdateNs Offered Spec SpecDoc SpecPass SpecTrace SpecField SpecFault SpecName SpecHelper SpecTool
  Lib Api Samples Tools.
Import ListNotations.
Local Open Scope string_scope.

(** ** C61: the helpers for nodes do what they say *)

(** Replacing: the node's place, and only that, is taken by the new node; the
    replaced node lives on by itself.  A root is left alone. *)
Theorem C61_replace : forall s T anc x new,
  wf_state s -> In T (heap s) -> In (anc, x) (visits [] T) -> anc <> [] -> detached s new ->
  exists T' s', replace_xml_element (tid x) new s = (Ok tt, s') /\ put_in x [new] T T' /\ changed s T T' s' /\ In x (heap s').
Proof. exact replace_any. Qed.
Print Assumptions C61_replace.

Theorem C61_remove : forall s T anc x,
  wf_state s -> In T (heap s) -> In (anc, x) (visits [] T) -> anc <> [] ->
  exists T' s', remove_xml_element (tid x) s = (Ok tt, s') /\ put_in x [] T T' /\ changed s T T' s' /\ In x (heap s').
Proof. exact remove_any. Qed.
Print Assumptions C61_remove.

Theorem C61_root_stays : forall s T new,
  wf_state s -> In T (heap s) ->
  replace_xml_element (tid T) new s = (Ok tt, s) /\ remove_xml_element (tid T) s = (Ok tt, s).
Proof. exact root_stays. Qed.
Print Assumptions C61_root_stays.

(** Removing several nodes, in any order, with repetitions, some inside
    others: these nodes go, and no other. *)
Theorem C61_remove_all : forall s T l,
  wf_state s -> In T (heap s) -> (forall i, In i l -> In i (ids T)) ->
  exists T' s', remove_xml_elements l s = (Ok tt, s') /\ without l T T' /\ changed s T T' s'.
Proof. exact remove_all_any. Qed.
Print Assumptions C61_remove_all.

(** Copying: a new element of nodes in no document, equal but for the name; a
    comment or a processing instruction cannot be copied. *)
Theorem C61_copy : forall s T anc x tag,
  wf_state s -> In T (heap s) -> In (anc, x) (visits [] T) ->
  if is_elem x
  then exists new s', copy_xml_element (tid x) tag s = (Ok new, s') /\ erase new = with_tag tag (erase x) /\
         detached s' new /\ heap s' = heap s /\ wf_state s'
  else exists s', copy_xml_element (tid x) tag s = (Err AttributeError, s') /\ heap s' = heap s /\ wf_state s'.
Proof. exact copy_any. Qed.
Print Assumptions C61_copy.

(** Removing attributes, there or not: these go from the node, nothing else
    changes. *)
Theorem C61_attributes : forall s T anc x l,
  wf_state s -> In T (heap s) -> In (anc, x) (visits [] T) -> NoDup (map fst (h_attr (head x))) ->
  exists T' s', remove_xml_attributes (tid x) l s = (Ok tt, s') /\ only_node (tid x) (attributes_go l) T T' /\ changed s T T' s'.
Proof. exact attributes_any. Qed.
Print Assumptions C61_attributes.

(** A new id: the id, and only that, is what the function makes of the old
    one; KeyError and no change without an id. *)
Theorem C61_new_id : forall f s T anc x,
  wf_state s -> In T (heap s) -> In (anc, x) (visits [] T) ->
  match attr_of (lq "id") (head x) with
  | Some v => exists T' s', apply_new_id f (tid x) s = (Ok tt, s') /\
      only_node (tid x) (attribute_is (lq "id") (f (gen s) v)) T T' /\ changed s T T' s' /\ gen s' = S (gen s)
  | None => apply_new_id f (tid x) s = (Err KeyError, s)
  end.
Proof. exact new_id_any. Qed.
Print Assumptions C61_new_id.

(** Type information: the texts before and behind the one colon of xsi:type;
    KeyError without xsi:type, ValueError without exactly one colon. *)
Theorem C61_type_info : forall s T anc x,
  wf_state s -> In T (heap s) -> In (anc, x) (visits [] T) ->
  match attr_of TAG_XSI_TYPE (head x) with
  | None => get_type_info (tid x) s = (Err KeyError, s)
  | Some v =>
      (exists a n, v = a ++ ":" ++ n /\ no_colon a /\ no_colon n /\ get_type_info (tid x) s = (Ok (a, n), s)) \/
      ((forall a n, v = a ++ ":" ++ n -> ~ (no_colon a /\ no_colon n)) /\ get_type_info (tid x) s = (Err ValueError, s))
  end.
Proof.
  intros s T a x W HT Hx. rewrite (type_info_run s T a x W HT Hx). pose proof (type_info_any (head x)) as H.
  destruct (attr_of TAG_XSI_TYPE (head x)) as [v|]; [|rewrite H; reflexivity].
  destruct H as [(p & n & A & B & C & D)|(A & D)]; [left; exists p, n; rewrite D; auto|right; rewrite D; auto].
Qed.
Print Assumptions C61_type_info.

(** The namespace of a type: what the text before the first colon is bound to
    at the node; KeyError if there is none. *)
Theorem C61_ext_namespace : forall s T anc x,
  wf_state s -> In T (heap s) -> In (anc, x) (visits [] T) ->
  match attr_of TAG_XSI_TYPE (head x) with
  | None => get_ext_namespace (tid x) s = (Err KeyError, s)
  | Some v => exists p, no_colon p /\ (v = p \/ exists r, v = p ++ ":" ++ r) /\
      get_ext_namespace (tid x) s =
        (match env_get (Some p) (env_of anc x) with Some ns => Ok ns | None => Err KeyError end, s)
  end.
Proof. exact ext_namespace_any. Qed.
Print Assumptions C61_ext_namespace.

(** ** C62: the other helpers of the base class do what they say *)

(** Leaf: no child elements; comments and processing instructions do not
    count. *)
Theorem C62_leaf : forall s T anc x,
  wf_state s -> In T (heap s) -> In (anc, x) (visits [] T) ->
  exists b, is_leaf (tid x) s = (Ok b, s) /\ (b = true <-> forall k, In k (kids x) -> is_elem k = false).
Proof. exact leaf_any. Qed.
Print Assumptions C62_leaf.

Theorem C62_schemalocations : forall s T,
  wf_state s -> In T (heap s) -> NoDup (map fst (h_attr (head T))) ->
  exists T' s', remove_schemalocations (tid T) s = (Ok tt, s') /\
    only_node (tid T) (attributes_go [TAG_SCHEMALOCATION]) T T' /\ changed s T T' s'.
Proof. exact schemalocations_any. Qed.
Print Assumptions C62_schemalocations.

(** Every element below the root gets into the successor of its namespace, if
    all have one and it can be replaced in the name as a string. *)
Theorem C62_applied_partial : forall u s T,
  wf_state s -> In T (heap s) ->
  (forall anc x, In (anc, x) (visits [] (erase T)) -> anc <> [] -> is_elem x = true -> exists ns,
     q_ns (h_tag (head x)) = Some ns /\ replaceable ns (q_local (h_tag (head x))) /\
     proper (lookup ns ns (c_ns_map u)) (q_local (h_tag (head x)))) ->
  exists s' e, apply_namespace_updates u (tid T) s = (Ok tt, s') /\ becomes s T s' e /\
    node_by_node (namespaces_applied (c_ns_map u)) [] (erase T) e.
Proof. exact applied_any. Qed.
Print Assumptions C62_applied_partial.

(** An element without a namespace: always an exception. *)
Theorem C62_applied_fails : forall u s T anc x,
  wf_state s -> In T (heap s) -> In (anc, x) (visits [] (erase T)) -> anc <> [] -> is_elem x = true ->
  q_ns (h_tag (head x)) = None -> exists e s', apply_namespace_updates u (tid T) s = (Err e, s').
Proof. exact applied_fails. Qed.
Print Assumptions C62_applied_fails.

(** The question for the prefix of a namespace is answered with the namespace
    of a prefix. *)
Theorem C62_alias_exactly : forall s T ns,
  wf_state s -> In T (heap s) -> get_ns_alias (tid T) ns s = (Ok (env_get (Some ns) (env_of [] T)), s).
Proof. exact alias_any. Qed.
Print Assumptions C62_alias_exactly.

(** Text of a node: [behind] says whether the text behind it has a CDATA
    section. *)
Theorem C62_text_exactly : forall behind t,
  (kids t <> [] -> get_node_text behind t = Ok (Plain None)) /\
  (kids t = [] -> h_cdata (head t) = false -> behind = false -> get_node_text behind t = Ok (Plain (h_text (head t)))) /\
  (kids t = [] -> h_cdata (head t) = true \/ behind = true ->
     match h_text (head t) with
     | None => get_node_text behind t = Err TypeError
     | Some v => (get_node_text behind t = Ok (Section v) /\ forall x y, v <> x ++ "]]>" ++ y) \/
                 (get_node_text behind t = Err ValueError /\ exists x y, v = x ++ "]]>" ++ y)
     end).
Proof. exact node_text_any. Qed.
Print Assumptions C62_text_exactly.

(** ** Worked cases *)

Definition small : tree :=
  el (qn "urn:a" "Root") [(Some "a", "urn:a"); (Some "b", "urn:b")] [(TAG_SCHEMALOCATION, "urn:a a.xsd"); (lq "id", "r-1")] None
    [el (qn "urn:a" "Field") [] [(lq "id", "f-1"); (TAG_XSI_TYPE, "a:T:U")] (Some "outer") [el (qn "urn:b" "Value") [] [] (Some "v") []];
     comment "c";
     el (qn "urn:b" "Term") [] [(TAG_XSI_TYPE, "b:U-1.0")] (Some "u") []].

Definition s0 : st := memory [small; small].
Definition T0 : tree := match heap s0 with t :: _ => t | [] => small end.
Definition kid (n : nat) : tree := nth n (kids T0) small.

Lemma T0_in : wf_state s0 /\ In T0 (heap s0) /\ erase T0 = erase small.
Proof. split; [apply memory_wf|]. split; [vm_compute; left; reflexivity|vm_compute; reflexivity]. Qed.

Lemma kid_in n : n < 3 -> In ([T0], kid n) (visits [] T0).
Proof. do 3 (destruct n as [|n]; [intros _; vm_compute; auto 10|]). intro H. exfalso. do 3 apply Nat.succ_lt_mono in H. inversion H. Qed.

(** A copy of the third child takes the place of the first. *)
Example C61_replace_case :
  exists new s1 s2, copy_xml_element (tid (kid 2)) (Some (qn "urn:c" "New")) s0 = (Ok new, s1) /\ detached s1 new /\
    replace_xml_element (tid (kid 0)) new s1 = (Ok tt, s2) /\
    option_map (fun t => map (fun k => h_tag (head k)) (kids t)) (nth_error (heap s2) 0) =
      Some [qn "urn:c" "New"; h_tag (head (kid 1)); qn "urn:b" "Term"].
Proof.
  destruct T0_in as (W & I & _). pose proof (C61_copy s0 T0 [T0] (kid 2) (Some (qn "urn:c" "New")) W I (kid_in 2 ltac:(auto))) as H.
  change (is_elem (kid 2)) with true in H. cbv iota in H. destruct H as (new & s1 & E & _ & D & _).
  exists new, s1. pose proof E as E'. vm_compute in E'. injection E' as <- <-. eexists. split; [vm_compute; reflexivity|]. split; [exact D|].
  split; [vm_compute; reflexivity|vm_compute; reflexivity].
Qed.

(** The value inside the field, then the field itself, then the value again,
    then the root: the field goes. *)
Example C61_remove_all_case :
  let l := [tid (nth 0 (kids (kid 0)) small); tid (kid 0); tid (nth 0 (kids (kid 0)) small); tid T0] in
  (forall i, In i l -> In i (ids T0)) /\
  exists s', remove_xml_elements l s0 = (Ok tt, s') /\
    option_map (fun t => map (fun k => h_kind (head k)) (kids t)) (nth_error (heap s') 0) = Some [KComment; KElem].
Proof.
  split; [intros i H; vm_compute in H; vm_compute; intuition|]. eexists. split; vm_compute; reflexivity.
Qed.

Example C61_copy_comment_case : is_elem (kid 1) = false /\ exists s', copy_xml_element (tid (kid 1)) None s0 = (Err AttributeError, s').
Proof. split; [reflexivity|]. eexists. vm_compute. reflexivity. Qed.

Example C61_attributes_case :
  NoDup (map fst (h_attr (head (kid 0)))) /\
  exists s', remove_xml_attributes (tid (kid 0)) [lq "none"; lq "id"] s0 = (Ok tt, s') /\
    option_map (fun t => h_attr (head (nth 0 (kids t) small))) (nth_error (heap s') 0) = Some [(TAG_XSI_TYPE, "a:T:U")].
Proof. split; [vm_compute; repeat constructor; simpl; intuition discriminate|]. eexists. split; vm_compute; reflexivity. Qed.

Example C61_new_id_case :
  attr_of (lq "id") (head (kid 0)) = Some "f-1" /\
  exists s', apply_new_id (create_new_id (fun _ => "u")) (tid (kid 0)) s0 = (Ok tt, s') /\
    option_map (fun t => attr_of (lq "id") (head (nth 0 (kids t) small))) (nth_error (heap s') 0) = Some (Some "f-1-cleaned-u").
Proof. split; [reflexivity|]. eexists. split; vm_compute; reflexivity. Qed.

(** Two colons: no type information, but a namespace. *)
Example C61_types_case :
  get_type_info (tid (kid 2)) s0 = (Ok ("b", "U-1.0"), s0) /\
  get_type_info (tid (kid 0)) s0 = (Err ValueError, s0) /\ get_ext_namespace (tid (kid 0)) s0 = (Ok "urn:a", s0).
Proof. repeat split; vm_compute; reflexivity. Qed.

Example C62_leaf_case : is_leaf (tid (kid 2)) s0 = (Ok true, s0) /\ is_leaf (tid (kid 0)) s0 = (Ok false, s0).
Proof. split; vm_compute; reflexivity. Qed.

Definition class_of (m : dict string) : cls := Cls "1" [] [] [] m [] [] "" "" [] [] [] [].

Example C62_schemalocations_case : NoDup (map fst (h_attr (head T0))) /\ attr_of TAG_SCHEMALOCATION (head T0) <> None.
Proof. split; [vm_compute; repeat constructor; simpl; intuition discriminate|discriminate]. Qed.

Lemma fits x y : (forall a b, x <> a ++ y ++ b) <-> contains y x = false.
Proof.
  split.
  - intro H. destruct (contains y x) eqn:E; auto. apply Codec.contains_some in E as (a & b & E). exfalso. exact (H a b E).
  - intros H a b E. assert (contains y x = true); [|congruence]. apply Codec.occurs_contains. exists a, b. exact E.
Qed.

Example C62_applied_case :
  (forall anc x, In (anc, x) (visits [] (erase T0)) -> anc <> [] -> is_elem x = true -> exists ns,
     q_ns (h_tag (head x)) = Some ns /\ replaceable ns (q_local (h_tag (head x))) /\
     proper (lookup ns ns [("urn:a", "urn:c")]) (q_local (h_tag (head x)))) /\
  exists s', apply_namespace_updates (class_of [("urn:a", "urn:c")]) (tid T0) s0 = (Ok tt, s') /\
    option_map (fun t => h_tag (head (nth 0 (kids t) small))) (nth_error (heap s') 0) = Some (qn "urn:c" "Field").
Proof.
  split; [|eexists; split; vm_compute; reflexivity].
  intros anc x Hx N E. vm_compute in Hx.
  destruct Hx as [Hx|[Hx|[Hx|[Hx|[Hx|[]]]]]]; injection Hx as <- <-.
  - exfalso. apply N. reflexivity.
  - exists "urn:a". unfold replaceable, proper. repeat split; try discriminate; apply fits; reflexivity.
  - exists "urn:b". unfold replaceable, proper. repeat split; try discriminate; apply fits; reflexivity.
  - discriminate E.
  - exists "urn:b". unfold replaceable, proper. repeat split; try discriminate; apply fits; reflexivity.
Qed.

(** ** Where the helpers do not do what they say *)

(** An element without a namespace below the root. *)
Theorem C62_applied_refuted : ~ (forall u s T, wf_state s -> In T (heap s) ->
  exists s' e, apply_namespace_updates u (tid T) s = (Ok tt, s') /\ becomes s T s' e /\
    node_by_node (namespaces_applied (c_ns_map u)) [] (erase T) e).
Proof.
  intro H. set (t := el (qn "urn:a" "Root") [] [] None [el (lq "Field") [] [] None []]).
  destruct (H (class_of []) (memory [t]) (nth 0 (heap (memory [t])) t) (memory_wf _)) as (s' & e & E & _); [vm_compute; auto|].
  vm_compute in E. discriminate E.
Qed.
Print Assumptions C62_applied_refuted.

(** A namespace that is part of the local name: the local name changes too. *)
Theorem C62_local_name_refuted : ~ (forall u s T, wf_state s -> In T (heap s) ->
  (forall x, In x (nodes T) -> is_elem x = true -> q_ns (h_tag (head x)) <> None) ->
  exists s' e, apply_namespace_updates u (tid T) s = (Ok tt, s') /\ becomes s T s' e /\
    node_by_node (namespaces_applied (c_ns_map u)) [] (erase T) e).
Proof.
  intro H. set (t := el (qn "urn:a" "Root") [] [] None [el (qn "item" "item_list") [] [] None []]).
  set (s := memory [t]). set (T := nth 0 (heap s) t).
  destruct (H (class_of [("item", "part")]) s T (memory_wf _)) as (s' & e & E & (_ & (T' & I & R & X) & _) & N).
  - vm_compute. auto.
  - intros x Hx. vm_compute in Hx. repeat (destruct Hx as [<-|Hx]; [discriminate|]). destruct Hx.
  - vm_compute in E. injection E as <-. vm_compute in I. destruct I as [<-|[]]. rewrite <- X in N. vm_compute in N.
    inversion N as [? ? ? ? ? A F]; subst. inversion F as [|? ? ? ? B _]; subst. inversion B as [? ? ? ? ? C _]; subst.
    vm_compute in C. discriminate C.
Qed.
Print Assumptions C62_local_name_refuted.

Theorem C62_alias_refuted : ~ (forall s T ns p, wf_state s -> In T (heap s) ->
  env_get (Some p) (env_of [] T) = Some ns ->
  exists q, get_ns_alias (tid T) ns s = (Ok (Some q), s) /\ env_get (Some q) (env_of [] T) = Some ns).
Proof.
  intro H. destruct T0_in as (W & I & _). destruct (H s0 T0 "urn:a" "a" W I eq_refl) as (q & E & _).
  vm_compute in E. discriminate E.
Qed.
Print Assumptions C62_alias_refuted.

(** A CDATA section behind a node makes its plain text a section, and one
    behind a node without text an exception. *)
Theorem C62_text_refuted : ~ (forall behind t, kids t = [] -> h_cdata (head t) = false ->
  get_node_text behind t = Ok (Plain (h_text (head t)))).
Proof. intro H. specialize (H true (el (qn "urn:a" "A") [] [] None []) eq_refl eq_refl). discriminate H. Qed.
Print Assumptions C62_text_refuted.
