(** * Property theorems: the helper classes, whatever a class configures. *)

From Coq Require Import String Ascii List Bool Arith Permutation.
From Verif Require Import Str Xml XPath Utils Base Tables Cybox Stix Ramrod Spec SpecDoc SpecPass SpecTrace SpecField SpecName SpecHelper
  Lib Api Samples Helpers.
Import ListNotations.
Local Open Scope string_scope.

(** ** C57: the helper classes do what they say for every configuration *)

(** A renamed field: the nodes chosen get the new name, nothing else changes. *)
Theorem C57_renamed : forall o ns f q l s T,
  wf_state s -> In T (heap s) -> t_kind f = TRenamed q -> usable ns (t_xnode f) l ->
  exists s' e, translate o ns f (tid T) s = (Ok tt, s') /\ becomes s T s' e /\
    node_by_node (fun anc x h' => h' = if chosen l anc x then set_tag q (head x) else head x) [] (erase T) e.
Proof. exact renamed_any. Qed.
Print Assumptions C57_renamed.

(** A translated field: the outermost nodes chosen below the root are replaced by
    the new element, nothing else changes (a root that is chosen stays, but needs
    a value all the same); without a value there is an IndexError. *)
Theorem C57_translated : forall o ns f value tag copy over l lv s T,
  wf_state s -> In T (heap s) -> distinct_attributes T -> NoDup (map fst over) ->
  t_kind f = TDefault value tag copy over -> usable ns (t_xnode f) l ->
  xcompile ns value = Some lv -> lv <> [] -> (forall a, In a lv -> alt_abs a = false) ->
  ((forall anc x, In (anc, x) (visits [] (erase T)) -> chosen l anc x = true ->
      exists b y, In (b, y) (visits [] x) /\ chosen lv b y = true) ->
   exists s' e, translate o ns f (tid T) s = (Ok tt, s') /\ becomes s T s' e /\
     supplanted (chosen l) (translation lv tag copy over) [] (erase T) e) /\
  (forall anc x, In (anc, x) (visits [] (erase T)) -> chosen l anc x = true ->
      (forall b y, In (b, y) (visits [] x) -> chosen lv b y = false) ->
   exists s', translate o ns f (tid T) s = (Err IndexError, s')).
Proof. exact translated_any. Qed.
Print Assumptions C57_translated.

(** Optional elements: the outermost chosen nodes that are empty go. *)
Theorem C57_optional_elements : forall o d ns l s T typed,
  wf_state s -> In T (heap s) ->
  d_ctx_types d = [] -> d_interrogate d = IEmptyElem -> usable ns (d_xpath d) l ->
  exists s' e, (found <- dfind o d ns (tid T) typed ;; remove_xml_elements found) s = (Ok tt, s') /\ becomes s T s' e /\
    supplanted (fun anc x => chosen l anc x && blank x) (fun _ r => r = []) [] (erase T) e.
Proof. exact optional_any. Qed.
Print Assumptions C57_optional_elements.

(** ** C58: classes for optional attributes remove the empty ones *)

(** One attribute in the class: it goes where it is empty. *)
Theorem C58_one_attribute_partial : forall o d ns l k s T typed,
  wf_state s -> In T (heap s) -> distinct_attributes T ->
  d_ctx_types d = [] -> d_interrogate d = IEmptyAttrs [k] -> usable ns (d_xpath d) l ->
  exists s' e, (found <- dfind o d ns (tid T) typed ;; for_each found (fun i => remove_xml_attributes i [k])) s = (Ok tt, s') /\
    becomes s T s' e /\ node_by_node (empty_ones_go l [k]) [] (erase T) e.
Proof. exact attribute_any. Qed.
Print Assumptions C58_one_attribute_partial.

(** Several: if one of them is empty on a node, all of them go from it. *)
Theorem C58_exactly : forall o d ns l attrs s T typed,
  wf_state s -> In T (heap s) -> distinct_attributes T ->
  d_ctx_types d = [] -> d_interrogate d = IEmptyAttrs attrs -> usable ns (d_xpath d) l ->
  exists s' e, (found <- dfind o d ns (tid T) typed ;; for_each found (fun i => remove_xml_attributes i attrs)) s = (Ok tt, s') /\
    becomes s T s' e /\ node_by_node (all_go l attrs) [] (erase T) e.
Proof. exact attributes_any. Qed.
Print Assumptions C58_exactly.

(** ** C57, continued *)

(** Disallowed fields: the nodes chosen, in document order. *)
Theorem C57_found : forall o d ns l s T typed,
  wf_state s -> In T (heap s) ->
  d_ctx_types d = [] -> d_interrogate d = IAll -> usable ns (d_xpath d) l ->
  dfind o d ns (tid T) typed s =
  (Ok (map (fun c => tid (snd c)) (filter (fun c => chosen l (fst c) (snd c)) (visits [] T))), s).
Proof. exact found_any. Qed.
Print Assumptions C57_found.

(** With types: the nodes chosen inside each element of one of the types. *)
Theorem C57_found_in_types : forall o d ns l s T,
  wf_state s -> In T (heap s) ->
  d_ctx_types d <> [] -> d_interrogate d = IAll ->
  xcompile ns (d_xpath d) = Some l -> l <> [] -> (forall a, In a l -> alt_abs a = false) ->
  ((forall anc x, In (anc, x) (visits [] T) -> ~ unreadable anc x) ->
   dfind o d ns (tid T) None s =
   (Ok (flat_map (fun c => map (fun e => tid (snd e)) (filter (fun e => chosen l (fst e) (snd e)) (visits [] (snd c))))
          (filter (of_context (d_ctx_types d)) (visits [] T))), s)) /\
  (forall anc x, In (anc, x) (visits [] T) -> unreadable anc x -> exists er, dfind o d ns (tid T) None s = (Err er, s)).
Proof. exact found_in_types. Qed.
Print Assumptions C57_found_in_types.

(** A vocabulary: its outdated terms are renewed, nothing else changes. *)
Theorem C57_vocabulary : forall v s T typed s',
  wf_state s -> In T (heap s) -> get_typed_nodes (tid T) s = (Ok typed, s) ->
  vocab_update v typed s = (Ok tt, s') ->
  exists e, becomes s T s' e /\ node_by_node (vocabulary_rule v) [] (erase T) e.
Proof. exact vocabulary_any. Qed.
Print Assumptions C57_vocabulary.

Theorem C57_vocabulary_fails : forall v s T typed,
  wf_state s -> In T (heap s) -> get_typed_nodes (tid T) s = (Ok typed, s) ->
  (exists er s', vocab_update v typed s = (Err er, s')) <-> vocabulary_fault v (erase T).
Proof. exact vocabulary_fails. Qed.
Print Assumptions C57_vocabulary_fails.

(** The order in which a class lists its vocabularies does not matter, as long
    as they do not get in each other's way. *)
Theorem C57_vocabularies_order : forall u u' s T,
  Permutation (c_vocabs u) (c_vocabs u') -> unrelated (c_vocabs u) -> wf_state s -> In T (heap s) ->
  (exists s1 s2 e, update_vocabs u (tid T) s = (Ok tt, s1) /\ update_vocabs u' (tid T) s = (Ok tt, s2) /\
     becomes s T s1 e /\ becomes s T s2 e) \/
  (exists s1 s2 er, update_vocabs u (tid T) s = (Err er, s1) /\ update_vocabs u' (tid T) s = (Err er, s2)).
Proof. exact vocabularies_order. Qed.
Print Assumptions C57_vocabularies_order.

(** Namespaces: the elements of a replaced namespace move to the new one;
    nothing else changes.  The one way to fail: an element without children
    that is to move has a CDATA section and the characters that end one in its
    text. *)
Theorem C57_namespaces : forall u s T,
  wf_state s -> In T (heap s) -> is_elem T = true -> distinct_attributes T ->
  (cannot_move (c_ns_map u) (erase T) /\ update_namespaces u (tid T) s = (Err ValueError, s)) \/
  (~ cannot_move (c_ns_map u) (erase T) /\
   exists T' s', update_namespaces u (tid T) s = (Ok (tid T'), s') /\ wf_state s' /\ In T' (heap s') /\
    (forall X, In X (heap s) -> X <> T -> In X (heap s')) /\
    node_by_node (fun anc x h' => among_elements anc -> moved_without (c_disallowed_ns u) (c_ns_map u) anc x h')
      [] (erase T) (erase T')).
Proof. exact namespaces_any. Qed.
Print Assumptions C57_namespaces.

(** ** Cases *)

Definition ns0 : nsmap_t := [("a", "urn:a"); ("b", "urn:b"); ("xsi", NS_XSI)].

(** A small document: a field with a value and a nested field of the same name,
    an empty field, a field with two optional attributes, terms of two
    vocabularies. *)
Definition small : tree :=
  el (qn "urn:a" "Root") [(Some "a", "urn:a"); (Some "b", "urn:b"); (Some "xsi", NS_XSI)] [] None
    [el (qn "urn:a" "Field") [] [(lq "f", "1")] (Some "outer")
       [el (qn "urn:a" "Value") [] [(lq "p", "1"); (lq "q", "2")] (Some "v") [];
        el (qn "urn:a" "Field") [] [] (Some "inner") [el (qn "urn:a" "Value") [] [] (Some "w") []]];
     comment "c";
     el (qn "urn:a" "Empty") [] [] (Some " ") [];
     el (qn "urn:a" "Opt") [] [(lq "x", ""); (lq "y", "kept?"); (lq "z", "")] None [];
     el (qn "urn:b" "Term") [] [(TAG_XSI_TYPE, "a:T-1.0"); (lq "vocab_name", "old")] (Some "colour") [];
     el (qn "urn:b" "Term") [] [(TAG_XSI_TYPE, "b:U-1.0")] (Some "u") []].

Definition s0 : st := memory [small].
Definition T0 : tree := match heap s0 with t :: _ => t | [] => small end.

Lemma T0_in : wf_state s0 /\ In T0 (heap s0) /\ erase T0 = erase small.
Proof. split; [apply memory_wf|]. split; [vm_compute; left; reflexivity|vm_compute; reflexivity]. Qed.

Lemma T0_distinct : distinct_attributes T0.
Proof.
  intros x Hx. vm_compute in Hx. repeat (destruct Hx as [<-|Hx]; [vm_compute; repeat constructor; simpl; intuition discriminate|]). destruct Hx.
Qed.

Definition alts (path : string) : list ralt := match xcompile ns0 path with Some l => l | None => [] end.

Lemma usable_alts path : match xcompile ns0 path with Some l => forallb alt_abs l || forallb (fun a => negb (alt_abs a)) l | None => false end = true ->
  usable ns0 path (alts path).
Proof.
  unfold usable, alts. destruct (xcompile ns0 path) as [l|]; [|discriminate]. intro H. split; auto. apply orb_true_iff in H as [H|H]; [left|right].
  - apply forallb_forall. exact H.
  - rewrite forallb_forall in H. intros a Ha. apply negb_true_iff. auto.
Qed.

(** The content of the document after a run. *)
Definition after {A} (m : M A) : option tree :=
  match m s0 with
  | (Ok _, s') => option_map erase (nth_error (heap s') 0)
  | (Err _, _) => None
  end.

Example C57_renamed_case :
  usable ns0 "//a:Field" (alts "//a:Field") /\
  exists e, after (translate o0 ns0 (TField "//a:Field" (TRenamed (qn "urn:b" "New"))) (tid T0)) = Some e /\
    map (fun x => h_text (head x)) (filter (fun x => qn_eqb (h_tag (head x)) (qn "urn:b" "New")) (nodes e)) = [Some "outer"; Some "inner"].
Proof. split; [apply usable_alts; reflexivity|]. eexists. split; vm_compute; reflexivity. Qed.

Definition field0 : tfield := TField "//a:Field" (TDefault "./a:Value" (Some (qn "urn:b" "New")) true [(lq "q", "3"); (lq "r", "4")]).

Example C57_translated_case :
  usable ns0 "//a:Field" (alts "//a:Field") /\ chosen (alts "//a:Field") [] (erase T0) = false /\
  xcompile ns0 "./a:Value" = Some (alts "./a:Value") /\ alts "./a:Value" <> [] /\
  (forall a, In a (alts "./a:Value") -> alt_abs a = false) /\ distinct_attributes T0 /\
  (forall anc x, In (anc, x) (visits [] (erase T0)) -> chosen (alts "//a:Field") anc x = true ->
      exists b y, In (b, y) (visits [] x) /\ chosen (alts "./a:Value") b y = true) /\
  exists e, after (translate o0 ns0 field0 (tid T0)) = Some e /\
    hd_error (kids e) = Some (el (qn "urn:b" "New") [] [(lq "p", "1"); (lq "q", "3")] (Some "v") []).
Proof.
  split; [apply usable_alts; reflexivity|]. split; [reflexivity|]. split; [reflexivity|]. split; [discriminate|].
  split; [intros a [<-|[]]; reflexivity|]. split; [exact T0_distinct|]. split.
  - intros anc x Hx C. vm_compute in Hx.
    repeat (destruct Hx as [Hx|Hx]; [injection Hx as <- <-; try discriminate C|]); try destruct Hx.
    all: eexists; eexists; split; [right; left; reflexivity|reflexivity].
  - eexists. split; vm_compute; reflexivity.
Qed.

(** Everything is chosen, the root included: it stays. *)
Example C57_translated_root_case :
  usable ns0 "//a:Root" (alts "//a:Root") /\ chosen (alts "//a:Root") [] (erase T0) = true /\
  after (translate o0 ns0 (TField "//a:Root" (TDefault "./a:Field" (Some (qn "urn:b" "New")) true [])) (tid T0)) = Some (erase T0).
Proof. split; [apply usable_alts; reflexivity|]. split; vm_compute; reflexivity. Qed.

(** Without a value. *)
Example C57_no_value_case :
  exists anc x, In (anc, x) (visits [] (erase T0)) /\ chosen (alts "//a:Empty") anc x = true /\
    (forall b y, In (b, y) (visits [] x) -> chosen (alts "./a:Value") b y = false) /\
    fst (translate o0 ns0 (TField "//a:Empty" (TDefault "./a:Value" None false [])) (tid T0) s0) = Err IndexError.
Proof.
  eexists. eexists. split; [right; right; right; right; right; right; left; vm_compute; reflexivity|].
  split; [reflexivity|]. split; [intros b y [Hy|[]]; injection Hy as <- <-; reflexivity|vm_compute; reflexivity].
Qed.

Example C57_optional_elements_case :
  usable ns0 "//a:Empty" (alts "//a:Empty") /\
  exists e, after (found <- dfind o0 (DField [] "//a:Empty" IEmptyElem) ns0 (tid T0) None ;; remove_xml_elements found) = Some e /\
    (List.length (nodes e) + 1 = List.length (nodes small))%nat.
Proof. split; [apply usable_alts; reflexivity|]. eexists. split; vm_compute; reflexivity. Qed.

Example C58_one_attribute_case :
  usable ns0 "//a:Opt" (alts "//a:Opt") /\
  exists e, after (found <- dfind o0 (DField [] "//a:Opt" (IEmptyAttrs [lq "x"])) ns0 (tid T0) None ;;
                   for_each found (fun i => remove_xml_attributes i [lq "x"])) = Some e /\
    nth_error (kids e) 3 = Some (el (qn "urn:a" "Opt") [] [(lq "y", "kept?"); (lq "z", "")] None []).
Proof. split; [apply usable_alts; reflexivity|]. eexists. split; vm_compute; reflexivity. Qed.

Example C57_found_case :
  usable ns0 "//a:Field" (alts "//a:Field") /\
  exists i j, dfind o0 (DField [] "//a:Field" IAll) ns0 (tid T0) None s0 = (Ok [i; j], s0) /\ i <> j.
Proof. split; [apply usable_alts; reflexivity|]. eexists. eexists. split; [vm_compute; reflexivity|discriminate]. Qed.

Example C57_found_in_types_case :
  let d := DField [("T-1.0", "urn:a")] "." IAll in
  (forall anc x, In (anc, x) (visits [] T0) -> ~ unreadable anc x) /\ alts "." <> [] /\
  (forall a, In a (alts ".") -> alt_abs a = false) /\
  exists i, dfind o0 d ns0 (tid T0) None s0 = (Ok [i], s0).
Proof.
  split; [|split; [discriminate|split]].
  - intros anc x Hx (_ & _ & value & A & N). vm_compute in Hx.
    repeat (destruct Hx as [Hx|Hx]; [injection Hx as <- <-; try discriminate A|]); try destruct Hx.
    + injection A as <-. specialize (N "a" "T-1.0" eq_refl). discriminate N.
    + injection A as <-. specialize (N "b" "U-1.0" eq_refl). discriminate N.
  - intros a [<-|[]]. reflexivity.
  - eexists. vm_compute. reflexivity.
Qed.

Definition vocab_t : vocab :=
  Vocab "urn:a" ["T-1.0"; "T-1.0.1"] "T-1.1" (PStr "http://x/T") (PStr "T terms") [("colour", "color")].
Definition vocab_u : vocab := Vocab "urn:b" ["U-1.0"] "U-1.1" (PStr "http://x/U") (PTuple "oops") [].

Example C57_vocabulary_case :
  exists typed s' e, get_typed_nodes (tid T0) s0 = (Ok typed, s0) /\ vocab_update vocab_t typed s0 = (Ok tt, s') /\
    option_map erase (nth_error (heap s') 0) = Some e /\
    nth_error (kids e) 4 = Some (el (qn "urn:b" "Term") [] [(TAG_XSI_TYPE, "a:T-1.1"); (lq "vocab_name", "T terms")] (Some "color") []) /\
    nth_error (kids e) 5 = nth_error (kids (erase small)) 5.
Proof. eexists. eexists. eexists. repeat split; vm_compute; reflexivity. Qed.

(** A class with a tuple where a name should be fails on a term with that
    attribute, and only on those. *)
Definition vocab_w : vocab := Vocab "urn:a" ["T-1.0"] "T-1.1" (PStr "http://x/T") (PTuple "T terms") [].

Example C57_vocabulary_fails_case :
  vocabulary_fault vocab_w (erase T0) /\ ~ vocabulary_fault vocab_u (erase T0).
Proof.
  split.
  - eexists. eexists. split.
    + do 8 right. left. vm_compute. reflexivity.
    + right. exists "a". split.
      * split; [discriminate|]. split; [reflexivity|]. exists "a:T-1.0", "T-1.0". repeat split. left. reflexivity.
      * right. exists "T terms". split; [reflexivity|discriminate].
  - intros F. destruct T0_in as (W & I & _).
    destruct (get_typed_nodes (tid T0) s0) as [[typed|] s1] eqn:E; [|vm_compute in E; discriminate].
    assert (s1 = s0) by (vm_compute in E; injection E as _ <-; reflexivity). subst s1.
    apply (proj2 (C57_vocabulary_fails vocab_u s0 T0 typed W I E)) in F as (er & s' & F).
    vm_compute in E. injection E as <-. vm_compute in F. discriminate F.
Qed.

(** The vocabularies of every class are unrelated. *)
Lemma apart_pair v w : negb (String.eqb (v_namespace v) (v_namespace w)) ||
    (forallb (fun n => negb (mem_str n (v_old_types w))) (v_old_types v) &&
     negb (mem_str (v_new_type v) (v_old_types w)) && negb (mem_str (v_new_type w) (v_old_types v))) = true -> apart v w.
Proof.
  intro H. apply orb_true_iff in H as [H|H].
  - left. intro E. rewrite E, String.eqb_refl in H. discriminate.
  - apply andb_true_iff in H as [H C]. apply andb_true_iff in H as [A B]. right. rewrite forallb_forall in A. split; [|split].
    + intros n Hn Hw. specialize (A n Hn). apply mem_str_In in Hw. rewrite Hw in A. discriminate.
    + intro Hw. apply mem_str_In in Hw. rewrite Hw in B. discriminate.
    + intro Hw. apply mem_str_In in Hw. rewrite Hw in C. discriminate.
Qed.

Fixpoint unrelatedb (vs : list vocab) : bool :=
  match vs with
  | [] => true
  | v :: r => forallb (fun w => negb (String.eqb (v_namespace v) (v_namespace w)) ||
      (forallb (fun n => negb (mem_str n (v_old_types w))) (v_old_types v) &&
       negb (mem_str (v_new_type v) (v_old_types w)) && negb (mem_str (v_new_type w) (v_old_types v)))) r &&
      match split_char ":" (v_new_type v) with [x] => String.eqb x (v_new_type v) | _ => false end && unrelatedb r
  end.

Lemma unrelated_check vs : unrelatedb vs = true -> unrelated vs.
Proof.
  induction vs as [|v r IH]; intro H; [split; [intros ? []|constructor]|]. cbn [unrelatedb] in H.
  apply andb_true_iff in H as [H R]. apply andb_true_iff in H as [H S]. destruct (IH R) as [A B]. split.
  - intros w [<-|Hw]; auto. destruct (split_char ":" (v_new_type v)) as [|x [|]]; try discriminate. apply String.eqb_eq in S. subst x. reflexivity.
  - constructor; auto. apply Forall_forall. intros w Hw. rewrite forallb_forall in H. apply apart_pair. auto.
Qed.

Example C57_shipped_unrelated :
  forall u, In u [Cybox_2_0; Cybox_2_0_1; STIX_1_0; STIX_1_0_1; STIX_1_1; STIX_1_1_1; STIX_1_2] -> unrelated (c_vocabs u).
Proof. intros u H. apply unrelated_check. repeat (destruct H as [<-|H]; [vm_compute; reflexivity|]). destruct H. Qed.

Definition class_of (vs : list vocab) : cls := Cls "1" ns0 ns0 ["urn:b"] [("urn:a", "urn:c")] [] vs "" "" [] [] [] [].

Example C57_vocabularies_order_case :
  unrelated [vocab_t; vocab_u] /\ Permutation [vocab_t; vocab_u] [vocab_u; vocab_t] /\
  exists e, after (update_vocabs (class_of [vocab_t; vocab_u]) (tid T0)) = Some e /\
    after (update_vocabs (class_of [vocab_u; vocab_t]) (tid T0)) = Some e /\
    attr_of TAG_XSI_TYPE (head (nth 5 (kids e) small)) = Some "b:U-1.1".
Proof.
  split; [apply unrelated_check; reflexivity|].
  split; [constructor|]. eexists. repeat split; vm_compute; reflexivity.
Qed.

(** Related ones: with the second class first, the terms of the first are
    brought up by one version, else by two. *)
Example C57_related_case :
  let v := Vocab "urn:a" ["T-1.0"] "T-1.1" (PStr "") (PStr "") [] in
  let w := Vocab "urn:a" ["T-1.1"] "T-1.2" (PStr "") (PStr "") [] in
  ~ unrelated [v; w] /\
  after (update_vocabs (class_of [v; w]) (tid T0)) <> after (update_vocabs (class_of [w; v]) (tid T0)).
Proof.
  intros v w. split.
  - intros [_ F]. inversion F as [|? ? F1 _]; subst. inversion F1 as [|? ? [A|(_ & A & _)] _]; subst; apply A; [reflexivity|left; reflexivity].
  - vm_compute. discriminate.
Qed.

Example C57_namespaces_case :
  is_elem T0 = true /\ distinct_attributes T0 /\
  exists r s' T', update_namespaces (class_of []) (tid T0) s0 = (Ok r, s') /\ In T' (heap s') /\ tid T' = r /\
    h_tag (head T') = qn "urn:c" "Root" /\ h_decl (head T') = [(Some "a", "urn:c"); (Some "xsi", NS_XSI)] /\
    h_tag (head (nth 4 (kids T') small)) = qn "urn:b" "Term".
Proof.
  split; [reflexivity|]. split; [exact T0_distinct|]. eexists. eexists. eexists. split; [vm_compute; reflexivity|].
  split; [left; reflexivity|]. repeat split; reflexivity.
Qed.

(** It fails on a text that cannot be written as one section, in an element
    that is to move; not in one that stays. *)
Definition sectioned (ns : string) : tree :=
  el (qn "urn:a" "Root") [(Some "a", "urn:a"); (Some "b", "urn:b")] [] None
    [Node (Hdr 0 KElem (qn ns "Script") [] [] (Some "x[y[0]]>1") true None) []].
Definition sectioned_in (ns : string) : tree := match heap (memory [sectioned ns]) with t :: _ => t | [] => sectioned ns end.
Example C57_namespaces_fails :
  cannot_move (c_ns_map (class_of [])) (erase (sectioned_in "urn:a")) /\
  fst (update_namespaces (class_of []) (tid (sectioned_in "urn:a")) (memory [sectioned "urn:a"])) = Err ValueError /\
  exists r, fst (update_namespaces (class_of []) (tid (sectioned_in "urn:b")) (memory [sectioned "urn:b"])) = Ok r.
Proof.
  split; [|split; [vm_compute; reflexivity|eexists; vm_compute; reflexivity]].
  exists [erase (sectioned_in "urn:a")], (erase (nth 0 (kids (sectioned_in "urn:a")) small)).
  split; [vm_compute; right; left; reflexivity|]. split; [intros a [<-|[]]; reflexivity|]. split; [vm_compute; discriminate|].
  split; [reflexivity|]. split; [reflexivity|]. exists "x[y[0", "1". reflexivity.
Qed.

(** What the class for optional attributes promises fails for two attributes: a
    value that is not empty goes with an empty one. *)
Theorem C58_refuted :
  exists o d ns l attrs s T typed, wf_state s /\ In T (heap s) /\ distinct_attributes T /\
    d_ctx_types d = [] /\ d_interrogate d = IEmptyAttrs attrs /\ usable ns (d_xpath d) l /\
    forall s' e, (found <- dfind o d ns (tid T) typed ;; for_each found (fun i => remove_xml_attributes i attrs)) s = (Ok tt, s') ->
      becomes s T s' e -> ~ node_by_node (empty_ones_go l attrs) [] (erase T) e.
Proof.
  destruct T0_in as (W & I & _).
  exists o0, (DField [] "//a:Opt" (IEmptyAttrs [lq "x"; lq "y"])), ns0, (alts "//a:Opt"), [lq "x"; lq "y"], s0, T0, None.
  split; [exact W|]. split; [exact I|]. split; [exact T0_distinct|]. split; [reflexivity|]. split; [reflexivity|].
  split; [apply usable_alts; reflexivity|]. intros s' e E (W' & (T' & HT' & Et & Ee) & _) N.
  vm_compute in E. injection E as <-. vm_compute in HT'. destruct HT' as [<-|[]].
  vm_compute in Ee. subst e. vm_compute in N. inversion N as [? ? ? ? ? _ F]; subst. clear N.
  inversion F as [|? ? ? ? _ F1]; subst. inversion F1 as [|? ? ? ? _ F2]; subst. inversion F2 as [|? ? ? ? _ F3]; subst.
  inversion F3 as [|? ? ? ? N _]; subst. inversion N as [? ? ? ? ? (f & (_ & A) & B) _]; subst.
  destruct (B (lq "y")) as [_ B2]. specialize (A (lq "y")). vm_compute in A.
  assert (X : f (lq "y") = Some "kept?").
  { rewrite B2; [reflexivity|]. intros (_ & _ & Z). discriminate Z. }
  unfold lq in *. congruence.
Qed.
Print Assumptions C58_refuted.
