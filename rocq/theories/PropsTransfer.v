(** * Property theorems: translated fields that keep their type. *)

From Coq Require Import String Ascii List Bool Arith.
From Verif Require Import Str Xml XPath Utils Base Spec SpecField SpecHelper Lib Api Samples Transfer SpecTransfer Transfers.
Import ListNotations.
Local Open Scope string_scope.

(** ** C69: a field of the same type gets a new name and keeps what is in it *)

(** Every node chosen, inside another chosen one or not, becomes a new element
    with the same children; no other node changes. *)
Theorem C69_moved : forall ns xnode tag copy over l s T,
  wf_state s -> In T (heap s) -> distinct_attributes T -> NoDup (map fst over) ->
  usable ns xnode l -> chosen l [] (erase T) = false ->
  exists s' e, translate_moved ns xnode tag copy over (tid T) s = (Ok tt, s') /\ becomes s T s' e /\ moved l tag copy over (erase T) e.
Proof. exact transferred. Qed.
Print Assumptions C69_moved.

(** What is moved has as many nodes, under the same names but for the new one. *)
Theorem C69_names : forall l tag copy over t t',
  moved l tag copy over t t' ->
  Forall2 (fun c c' => h_tag (head (snd c')) = if chosen l (fst c) (snd c) then match tag with Some q => q | None => h_tag (head (snd c)) end else h_tag (head (snd c)))
    (visits [] t) (visits [] t').
Proof. exact moved_names. Qed.
Print Assumptions C69_names.

(** Text in and behind the nodes: kept if the chosen ones have none. *)
Theorem C69_texts_partial : forall ns xnode tag copy over l s T,
  wf_state s -> In T (heap s) -> distinct_attributes T -> NoDup (map fst over) ->
  usable ns xnode l -> chosen l [] (erase T) = false ->
  (forall a x, In (a, x) (visits [] (erase T)) -> chosen l a x = true -> h_text (head x) = None /\ h_tail (head x) = None) ->
  exists s' e, translate_moved ns xnode tag copy over (tid T) s = (Ok tt, s') /\ becomes s T s' e /\ same_texts (erase T) e.
Proof.
  intros ns xnode tag copy over l s T W HT D No U R H. destruct (transferred ns xnode tag copy over l s T W HT D No U R) as (s' & e & E & B & M).
  exists s', e. split; [exact E|]. split; [exact B|]. exact (moved_texts l tag copy over (erase T) e H M).
Qed.
Print Assumptions C69_texts_partial.

(** What prefixes mean: kept if the chosen nodes declare none. *)
Theorem C69_scopes_partial : forall ns xnode tag copy over l s T,
  wf_state s -> In T (heap s) -> distinct_attributes T -> NoDup (map fst over) ->
  usable ns xnode l -> chosen l [] (erase T) = false ->
  (forall a x, In (a, x) (visits [] (erase T)) -> chosen l a x = true -> h_decl (head x) = []) ->
  exists s' e, translate_moved ns xnode tag copy over (tid T) s = (Ok tt, s') /\ becomes s T s' e /\ same_scopes (erase T) e.
Proof.
  intros ns xnode tag copy over l s T W HT D No U R H. destruct (transferred ns xnode tag copy over l s T W HT D No U R) as (s' & e & E & B & M).
  exists s', e. split; [exact E|]. split; [exact B|]. exact (moved_scopes l tag copy over (erase T) e H M).
Qed.
Print Assumptions C69_scopes_partial.

(** In general neither is: text is never kept ... *)
Theorem C69_text_refuted : forall l tag copy over t t' a x,
  moved l tag copy over t t' -> In (a, x) (visits [] t) -> chosen l a x = true ->
  h_text (head x) <> None \/ h_tail (head x) <> None -> ~ same_texts t t'.
Proof. exact moved_text_lost. Qed.
Print Assumptions C69_text_refuted.

(** ... and where the path chooses the root of the document, the document is
    left without anything in it. *)
Theorem C69_root_refuted : forall ns xnode tag copy over l s T,
  wf_state s -> In T (heap s) -> usable ns xnode l -> chosen l [] (erase T) = true ->
  exists s', translate_moved ns xnode tag copy over (tid T) s = (Ok tt, s') /\ becomes s T s' (Node (head (erase T)) []).
Proof. exact transferred_root. Qed.
Print Assumptions C69_root_refuted.

(** ** Concrete cases *)

Definition ns0 : nsmap_t := [("a", "urn:a"); ("b", "urn:b")].

(** A field in a field; the inner one with a value whose type needs a prefix that
    the outer field declares. *)
Definition boxed : tree :=
  el (qn "urn:a" "Root") [(Some "a", "urn:a")] [] None
    [el (qn "urn:a" "Box") [(Some "b", "urn:b")] [(lq "p", "1"); (lq "q", "2")] None
       [el (lq "Item") [] [(TAG_XSI_TYPE, "b:T")] (Some "i") [];
        el (qn "urn:a" "Box") [] [] None [el (lq "Item") [] [] (Some "j") []]];
     el (lq "Other") [] [] (Some "o") []].

Definition s0 : st := memory [boxed].
Definition T0 : tree := match heap s0 with t :: _ => t | [] => boxed end.

Lemma T0_in : wf_state s0 /\ In T0 (heap s0) /\ erase T0 = erase boxed.
Proof. split; [apply memory_wf|]. split; [vm_compute; left; reflexivity|vm_compute; reflexivity]. Qed.

Lemma T0_distinct : distinct_attributes T0.
Proof.
  intros x Hx. vm_compute in Hx. repeat (destruct Hx as [<-|Hx]; [vm_compute; repeat constructor; simpl; intuition discriminate|]). destruct Hx.
Qed.

Definition alts (path : string) : list ralt := match xcompile ns0 path with Some l => l | None => [] end.

Lemma usable_alts path : match xcompile ns0 path with Some l => forallb alt_abs l || forallb (fun a => negb (alt_abs a)) l | None => false end = true ->
  usable ns0 path (alts path).
Proof.
  unfold usable, alts. destruct (xcompile ns0 path) as [l|]; [|discriminate]. intro H. split; auto. apply orb_true_iff in H as [H|H]; [left|right].
  - apply forallb_forall. exact H.
  - rewrite forallb_forall in H. intros a Ha. apply negb_true_iff. auto.
Qed.

(** The document after a run. *)
Definition after (m : M unit) : option tree :=
  match m s0 with
  | (Ok _, s') => option_map erase (nth_error (heap s') 0)
  | (Err _, _) => None
  end.

Definition over0 : list (qname * string) := [(lq "q", "3"); (lq "r", "4")].

Definition run0 : M unit := translate_moved ns0 "//a:Box" (Some (qn "urn:b" "Case")) true over0 (tid T0).

Definition done0 : tree :=
  el (qn "urn:a" "Root") [(Some "a", "urn:a")] [] None
    [el (qn "urn:b" "Case") [] [(lq "p", "1"); (lq "q", "3")] None
       [el (lq "Item") [] [(TAG_XSI_TYPE, "b:T")] (Some "i") [];
        el (qn "urn:b" "Case") [] [] None [el (lq "Item") [] [] (Some "j") []]];
     el (lq "Other") [] [] (Some "o") []].

Example C69_moved_case :
  usable ns0 "//a:Box" (alts "//a:Box") /\ chosen (alts "//a:Box") [] (erase T0) = false /\ NoDup (map fst over0) /\
  after run0 = Some (erase done0).
Proof.
  split; [apply usable_alts; reflexivity|]. split; [reflexivity|]. split; [|vm_compute; reflexivity].
  repeat constructor; simpl; intuition discriminate.
Qed.

(** The texts are kept here: no chosen node has any. *)
Example C69_texts_case : forall a x, In (a, x) (visits [] (erase T0)) -> chosen (alts "//a:Box") a x = true -> h_text (head x) = None /\ h_tail (head x) = None.
Proof.
  intros a x Hx C. vm_compute in Hx.
  repeat (destruct Hx as [Hx|Hx]; [injection Hx as <- <-; try discriminate C; split; reflexivity|]). destruct Hx.
Qed.

(** Only the inner field: it declares nothing. *)
Example C69_scopes_case : usable ns0 "//a:Box/a:Box" (alts "//a:Box/a:Box") /\
  (exists a x, In (a, x) (visits [] (erase T0)) /\ chosen (alts "//a:Box/a:Box") a x = true) /\
  forall a x, In (a, x) (visits [] (erase T0)) -> chosen (alts "//a:Box/a:Box") a x = true -> h_decl (head x) = [].
Proof.
  split; [apply usable_alts; reflexivity|]. split.
  - eexists; eexists. split; [right; right; right; left; reflexivity|reflexivity].
  - intros a x Hx C. vm_compute in Hx.
    repeat (destruct Hx as [Hx|Hx]; [injection Hx as <- <-; try discriminate C; reflexivity|]). destruct Hx.
Qed.

(** A type that lost its meaning: the prefix [b] was declared at the field. *)
Theorem C69_type_refuted : exists s s' T e a x a' x',
  wf_state s /\ In T (heap s) /\ distinct_attributes T /\
  run0 s = (Ok tt, s') /\ becomes s T s' e /\
  In (a, x) (visits [] (erase T)) /\ In (a', x') (visits [] e) /\ erase x' = erase x /\
  attr_of TAG_XSI_TYPE (head x) = Some "b:T" /\
  env_get (Some "b") (env_of a x) = Some "urn:b" /\ env_get (Some "b") (env_of a' x') = None.
Proof.
  destruct T0_in as (W & I & E). destruct C69_moved_case as (U & R & N & _).
  destruct (C69_moved ns0 "//a:Box" (Some (qn "urn:b" "Case")) true over0 _ s0 T0 W I T0_distinct N U R) as (s' & e & X & B & _).
  exists s0, s', T0, e. 
  assert (Ee : e = erase done0).
  { pose proof (proj2 (proj2 (proj2 C69_moved_case))) as A. unfold after in A. change run0 with (translate_moved ns0 "//a:Box" (Some (qn "urn:b" "Case")) true over0 (tid T0)) in A.
    rewrite X in A. destruct B as (_ & (T' & HT' & ET & <-) & _). clear -X A HT' ET. 
    assert (S : translate_moved ns0 "//a:Box" (Some (qn "urn:b" "Case")) true over0 (tid T0) s0 = (Ok tt, s')) by exact X.
    vm_compute in S. injection S as <-. vm_compute in HT'. vm_compute in ET.
    repeat (destruct HT' as [<-|HT']; [try discriminate ET; vm_compute; reflexivity|]). destruct HT'. }
  eexists; eexists; eexists; eexists. split; [exact W|]. split; [exact I|]. split; [exact T0_distinct|]. split; [exact X|]. split; [exact B|].
  rewrite Ee. split; [right; right; left; reflexivity|]. split; [right; right; left; reflexivity|]. repeat split.
Qed.
Print Assumptions C69_type_refuted.

(** A field with text. *)
Example C69_text_case : exists a x,
  In (a, x) (visits [] (erase T0)) /\ chosen (alts "//Other") a x = true /\ h_text (head x) = Some "o" /\
  exists e, after (translate_moved ns0 "//Other" None true [] (tid T0)) = Some e /\ nth_error (kids e) 1 = Some (el (lq "Other") [] [] None []).
Proof.
  eexists; eexists. split; [do 5 right; left; reflexivity|]. split; [reflexivity|]. split; [reflexivity|]. eexists. split; vm_compute; reflexivity.
Qed.

(** The root. *)
Example C69_root_case : usable ns0 "//a:Root" (alts "//a:Root") /\ chosen (alts "//a:Root") [] (erase T0) = true /\
  after (translate_moved ns0 "//a:Root" None true [] (tid T0)) = Some (el (qn "urn:a" "Root") [(Some "a", "urn:a")] [] None []).
Proof. split; [apply usable_alts; reflexivity|]. split; [reflexivity|]. vm_compute. reflexivity. Qed.
