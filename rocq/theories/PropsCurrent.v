(** * Property theorems: no value of an outdated vocabulary is left. *)

From Coq Require Import String Ascii List Bool Arith NArith.
From Verif Require Import Str Xml XPath Utils Base Tables Cybox Stix Ramrod Spec SpecDoc SpecPass SpecStep
  SpecCheck SpecClean SpecUpdate SpecTrace SpecField SpecIds SpecMeaning SpecCurrent Lib Samples Worked RefineUpdate Updates Api Meaning Current.
Import ListNotations.
Local Open Scope string_scope.

(** ** C52: after an update no outdated vocabulary is in use *)

(** [vs] are the versions from the one the document starts at up to, but not
    including, the one it is brought to; each stands for the step from it. *)
Theorem C52_stix_partial : forall o d from to opts force s t a vs r s' new,
  wf_state s -> denotes s d t -> is_elem t = true -> untyped_root t -> distinct_attributes t ->
  sources_without_markup t -> clear_prefixes t -> update_vocabularies (or_default o opts) = true ->
  stix_start from t = Some a ->
  between ["1.0"; "1.0.1"; "1.1"; "1.1.1"; "1.2"; "1.2.1"] a (match given to with Some b => b | None => "1.2.1" end) vs ->
  stix_update o d from to opts force s = (Ok r, s') -> document s' (r_document r) new ->
  none_outdated (flat_map stix_vocabularies vs) new.
Proof. intros. eapply stix_update_current; eauto. constructor; auto. Qed.
Print Assumptions C52_stix_partial.

Theorem C52_cybox_partial : forall o d from to opts force s t a vs r s' new,
  wf_state s -> denotes s d t -> is_elem t = true -> untyped_root t -> distinct_attributes t ->
  sources_without_markup t -> clear_prefixes t -> update_vocabularies (or_default o opts) = true ->
  cybox_start from t = Some a ->
  between ["2.0"; "2.0.1"; "2.1"] a (match given to with Some b => b | None => "2.1" end) vs ->
  cybox_update o d from to opts force s = (Ok r, s') -> document s' (r_document r) new ->
  none_outdated (flat_map cybox_vocabularies vs) new.
Proof. intros. eapply cybox_update_current; eauto. constructor; auto. Qed.
Print Assumptions C52_cybox_partial.

(** Through the entry point that tells the two kinds of document apart. *)
Theorem C52_ramrod_stix_partial : forall o d from to opts force s t a vs r s' new,
  wf_state s -> denotes s d t -> is_elem t = true -> untyped_root t -> distinct_attributes t ->
  sources_without_markup t -> clear_prefixes t -> update_vocabularies (or_default o opts) = true ->
  q_local (h_tag (head t)) = "STIX_Package" -> stix_start from t = Some a ->
  between ["1.0"; "1.0.1"; "1.1"; "1.1.1"; "1.2"; "1.2.1"] a (match given to with Some b => b | None => "1.2.1" end) vs ->
  ramrod_update o d from to opts force s = (Ok r, s') -> document s' (r_document r) new ->
  none_outdated (flat_map stix_vocabularies vs) new.
Proof.
  intros. rewrite (ramrod_is_stix o d from to opts force s t) in H10 by assumption. eapply stix_update_current; eauto. constructor; auto.
Qed.
Print Assumptions C52_ramrod_stix_partial.

Theorem C52_ramrod_cybox_partial : forall o d from to opts force s t a vs r s' new,
  wf_state s -> denotes s d t -> is_elem t = true -> untyped_root t -> distinct_attributes t ->
  sources_without_markup t -> clear_prefixes t -> update_vocabularies (or_default o opts) = true ->
  q_local (h_tag (head t)) = "Observables" -> cybox_start from t = Some a ->
  between ["2.0"; "2.0.1"; "2.1"] a (match given to with Some b => b | None => "2.1" end) vs ->
  ramrod_update o d from to opts force s = (Ok r, s') -> document s' (r_document r) new ->
  none_outdated (flat_map cybox_vocabularies vs) new.
Proof.
  intros. rewrite (ramrod_is_cybox o d from to opts force s t) in H10 by assumption. eapply cybox_update_current; eauto. constructor; auto.
Qed.
Print Assumptions C52_ramrod_cybox_partial.

(** ** Deciding the conditions *)
Definition declarations (t : tree) : list (option string * string) := flat_map (fun x => h_decl (head x)) (nodes t).

Definition prefix_clear (ds : list (option string * string)) (d : option string * string) : bool :=
  match d with
  | (Some a, u) =>
      negb (String.eqb u later_terms) &&
      (negb (mem_str u [stix_terms; cybox_terms]) ||
       negb (mem_str a ["stixCommon"; "indicator"]) &&
       forallb (fun e => match e with (Some b, w) => negb (String.eqb a b) || String.eqb w u | _ => true end) ds)
  | _ => true
  end.

Lemma clear_prefixes_decided t : forallb (prefix_clear (declarations t)) (declarations t) = true -> clear_prefixes t.
Proof.
  intro H. rewrite forallb_forall in H.
  assert (K : forall a u, declared t a u -> In (Some a, u) (declarations t)) by (intros a u (x & Hx & I); apply in_flat_map; eauto).
  assert (N : forall a u, declared t a u -> u <> later_terms /\
    (In u [stix_terms; cybox_terms] -> ~ In a ["stixCommon"; "indicator"] /\ forall w, declared t a w -> w = u)).
  { intros a u D. specialize (H _ (K a u D)). cbn [prefix_clear] in H. apply andb_true_iff in H as [A B]. split.
    - intros ->. rewrite String.eqb_refl in A. discriminate.
    - intro I. apply mem_str_In in I. rewrite I in B. cbn [negb orb] in B. apply andb_true_iff in B as [B C]. split.
      + intro J. apply mem_str_In in J. rewrite J in B. discriminate.
      + intros w Dw. rewrite forallb_forall in C. specialize (C _ (K a w Dw)). cbn in C. rewrite String.eqb_refl in C. apply String.eqb_eq. exact C. }
  split; [|split].
  - intros ns a w I D Dw. apply (N a ns D); auto.
  - intros ns a I D. apply (N a ns D); auto.
  - intros a D. exact (proj1 (N a later_terms D) eq_refl).
Qed.

(** ** The conditions are met *)

(** A 1.0 package with a motivation (outdated twice over), a tool type of
    CybOX, and a value whose vocabulary is not outdated. *)
Definition motivation_elem : tree :=
  el (qn COMMON_NS "Value") [] [(TAG_XSI_TYPE, "stixVocabs:MotivationVocab-1.0"); (lq "vocab_name", "n")]
     (Some "Policital") [].
Definition pkg_1_0_terms : tree :=
  package "1.0"
    [motivation_elem;
     el (qn STIX_NS "Observables") [] [(lq "cybox_major_version", "2"); (lq "cybox_minor_version", "0")] None
       [el (qn CYBOX_NS "Type") [] [(TAG_XSI_TYPE, "cyboxVocabs:ToolTypeVocab-1.0")] (Some "A/V") []];
     el (qn "http://stix.mitre.org/Incident-1" "Category") []
        [(TAG_XSI_TYPE, "stixVocabs:IncidentCategoryVocab-1.0")] (Some "x") []].
Definition obs_2_0_terms : tree :=
  observables [(lq "cybox_major_version", "2"); (lq "cybox_minor_version", "0")]
    [el (qn CYBOX_NS "Event") [] [] None
       [el (qn CYBOX_NS "Type") [] [(TAG_XSI_TYPE, "cyboxVocabs:EventTypeVocab-1.0")] (Some "Anomoly Events") []]].

Definition type_eqb (a b : option (option string * string)) : bool :=
  match a, b with
  | Some (u, n), Some (w, m) => ostr_eqb u w && String.eqb n m
  | None, None => true
  | _, _ => false
  end.
Fixpoint types_eqb (l m : list (option (option string * string))) : bool :=
  match l, m with
  | a :: l', b :: m' => type_eqb a b && types_eqb l' m'
  | [], [] => true
  | _, _ => false
  end.
Lemma types_eqb_eq l : forall m, types_eqb l m = true -> l = m.
Proof.
  induction l as [|a l IH]; intros [|b m]; try discriminate; [reflexivity|]. cbn [types_eqb]. intro H. apply andb_true_iff in H as [A B].
  f_equal; [|auto]. destruct a as [[u n]|], b as [[w k]|]; try discriminate; [|reflexivity]. cbn [type_eqb] in A.
  apply andb_true_iff in A as [A C]. apply ostr_eqb_eq in A. apply String.eqb_eq in C. congruence.
Qed.
(** The types that the elements of a document name, in document order. *)
Definition types_in (t : tree) : list (option (option string * string)) := map (fun c => type_named (snd c :: fst c)) (visits [] t).

Ltac no_sources := let x := fresh in let Ix := fresh in let N := fresh in
  intros x ? Ix N ?; vm_compute in Ix; repeat (destruct Ix as [<-|Ix]; [discriminate N|]); destruct Ix.

Example C52_case :
  wf_state (memory []) /\
  (is_elem pkg_1_0_terms = true /\ untyped_root pkg_1_0_terms /\ distinct_attributes pkg_1_0_terms /\
   sources_without_markup pkg_1_0_terms /\ clear_prefixes pkg_1_0_terms /\
   update_vocabularies (or_default o0 None) = true /\ stix_start None pkg_1_0_terms = Some "1.0" /\
   between ["1.0"; "1.0.1"; "1.1"; "1.1.1"; "1.2"; "1.2.1"] "1.0" "1.2.1" ["1.0"; "1.0.1"; "1.1"; "1.1.1"; "1.2"] /\
   types_in pkg_1_0_terms =
     [None; Some (Some stix_terms, "MotivationVocab-1.0"); None; Some (Some cybox_terms, "ToolTypeVocab-1.0");
      Some (Some stix_terms, "IncidentCategoryVocab-1.0")] /\
   exists r s' new, stix_update o0 (DFile (Some pkg_1_0_terms)) None None None false (memory []) = (Ok r, s') /\
     document s' (r_document r) new /\
     types_in new =
       [None; Some (Some later_terms, "MotivationVocab-1.1"); None; Some (Some cybox_terms, "ToolTypeVocab-1.1");
        Some (Some later_terms, "IncidentCategoryVocab-1.0")]) /\
  (is_elem obs_2_0_terms = true /\ untyped_root obs_2_0_terms /\ distinct_attributes obs_2_0_terms /\
   sources_without_markup obs_2_0_terms /\ clear_prefixes obs_2_0_terms /\ cybox_start None obs_2_0_terms = Some "2.0" /\
   between ["2.0"; "2.0.1"; "2.1"] "2.0" "2.1" ["2.0"; "2.0.1"] /\
   types_in obs_2_0_terms = [None; None; Some (Some cybox_terms, "EventTypeVocab-1.0")] /\
   exists r s' new, cybox_update o0 (DFile (Some obs_2_0_terms)) None None None false (memory []) = (Ok r, s') /\
     document s' (r_document r) new /\
     types_in new = [None; None; Some (Some cybox_terms, "EventTypeVocab-1.0.1")]).
Proof.
  split; [split; [constructor|intros i []]|]. split.
  - split; [reflexivity|]. split; [reflexivity|]. split; [apply distinct_decided; reflexivity|]. split; [no_sources|].
    split; [apply clear_prefixes_decided; vm_compute; reflexivity|]. split; [reflexivity|]. split; [reflexivity|].
    split; [exists [], ["1.0.1"; "1.1"; "1.1.1"; "1.2"], []; split; reflexivity|]. split; [vm_compute; reflexivity|].
    destruct (run_document (stix_update o0 (DFile (Some pkg_1_0_terms)) None None None false (memory []))
      (fun new => types_eqb (types_in new) [None; Some (Some later_terms, "MotivationVocab-1.1"); None; Some (Some cybox_terms, "ToolTypeVocab-1.1");
        Some (Some later_terms, "IncidentCategoryVocab-1.0")])) as (r & s' & new & E & D & B); [vm_compute; reflexivity|].
    exists r, s', new. split; [exact E|]. split; [exact D|]. apply types_eqb_eq. exact B.
  - split; [reflexivity|]. split; [reflexivity|]. split; [apply distinct_decided; reflexivity|]. split; [no_sources|].
    split; [apply clear_prefixes_decided; vm_compute; reflexivity|]. split; [reflexivity|].
    split; [exists [], ["2.0.1"], []; split; reflexivity|]. split; [vm_compute; reflexivity|].
    destruct (run_document (cybox_update o0 (DFile (Some obs_2_0_terms)) None None None false (memory []))
      (fun new => types_eqb (types_in new) [None; None; Some (Some cybox_terms, "EventTypeVocab-1.0.1")])) as (r & s' & new & E & D & B); [vm_compute; reflexivity|].
    exists r, s', new. split; [exact E|]. split; [exact D|]. apply types_eqb_eq. exact B.
Qed.

(** ** Where it fails *)

(** The prefix of a vocabulary stands for something else inside Contributors.
    The step from 1.0.1 takes the Contributors element away, after it has
    looked for outdated values, and what was no vocabulary value becomes one. *)
Definition pkg_hidden_term : tree :=
  package "1.0.1"
    [el (qn COMMON_NS "Contributors") [(Some "cyboxVocabs", "urn:x")] [] None
       [el (qn COMMON_NS "Contributor") [] [(TAG_XSI_TYPE, "cyboxVocabs:ToolTypeVocab-1.0")] (Some "A") []]].

(** An outdated type on the root is not looked at. *)
Definition pkg_typed_root : tree :=
  el (qn STIX_NS "STIX_Package") std_decl
     [(lq "version", "1.0.1"); (TAG_XSI_TYPE, "cyboxVocabs:ToolTypeVocab-1.0")] None [].

Lemma still_outdated d l : (let '(x, s') := stix_update o0 d None None None false (memory []) in
    match x with
    | Ok r => existsb (fun T => Nat.eqb (tid T) (r_document r) && types_eqb (types_in (erase T)) l) (heap s')
    | Err _ => false
    end) = true -> forall n, nth_error l n = Some (Some (Some cybox_terms, "ToolTypeVocab-1.0")) ->
  exists r s' new, stix_update o0 d None None None false (memory []) = (Ok r, s') /\ document s' (r_document r) new /\
    ~ forall anc x v ns name, In (anc, x) (visits [] new) -> In v (flat_map stix_vocabularies ["1.0.1"; "1.1"; "1.1.1"; "1.2"]) ->
      In ns (namespaces_of v) -> In name (v_old_types v) -> type_named (x :: anc) <> Some (Some ns, name).
Proof.
  intros H n Hn. destruct (run_document _ (fun new => types_eqb (types_in new) l) H) as (r & s' & new & E & D & B).
  exists r, s', new. split; [exact E|]. split; [exact D|]. intro F. apply types_eqb_eq in B. rewrite <- B in Hn.
  apply nth_error_In, in_map_iff in Hn as ([anc x] & T & V). cbn [fst snd] in T.
  refine (F anc x tool_type _ _ V _ _ _ T); simpl; auto.
Qed.

Theorem C52_prefix_refuted :
  ~ (forall o d from to opts force s t a vs r s' new,
       wf_state s -> denotes s d t -> is_elem t = true -> untyped_root t -> distinct_attributes t ->
       sources_without_markup t -> update_vocabularies (or_default o opts) = true ->
       stix_start from t = Some a ->
       between ["1.0"; "1.0.1"; "1.1"; "1.1.1"; "1.2"; "1.2.1"] a (match given to with Some b => b | None => "1.2.1" end) vs ->
       stix_update o d from to opts force s = (Ok r, s') -> document s' (r_document r) new ->
       forall anc x v ns name, In (anc, x) (visits [] new) -> In v (flat_map stix_vocabularies vs) ->
         In ns (namespaces_of v) -> In name (v_old_types v) -> type_named (x :: anc) <> Some (Some ns, name)).
Proof.
  intro H. destruct (still_outdated (DFile (Some pkg_hidden_term)) [None; None; None; Some (Some cybox_terms, "ToolTypeVocab-1.0")]) with (n := 3)
    as (r & s' & new & E & D & B); [vm_compute; reflexivity|reflexivity|]. apply B.
  refine (H o0 (DFile (Some pkg_hidden_term)) None None None false (memory []) pkg_hidden_term "1.0.1" _ r s' new _ eq_refl eq_refl eq_refl _ _ eq_refl eq_refl _ E D).
  - split; [constructor|intros i []].
  - apply distinct_decided. reflexivity.
  - no_sources.
  - exists ["1.0"], ["1.1"; "1.1.1"; "1.2"], []. split; reflexivity.
Qed.
Print Assumptions C52_prefix_refuted.

Theorem C52_root_refuted :
  ~ (forall o d from to opts force s t a vs r s' new,
       wf_state s -> denotes s d t -> is_elem t = true -> distinct_attributes t ->
       sources_without_markup t -> clear_prefixes t -> update_vocabularies (or_default o opts) = true ->
       stix_start from t = Some a ->
       between ["1.0"; "1.0.1"; "1.1"; "1.1.1"; "1.2"; "1.2.1"] a (match given to with Some b => b | None => "1.2.1" end) vs ->
       stix_update o d from to opts force s = (Ok r, s') -> document s' (r_document r) new ->
       forall anc x v ns name, In (anc, x) (visits [] new) -> In v (flat_map stix_vocabularies vs) ->
         In ns (namespaces_of v) -> In name (v_old_types v) -> type_named (x :: anc) <> Some (Some ns, name)).
Proof.
  intro H. destruct (still_outdated (DFile (Some pkg_typed_root)) [Some (Some cybox_terms, "ToolTypeVocab-1.0")]) with (n := 0)
    as (r & s' & new & E & D & B); [vm_compute; reflexivity|reflexivity|]. apply B.
  refine (H o0 (DFile (Some pkg_typed_root)) None None None false (memory []) pkg_typed_root "1.0.1" _ r s' new _ eq_refl eq_refl _ _ _ eq_refl eq_refl _ E D).
  - split; [constructor|intros i []].
  - apply distinct_decided. reflexivity.
  - no_sources.
  - apply clear_prefixes_decided. vm_compute. reflexivity.
  - exists ["1.0"], ["1.1"; "1.1.1"; "1.2"], []. split; reflexivity.
Qed.
Print Assumptions C52_root_refuted.
