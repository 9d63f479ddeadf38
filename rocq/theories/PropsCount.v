(** * Property theorems: an update multiplies nothing. *)

From Coq Require Import String Ascii List Bool Arith.
From Verif Require Import Str Xml XPath Utils Base Tables Cybox Stix Ramrod Spec SpecDoc SpecPass SpecStep
  SpecTrace Lib Api Worked Samples PropsApi Ids Refs SpecIds SpecCount Tally.
Import ListNotations.
Local Open Scope string_scope.

(** ** C50: an update multiplies no id *)

(** An attribute that steps do not set has a value at most as often as before.
    With force this is said of the ids that the id function does not make. *)
Theorem C50_occurrences : forall o update k w d from to opts force s t r s' new,
  entry o update -> ~ In k set_by_steps -> k <> lq "datatype" ->
  (force = true -> k = lq "id" -> forall n old, new_id_func (or_default o opts) n old <> w) ->
  wf_state s -> denotes s d t -> sources_without_markup t ->
  update d from to opts force s = (Ok r, s') -> document s' (r_document r) new ->
  occurrences k w new <= occurrences k w t.
Proof. exact entry_occurrences. Qed.
Print Assumptions C50_occurrences.

(** Ids that are unique stay unique. *)
Theorem C50_ids_stay_unique : forall o update d from to opts s t r s' new,
  entry o update -> wf_state s -> denotes s d t -> sources_without_markup t ->
  update d from to opts false s = (Ok r, s') -> document s' (r_document r) new ->
  unique_ids t -> unique_ids new.
Proof. exact entry_unique. Qed.
Print Assumptions C50_ids_stay_unique.

(** The condition on sources is needed: the text of a source is pasted into XML
    unescaped, so it can bring an element with an id that is already there.
    [parses] answers what the parser gives for that one text. *)
Definition smuggled : string := "<x id=""ex:i1""/>".
Definition parses : oracle :=
  Oracle (o_datetime o0)
    (fun s => if String.eqb s (sightings_source_xml smuggled)
              then Some (el (qn INDICATOR_NS "Source") [(Some "indicator", INDICATOR_NS)] [] None
                           [el (qn COMMON_NS "Identity") [(Some "stixCommon", COMMON_NS)] [] None
                              [el (qn COMMON_NS "Name") [] [] None
                                 [el (lq "x") [] [(lq "id", "ex:i1")] None []]]])
              else None)
    (o_uuid o0).
Definition pkg_smuggles : tree :=
  package "1.1"
    [indicator_elem [el (qn INDICATOR_NS "Sighting") [] [] None [el (qn INDICATOR_NS "Source") [] [] (Some smuggled) []]]].

Definition once (t : tree) : bool := forallb (fun w => occurrences (lq "id") w t <=? 1)%nat (map snd (attributes_in t)).

Lemma once_unique t : once t = true -> unique_ids t.
Proof.
  intros H w. unfold occurrences. destruct (filter _ (attributes_in t)) as [|[q v] l] eqn:F; [apply Nat.le_0_l|].
  assert (I : In (q, v) (filter (fun a => qn_eqb (fst a) (lq "id") && String.eqb (snd a) w) (attributes_in t))) by (rewrite F; left; reflexivity).
  apply filter_In in I as [I E]. apply andb_true_iff in E as [_ E]. apply String.eqb_eq in E. cbn [snd] in E. subst v.
  unfold once in H. rewrite forallb_forall in H. specialize (H w (in_map snd _ _ I)). unfold occurrences in H. rewrite F in H.
  apply Nat.leb_le. exact H.
Qed.

Theorem C50_markup_refuted :
  ~ (forall o d from to opts s t r s' new,
       wf_state s -> denotes s d t -> ramrod_update o d from to opts false s = (Ok r, s') ->
       document s' (r_document r) new -> unique_ids t -> unique_ids new).
Proof.
  intro H.
  destruct (run_document (ramrod_update parses (DFile (Some pkg_smuggles)) None None None false (memory []))
    (fun new => occurrences (lq "id") "ex:i1" new =? 2)%nat) as (r & s' & new & E & D & B); [vm_compute; reflexivity|].
  apply Nat.eqb_eq in B.
  assert (U : unique_ids new).
  { apply (H parses (DFile (Some pkg_smuggles)) None None None (memory []) pkg_smuggles r s' new); auto;
      [split; [constructor|intros i []]|reflexivity|apply once_unique; vm_compute; reflexivity]. }
  specialize (U "ex:i1"). rewrite B in U. inversion U as [|? X]. inversion X.
Qed.
Print Assumptions C50_markup_refuted.

(** A document with three ids and a reference, updated over three steps. *)
Definition pkg_ids : tree :=
  package "1.1"
    [indicator_elem [el (qn INDICATOR_NS "Sighting") [] [] None [el (qn INDICATOR_NS "Source") [] [] (Some "ACME") []]];
     el (qn STIX_NS "TTP") [] [(lq "id", "ex:t1")] None [];
     el (qn STIX_NS "TTP") [] [(lq "idref", "ex:t1")] None []].

Example C50_case :
  unique_ids pkg_ids /\ sources_without_markup pkg_ids /\
  occurrences (lq "id") "ex:t1" pkg_ids = 1 /\ occurrences (lq "idref") "ex:t1" pkg_ids = 1 /\
  exists r s' new, ramrod_update o0 (DFile (Some pkg_ids)) None None None false (memory []) = (Ok r, s') /\
    document s' (r_document r) new /\ (occurrences (lq "id") "ex:t1" new =? 1)%nat = true.
Proof.
  split; [apply once_unique; vm_compute; reflexivity|]. split.
  - intros x s Ix N E. vm_compute in Ix.
    repeat (destruct Ix as [<-|Ix]; [first [discriminate N|injection E as <-; split; reflexivity]|]). destruct Ix.
  - split; [vm_compute; reflexivity|]. split; [vm_compute; reflexivity|].
    refine (run_document (ramrod_update o0 (DFile (Some pkg_ids)) None None None false (memory []))
      (fun new => occurrences (lq "id") "ex:t1" new =? 1)%nat _). vm_compute. reflexivity.
Qed.
