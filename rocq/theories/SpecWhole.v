(** * Following nodes through a whole update.  No proofs in this file. *)

From Coq Require Import String List Bool Arith Relation_Operators.
From Verif Require Import Str Xml Utils Base Tables SpecDoc SpecPass SpecStep SpecTrace SpecField.
Import ListNotations.

(** The fields that one of the steps from the versions [vs] replaces by new
    ones or may remove. *)
Definition stix_gone_by (opts : options) (vs : list string) (h : hdr) : bool := existsb (fun v => stix_gone opts v h) vs.
Definition cybox_gone_by (opts : options) (vs : list string) (h : hdr) : bool := existsb (fun v => cybox_gone opts v h) vs.

(** No node is both in [e] and in one of [L]. *)
Definition apart (e : tree) (L : list tree) : Prop :=
  forall z x, In z L -> In x (nodes z) -> tid x <> 0 -> ~ In (tid x) (labels e).

(** [e] and the subtrees [L] are made from [T]: the labelled nodes of [e] are
    nodes of [T] in their order, none twice, and none of them is in [L]; every node of [T] that is not
    inside a field for which [gone] holds is in [e], below the same nodes of
    [T] as before (and possibly below new nodes), or in one of [L]. *)
Definition conserved (gone : hdr -> bool) (T e : tree) (L : list tree) : Prop :=
  sublist (labels e) (labels T) /\ apart e L /\
  forall anc x, In (anc, x) (visits [] T) -> (forall z, In z (x :: anc) -> gone (head z) = false) ->
  (exists anc' x', In (anc', x') (visits [] e) /\ tid x' = tid x /\
     filter (fun i => negb (Nat.eqb i 0)) (map tid anc') = map tid anc) \/
  (exists z x', In z L /\ In x' (nodes z) /\ tid x' = tid x).

(** All attributes are as before, except those in [l], with
    [update_vocabularies] those of vocabulary values, and with force ids. *)
Definition kept_but (l : list qname) (opts : options) (force : bool) (h h' : hdr) : Prop :=
  forall k, ~ In k l -> (update_vocabularies opts = true -> ~ In k vocabulary_attributes) ->
  (force = true -> k <> lq "id") -> attr_of k h' = attr_of k h.

(** ** Names *)

(** The names that a step from the given version changes, to what.  From STIX
    1.0.1 on, what is in Contributors becomes an Identity whatever its name. *)
Definition cybox_2_1_names : list (qname * qname) :=
  [(http_name "X_Requested_For", http_name "X_Forwarded_For");
   (packet_name "Authenication_Data", packet_name "Authentication_Data");
   (packet_name "Excapsulating_Security_Payload", packet_name "Encapsulating_Security_Payload");
   (packet_name "Protol_Addr_Size", packet_name "Proto_Addr_Size");
   (object_name "WinHandle" "Handle", object_name "WinMailslot" "Handle")].

Inductive moved_by (m : dict string) : qname -> qname -> Prop :=
| moved ns ns' l : dict_get ns m = Some ns' -> moved_by m (QN (Some ns) l) (QN (Some ns') l).

Definition cybox_name (v : string) (q q' : qname) : Prop :=
  v = "2.0.1"%string /\ (In (q, q') cybox_2_1_names \/ moved_by driver_ns q q').

Definition stix_name (v : string) (q q' : qname) : Prop :=
  v = "1.0.1"%string /\ (In (q, q') cybox_2_1_names \/ moved_by driver_ns q q' \/ q' = common "Identity") \/
  v = "1.1"%string /\ q = indicator "Related_Campaign" /\ q' = common "Campaign" \/
  v = "1.2"%string /\ moved_by stix_1_2_ns_map q q'.

(** From [q] to [q'] in steps from the versions [vs], one change at most in each. *)
Fixpoint through (one : string -> qname -> qname -> Prop) (vs : list string) (q q' : qname) : Prop :=
  match vs with
  | [] => q' = q
  | v :: vs => exists m, (m = q \/ one v q m) /\ through one vs m q'
  end.

(** Elements stay elements, their names change as [N] says. *)
Definition called (N : qname -> qname -> Prop) (h h' : hdr) : Prop :=
  h_kind h = KElem -> h_kind h' = KElem /\ N (h_tag h) (h_tag h').

(** ** Texts *)

(** What there is to tell of a node besides its attributes and declarations:
    its kind, name, text, and the text behind it. *)
Definition told_of : Type := (kind * qname * option string * option string)%type.
Definition told (h : hdr) : told_of := (h_kind h, h_tag h, h_text h, h_tail h).

(** The changes of a step that renames as [renames] says, moves the
    namespaces [m], writes lists anew if [lists], and replaces [terms]. *)
Inductive change (renames : qname -> qname -> Prop) (m : dict string) (lists : bool) (terms : list (string * string))
  : told_of -> told_of -> Prop :=
| ch_name q q' x y : renames q q' -> change renames m lists terms (KElem, q, x, y) (KElem, q', x, y)
| ch_list q s y : lists = true ->
    change renames m lists terms (KElem, q, Some s, y) (KElem, q, Some (replace "&comma;" "," (replace "," "##comma##" s)), y)
| ch_term q s s' y : In (s, s') terms -> change renames m lists terms (KElem, q, Some s, y) (KElem, q, Some s', y)
| ch_moved k q q' x x' y : moved_by m q q' -> x' = x \/ x' = None ->
    change renames m lists terms (k, q, x, y) (KElem, q', x', None).

Definition terms_of (opts : options) (l : list vocab) : list (string * string) :=
  if update_vocabularies opts then flat_map v_terms l else [].

Definition cybox_change (opts : options) (v : string) (a b : told_of) : Prop :=
  v = "2.0"%string /\ change (fun _ _ => False) [] true (terms_of opts [event_type]) a b \/
  v = "2.0.1"%string /\ change (fun q q' => In (q, q') cybox_2_1_names) driver_ns false
    (terms_of opts [object_relationship; tool_type; action_name]) a b.

Definition stix_change (opts : options) (v : string) (a b : told_of) : Prop :=
  v = "1.0"%string /\ change (fun _ _ => False) [] true (terms_of opts [event_type; motivation_1_0_1; operational_support]) a b \/
  v = "1.0.1"%string /\ change (fun q q' => In (q, q') cybox_2_1_names \/ q' = common "Identity") driver_ns false
    (terms_of opts [object_relationship; tool_type; action_name; motivation_1_1; indicator_type]) a b \/
  v = "1.1"%string /\ change (fun q q' => q = indicator "Related_Campaign" /\ q' = common "Campaign") [] false
    (terms_of opts [availability_loss]) a b \/
  v = "1.1.1"%string /\ change (fun _ _ => False) [] false (terms_of opts [discovery_method]) a b \/
  v = "1.2"%string /\ change (fun _ _ => False) stix_1_2_ns_map false [] a b.

(** From [a] to [b] in steps from the versions [vs], any number of changes in
    each. *)
Fixpoint along (one : string -> told_of -> told_of -> Prop) (vs : list string) (a b : told_of) : Prop :=
  match vs with
  | [] => b = a
  | v :: vs => exists c, clos_refl_trans told_of (one v) a c /\ along one vs c b
  end.

(** ** New nodes *)

(** The elements that the step from CybOX 2.0.1 puts in place of a field. *)
Definition cybox_put (a : told_of) : Prop :=
  exists q x, a = (KElem, q, x, None) /\ In q [http_name "DNT"; http_name "Vary"; http_name "Refresh"].

Definition cybox_new (v : string) (a : told_of) : Prop := v = "2.0.1"%string /\ cybox_put a.

(** A Source whose text has markup is pasted into the template, and what the
    parser makes of it is taken over. *)
Definition from_markup (o : oracle) (a : told_of) : Prop :=
  exists sighting text t x, no_markup text = false /\
    o_fromstring o (if sighting : bool then sightings_source_xml text else common_source_xml text) = Some t /\
    In x (nodes t) /\ a = told (head x).

Definition stix_new (o : oracle) (v : string) (a : told_of) : Prop :=
  v = "1.0.1"%string /\
    (cybox_put a \/
     exists q, a = (KElem, q, None, None) /\ In q [common "Contributing_Sources"; common "Source"; ttp "Exploit_Target"]) \/
  v = "1.1"%string /\
    (a = (KElem, indicator "Related_Campaign", None, None) \/
     (exists q x y, a = (KElem, q, x, y) /\ In q [common "Source"; indicator "Source"; common "Identity"; common "Name"]) \/
     from_markup o a).

(** Made new in one of the steps from the versions [vs], and changed since in
    that step and the following ones. *)
Fixpoint arises (new : string -> told_of -> Prop) (one : string -> told_of -> told_of -> Prop) (vs : list string) (a : told_of) : Prop :=
  match vs with
  | [] => False
  | v :: vs => (exists b, new v b /\ along one (v :: vs) b a) \/ arises new one vs a
  end.

(** The nodes of [e] that do not come from the given document are such. *)
Definition new_nodes (W : told_of -> Prop) (e : tree) : Prop := forall x, In x (nodes e) -> tid x = 0 -> W (told (head x)).
