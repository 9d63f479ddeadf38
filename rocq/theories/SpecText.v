(** * Text that no step may lose or invent.  No proofs in this file. *)

From Coq Require Import String Ascii List Bool Arith.
From Verif Require Import Str Xml Utils Base Cybox Stix Ramrod Spec SpecDoc SpecPass SpecStep SpecTrace SpecIds SpecRead.
Import ListNotations.
Local Open Scope string_scope.

(** The vocabulary terms whose spelling was corrected, with the correction. *)
Definition respelt : list (string * string) :=
  [("Anomoly Events", "Anomaly Events");
   ("A/V", "AV");
   ("Ideological - Anti-Establisment", "Ideological - Anti-Establishment");
   ("Planning - Open-Source Intelligence (OSINT) Gethering", "Planning - Open-Source Intelligence (OSINT) Gathering");
   ("Planning ", "Planning");
   ("Policital", "Political");
   ("Degredation", "Degradation");
   ("Fraud Detection", "External - Fraud Detection")].

(** Text that has no special meaning to any step: not blank, not a term with
    a corrected spelling, without a comma and without an escaped comma. *)
Definition ordinary (w : string) : Prop :=
  blank_text (Some w) = false /\ ~ In w (map fst respelt) /\
  (forall a b, w <> a ++ "," ++ b) /\ (forall a b, w <> a ++ "&comma;" ++ b).

(** An element without child nodes has the text [w], not in a field that a
    step replaces by a new one ([replaced_field], SpecIds). *)
Inductive says (w : string) : tree -> Prop :=
| says_here h :
    h_kind h = KElem -> h_tag h <> common "Contributors" -> h_text h = Some w -> says w (Node h [])
| says_below h ks c :
    h_kind h = KElem -> In c ks -> ~ replaced_field (h_tag h) (h_tag (head c)) ->
    says w c -> says w (Node h ks).

(** Where a text can be after an update. *)
Definition text_accounted_for (w : string) (s : st) (r : results) : Prop :=
  (exists new, document s (r_document r) new /\ says w new) \/
  (exists i x, In i (removed_nodes r) /\ document s i x /\ says w x).

(** The texts that can be made from those of a document: with a corrected
    spelling, with new separators, as a parser reads it when it is the name of
    a source, and "None", the name of a source without text.  Blank text (the
    layout of new elements) does not count. *)
Inductive text_from (t : tree) : string -> Prop :=
| from_there x s : In x (nodes t) -> h_text (head x) = Some s -> text_from t s
| from_respelt s s' : text_from t s -> In (s, s') respelt -> text_from t s'
| from_listed s : text_from t s -> text_from t (replace "&comma;" "," (replace "," "##comma##" s))
| from_parsed s s' : text_from t s -> read_as s s' -> text_from t s'
| from_missing x : In x (nodes t) ->
    named_in [common "Source"; indicator "Source"; common "Contributors"] x = true ->
    text_from t "None"
| from_blank s : blank_text (Some s) = true -> text_from t s.

Definition tail_from (t : tree) (s : string) : Prop :=
  blank_text (Some s) = true \/ exists x, In x (nodes t) /\ h_tail (head x) = Some s.

(** A CDATA section of the document has the text [s]. *)
Definition section_from (t : tree) (s : option string) : Prop :=
  exists x, In x (nodes t) /\ h_cdata (head x) = true /\ h_text (head x) = s.
