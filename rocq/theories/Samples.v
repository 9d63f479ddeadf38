(** * Sample documents used by the examples beside the theorems.
    No proofs in this file. *)

From Coq Require Import String Ascii List Bool Arith.
From Verif Require Import Str Xml XPath Utils Base Cybox Stix Ramrod.
Import ListNotations.
Local Open Scope string_scope.

(** An element without identity (numbered when it is put in a memory). *)
Definition el (q : qname) (decl : list (option string * string))
  (attrs : list (qname * string)) (text : option string) (ks : list tree) : tree :=
  Node (Hdr 0 KElem q decl attrs text false None) ks.

Definition comment (s : string) : tree :=
  Node (Hdr 0 KComment (lq "") [] [] (Some s) false None) [].

(** A memory holding the given documents. *)
Fixpoint load (l : list tree) (n : nat) : list tree * nat :=
  match l with
  | [] => ([], n)
  | t :: l' =>
      let '(t', m) := renum n t in
      let '(r, k) := load l' m in (t' :: r, k)
  end.
Definition memory (l : list tree) : st :=
  let '(hp, n) := load l 0 in St hp n 0.

(** An oracle: date-times are accepted when they start with "2", parsing marked
    up text fails, uuids are all "u". *)
Definition o0 : oracle :=
  Oracle (fun t => match h_text (head t) with Some s => starts_with "2" s | None => false end)
         (fun _ => None) (fun _ => "u").

Definition STIX_NS := "http://stix.mitre.org/stix-1".
Definition COMMON_NS := "http://stix.mitre.org/common-1".
Definition TTP_NS := "http://stix.mitre.org/TTP-1".
Definition INDICATOR_NS := "http://stix.mitre.org/Indicator-2".
Definition CYBOX_NS := "http://cybox.mitre.org/cybox-2".

Definition std_decl : list (option string * string) :=
  [(Some "stix", STIX_NS); (Some "stixCommon", COMMON_NS); (Some "ttp", TTP_NS);
   (Some "indicator", INDICATOR_NS); (Some "cybox", CYBOX_NS); (Some "xsi", NS_XSI);
   (Some "stixVocabs", STIX_VOCAB_NS); (Some "cyboxVocabs", CYBOX_VOCAB_NS);
   (Some "maec", NS_MAEC_4_0)].

(** A STIX package with a given version and content. *)
Definition package (version : string) (ks : list tree) : tree :=
  el (qn STIX_NS "STIX_Package") std_decl
     [(lq "version", version); (lq "id", "ex:pkg");
      (TAG_SCHEMALOCATION, "http://stix.mitre.org/stix-1 http://x/stix.xsd urn:a a.xsd")] None ks.

Definition indicator_elem (ks : list tree) : tree :=
  el (qn STIX_NS "Indicator") [] [(lq "id", "ex:i1"); (lq "version", "2.1")] None ks.

(** An indicator whose sighting names its source. *)
Definition pkg_1_1 : tree :=
  package "1.1"
    [indicator_elem
       [el (qn INDICATOR_NS "Sighting") [] [] None
          [el (qn INDICATOR_NS "Source") [] [] (Some "ACME") []]];
     el (qn STIX_NS "TTP") [] [(lq "id", "ex:t1"); (lq "version", "1.1")] None []].

(** A package in need of cleaning: a MAEC instance and a shared id. *)
Definition pkg_1_0_1_bad : tree :=
  package "1.0.1"
    [el (qn TTP_NS "Malware") [] [] None
       [el (qn TTP_NS "Malware_Instance") [] [(TAG_XSI_TYPE, "maec:MAEC4.0InstanceType")]
          (Some "m") []];
     el (qn STIX_NS "TTP") [] [(lq "id", "ex:t1")] None [];
     el (qn STIX_NS "TTP") [] [(lq "id", "ex:t1")] None []].

(** A CybOX document. *)
Definition observables (attrs : list (qname * string)) (ks : list tree) : tree :=
  el (qn CYBOX_NS "Observables") std_decl attrs None ks.
Definition obs_2_0 : tree :=
  observables [(lq "cybox_major_version", "2"); (lq "cybox_minor_version", "0")]
    [el (qn CYBOX_NS "Object") [] [] None
       [el (qn CYBOX_NS "Properties") [] [] None
          [el (qn "urn:p" "Value") [] [] (Some "a,b&comma;c") []]]].

(** A vocabulary value that the step from STIX 1.1 rewrites, and one of a
    vocabulary it leaves alone; a related campaign that carries a version. *)
Definition loss_elem : tree :=
  el (qn "http://stix.mitre.org/Incident-1" "Availability_Loss_Type") []
     [(TAG_XSI_TYPE, "stixVocabs:AvailabilityLossTypeVocab-1.0"); (lq "vocab_name", "mine"); (lq "note", "n")]
     (Some "Degredation") [].
Definition pkg_1_1_vocab : tree :=
  package "1.1"
    [indicator_elem
       [el (qn INDICATOR_NS "Related_Campaigns") [] [] None
          [el (qn INDICATOR_NS "Related_Campaign") [] [(lq "version", "1.1")] (Some "c") []]];
     el (qn STIX_NS "Incident") [] [(lq "id", "ex:n1"); (lq "version", "1.1")] None
       [loss_elem;
        el (qn "http://stix.mitre.org/Incident-1" "Category") []
           [(TAG_XSI_TYPE, "stixVocabs:IncidentCategoryVocab-1.0")] (Some "Degredation") []]].

(** A 1.0.1 package with contributors, an exploit target and observables. *)
Definition pkg_1_0_1 : tree :=
  package "1.0.1"
    [el (qn STIX_NS "Observables") [] [(lq "cybox_major_version", "2"); (lq "cybox_minor_version", "0");
        (lq "cybox_update_version", "1")] None
       [el (qn CYBOX_NS "Observable") [] [(lq "id", "ex:o1")] None
          [el (qn "http://cybox.mitre.org/objects#WinDriverObject-2" "Driver_Name") [] [(lq "x", "1")] (Some "d") []]];
     el (qn STIX_NS "TTP") [] [(lq "id", "ex:t1"); (lq "version", "1.0.1")] None
       [el (qn TTP_NS "Exploit_Targets") [] [] None [el (qn COMMON_NS "Exploit_Target") [] [(lq "idref", "ex:e")] None []];
        el (qn COMMON_NS "Contributors") [] [] None [el (qn COMMON_NS "Contributor") [] [(lq "id", "ex:c")] (Some "A") []]]].
