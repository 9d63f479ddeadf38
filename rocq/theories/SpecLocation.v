(** * Where the schemas of each release are, and what becomes of a
    schemaLocation attribute.

    Written from the layout of the published schemas, not from the tables of
    the code.  No proofs in this file. *)

From Coq Require Import String Ascii List Bool Arith.
From Verif Require Import Str Xml Utils Base SpecDoc SpecPass SpecStep SpecField.
Import ListNotations.
Local Open Scope string_scope.

(** ** CybOX: one directory per schema *)

Definition cybox_xsd (dir version file : string) : string :=
  "http://cybox.mitre.org/XMLSchema/" ++ dir ++ "/" ++ version ++ "/" ++ file ++ ".xsd".

(** The objects by their directory; the namespace has the name without
    underscores.  First those in their second edition, then those in their
    first, then those that are new in CybOX 2.1. *)
Definition second_edition : list string :=
  ["API"; "Account"; "Address"; "Artifact"; "Code"; "DNS_Cache"; "DNS_Query"; "DNS_Record"; "Device";
   "Disk"; "Disk_Partition"; "Email_Message"; "File"; "GUI"; "GUI_Dialogbox"; "GUI_Window";
   "HTTP_Session"; "Library"; "Linux_Package"; "Memory"; "Mutex"; "Network_Connection"; "Network_Flow";
   "Network_Packet"; "Network_Route"; "Network_Route_Entry"; "Network_Socket"; "Network_Subnet"; "Pipe";
   "Port"; "Process"; "Product"; "Semaphore"; "System"; "URI"; "Unix_File"; "Unix_Network_Route_Entry";
   "Unix_Pipe"; "Unix_Process"; "Unix_User_Account"; "Unix_Volume"; "User_Account"; "User_Session";
   "Volume"; "Whois"; "Win_Computer_Account"; "Win_Critical_Section"; "Win_Event"; "Win_Event_Log";
   "Win_Executable_File"; "Win_File"; "Win_Handle"; "Win_Kernel"; "Win_Kernel_Hook"; "Win_Mailslot";
   "Win_Memory_Page_Region"; "Win_Mutex"; "Win_Network_Route_Entry"; "Win_Network_Share"; "Win_Pipe";
   "Win_Prefetch"; "Win_Process"; "Win_Registry_Key"; "Win_Semaphore"; "Win_Service"; "Win_System";
   "Win_System_Restore"; "Win_Task"; "Win_Thread"; "Win_User_Account"; "Win_Volume";
   "Win_Waitable_Timer"; "X509_Certificate"].
Definition first_edition : list string := ["Custom"; "Link"; "PDF_File"; "Socket_Address"].
Definition new_in_2_1 : list string :=
  ["ARP_Cache"; "AS"; "Archive_File"; "Domain_Name"; "Hostname"; "Image_File"; "SMS_Message";
   "URL_History"; "Win_Filemapping"; "Win_Hook"].

Definition object_ns (dir edition : string) : string :=
  "http://cybox.mitre.org/objects#"
  ++ (if String.eqb dir "Network_Packet" then "Packet" else replace "_" "" dir) ++ "Object-" ++ edition.

Definition object_rows (edition version : string) : list string -> dict string :=
  map (fun dir => (object_ns dir edition, cybox_xsd ("objects/" ++ dir) version (dir ++ "_Object"))).

Definition cybox_rows (version extension : string) : dict string :=
  [("http://cybox.mitre.org/cybox-2", cybox_xsd "core" version "cybox_core");
   ("http://cybox.mitre.org/common-2", cybox_xsd "common" version "cybox_common");
   ("http://cybox.mitre.org/default_vocabularies-2",
    cybox_xsd "default_vocabularies" version "cybox_default_vocabularies");
   ("http://cybox.mitre.org/extensions/platform#CPE2.3-1",
    cybox_xsd "extensions/platform/cpe2.3" extension "cpe2.3")].

Definition cybox_2_0_1_locations : dict string :=
  (cybox_rows "2.0.1" "1.0.1" ++ object_rows "2" "2.0.1" ("Win_Driver" :: second_edition)
   ++ object_rows "1" "1.0.1" first_edition)%list.

Definition cybox_2_1_locations : dict string :=
  (cybox_rows "2.1" "1.1" ++ object_rows "2" "2.1" second_edition ++ object_rows "3" "3.0" ["Win_Driver"]
   ++ object_rows "1" "1.1" first_edition ++ object_rows "1" "1.0" new_in_2_1
   ++ [("http://cybox.mitre.org/extensions/Address#CIQAddress3.0-1",
        cybox_xsd "extensions/location/ciq_address_3.0" "1.0" "ciq_address_3.0")])%list.

(** ** STIX *)

Definition stix_xsd (dir version file : string) : string :=
  "http://stix.mitre.org/XMLSchema/" ++ dir ++ "/" ++ version ++ "/" ++ file ++ ".xsd".

Definition mitre (name : string) : string := "http://stix.mitre.org/" ++ name.
Definition data_marking (name : string) : string := "http://data-marking.mitre.org/" ++ name.

(** The language itself; indicators and vocabularies count their versions
    differently. *)
Definition stix_rows (version indicators vocabularies : string) : dict string :=
  [(mitre "stix-1", stix_xsd "core" version "stix_core");
   (mitre "common-1", stix_xsd "common" version "stix_common");
   (mitre "Campaign-1", stix_xsd "campaign" version "campaign");
   (mitre "CourseOfAction-1", stix_xsd "course_of_action" version "course_of_action");
   (mitre "ExploitTarget-1", stix_xsd "exploit_target" version "exploit_target");
   (mitre "Incident-1", stix_xsd "incident" version "incident");
   (mitre "Indicator-2", stix_xsd "indicator" indicators "indicator");
   (mitre "ThreatActor-1", stix_xsd "threat_actor" version "threat_actor");
   (mitre "TTP-1", stix_xsd "ttp" version "ttp");
   (mitre "default_vocabularies-1",
    stix_xsd "default_vocabularies" vocabularies "stix_default_vocabularies");
   (data_marking "Marking-1", stix_xsd "data_marking" version "data_marking")].

(** The extensions of STIX 1.0.1. *)
Definition stix_1_0_1_extensions : dict string :=
  [(mitre "extensions/AP#CAPEC2.6-1", stix_xsd "extensions/attack_pattern/capec_2.6.1" "1.0.1" "capec_2.6.1");
   (mitre "extensions/Malware#MAEC4.0-1", stix_xsd "extensions/malware/maec_4.0.1" "1.0.1" "maec_4.0.1");
   (mitre "extensions/Address#CIQAddress3.0-1",
    stix_xsd "extensions/address/ciq_address_3.0" "1.0.1" "ciq_address_3.0");
   (mitre "extensions/Identity#CIQIdentity3.0-1",
    stix_xsd "extensions/identity/ciq_identity_3.0" "1.0.1" "ciq_identity_3.0");
   (mitre "extensions/StructuredCOA#Generic-1", stix_xsd "extensions/structured_coa/generic" "1.0.1" "generic");
   (mitre "extensions/TestMechanism#Generic-1", stix_xsd "extensions/test_mechanism/generic" "1.0.1" "generic");
   (mitre "extensions/TestMechanism#OVAL5.10-1",
    stix_xsd "extensions/test_mechanism/oval_5.10" "1.0.1" "oval_5.10");
   (mitre "extensions/TestMechanism#OpenIOC2010-1",
    stix_xsd "extensions/test_mechanism/open_ioc_2010" "1.0.1" "open_ioc_2010");
   (mitre "extensions/TestMechanism#Snort-1", stix_xsd "extensions/test_mechanism/snort" "1.0.1" "snort");
   (mitre "extensions/TestMechanism#YARA-1", stix_xsd "extensions/test_mechanism/yara" "1.0.1" "yara");
   (mitre "extensions/Vulnerability#CVRF-1", stix_xsd "extensions/vulnerability/cvrf_1.1" "1.0.1" "cvrf_1.1");
   (data_marking "extensions/MarkingStructure#Simple-1",
    stix_xsd "extensions/marking/simple_marking" "1.0.1" "simple_marking");
   (data_marking "extensions/MarkingStructure#TLP-1", stix_xsd "extensions/marking/tlp" "1.0.1" "tlp")].

(** The extensions from STIX 1.1 on; those introduced with STIX 1.1 count
    their versions from 1.0.  [capec] is the namespace of the CAPEC 2.7
    extension. *)
Definition stix_extensions (capec version young : string) : dict string :=
  [(mitre capec, stix_xsd "extensions/attack_pattern/capec_2.7" young "capec_2.7_attack_pattern");
   (mitre "extensions/Malware#MAEC4.1-1", stix_xsd "extensions/malware/maec_4.1" young "maec_4.1_malware");
   (mitre "extensions/Address#CIQAddress3.0-1",
    stix_xsd "extensions/address/ciq_3.0" version "ciq_3.0_address");
   (mitre "extensions/Identity#CIQIdentity3.0-1",
    stix_xsd "extensions/identity/ciq_3.0" version "ciq_3.0_identity");
   (mitre "extensions/StructuredCOA#Generic-1",
    stix_xsd "extensions/structured_coa/generic" version "generic_structured_coa");
   (mitre "extensions/TestMechanism#Generic-1",
    stix_xsd "extensions/test_mechanism/generic" version "generic_test_mechanism");
   (mitre "extensions/TestMechanism#OVAL5.10-1",
    stix_xsd "extensions/test_mechanism/oval_5.10" version "oval_5.10_test_mechanism");
   (mitre "extensions/TestMechanism#OpenIOC2010-1",
    stix_xsd "extensions/test_mechanism/open_ioc_2010" version "open_ioc_2010_test_mechanism");
   (mitre "extensions/TestMechanism#Snort-1",
    stix_xsd "extensions/test_mechanism/snort" version "snort_test_mechanism");
   (mitre "extensions/TestMechanism#YARA-1",
    stix_xsd "extensions/test_mechanism/yara" version "yara_test_mechanism");
   (mitre "extensions/Vulnerability#CVRF-1",
    stix_xsd "extensions/vulnerability/cvrf_1.1" version "cvrf_1.1_vulnerability");
   (data_marking "extensions/MarkingStructure#Simple-1",
    stix_xsd "extensions/marking/simple" version "simple_marking");
   (data_marking "extensions/MarkingStructure#TLP-1", stix_xsd "extensions/marking/tlp" version "tlp_marking");
   (data_marking "extensions/MarkingStructure#Terms_Of_Use-1",
    stix_xsd "extensions/marking/terms_of_use" young "terms_of_use_marking")].

(** ** By step: the locations of the new release, the namespaces with a
    successor, the namespaces whose entries are dropped.  The step from STIX
    1.0.1 has the CAPEC 2.7 extension under a misspelt namespace (see
    [C22_capec_refuted]). *)

Definition locations (v : string) : dict string :=
  match dict_get v
    [("2.0", cybox_2_0_1_locations);
     ("2.0.1", cybox_2_1_locations);
     ("1.0", (stix_rows "1.0.1" "2.0.1" "1.0.1" ++ stix_1_0_1_extensions ++ cybox_2_0_1_locations)%list);
     ("1.0.1", (stix_rows "1.1" "2.1" "1.1.0" ++ stix_extensions "extensions/AP#CAPECa2.7-1" "1.1" "1.0"
                ++ cybox_2_1_locations)%list);
     ("1.1", (stix_rows "1.1.1" "2.1.1" "1.1.1" ++ stix_extensions "extensions/AP#CAPEC2.7-1" "1.1.1" "1.0.1"
              ++ cybox_2_1_locations)%list);
     ("1.1.1", (stix_rows "1.2" "2.2" "1.2.0" ++ stix_extensions "extensions/AP#CAPEC2.7-1" "1.2" "1.1")%list)]
  with Some l => l | None => [] end.

Definition oasis (name : string) : string := "http://docs.oasis-open.org/cti/ns/stix/" ++ name.

(** The 26 namespaces of STIX 1.2 and their successors. *)
Definition oasis_namespaces : dict string :=
  [(mitre "stix-1", oasis "core-1"); (mitre "common-1", oasis "common-1");
   (mitre "Campaign-1", oasis "campaign-1"); (mitre "CourseOfAction-1", oasis "course-of-action-1");
   (mitre "ExploitTarget-1", oasis "exploit-target-1"); (mitre "Incident-1", oasis "incident-1");
   (mitre "Indicator-2", oasis "indicator-1"); (mitre "Report-1", oasis "report-1");
   (mitre "ThreatActor-1", oasis "threat-actor-1"); (mitre "TTP-1", oasis "ttp-1");
   (mitre "default_vocabularies-1", oasis "vocabularies-1");
   (data_marking "Marking-1", oasis "data-marking-1");
   (mitre "extensions/Address#CIQAddress3.0-1", oasis "extensions/address/ciq-address-3.0-1");
   (mitre "extensions/AP#CAPEC2.7-1", oasis "extensions/attack-pattern/capec-2.7-1");
   (mitre "extensions/Identity#CIQIdentity3.0-1", oasis "extensions/identity/ciq-3.0-identity-1");
   (mitre "extensions/Malware#MAEC4.1-1", oasis "extensions/malware/maec-4.1-1");
   (mitre "extensions/StructuredCOA#Generic-1", oasis "extensions/structured-coa/generic-1");
   (mitre "extensions/TestMechanism#Generic-1", oasis "extensions/test-mechanism/generic-1");
   (mitre "extensions/TestMechanism#OpenIOC2010-1", oasis "extensions/test-mechanism/openioc-2010-1");
   (mitre "extensions/TestMechanism#OVAL5.10-1", oasis "extensions/test-mechanism/oval-5.10-1");
   (mitre "extensions/TestMechanism#Snort-1", oasis "extensions/test-mechanism/snort-1");
   (mitre "extensions/TestMechanism#YARA-1", oasis "extensions/test-mechanism/yara-1");
   (mitre "extensions/Vulnerability#CVRF-1", oasis "extensions/test-mechanism/cvrf-1");
   (data_marking "extensions/MarkingStructure#Simple-1", oasis "extensions/data-marking/simple-1");
   (data_marking "extensions/MarkingStructure#Terms_Of_Use-1", oasis "extensions/data-marking/terms-of-use-1");
   (data_marking "extensions/MarkingStructure#TLP-1", oasis "extensions/data-marking/tlp-1")].

Definition successors (v : string) : dict string :=
  if existsb (String.eqb v) ["2.0.1"; "1.0.1"; "1.1"]
  then [("http://cybox.mitre.org/objects#WinDriverObject-2", "http://cybox.mitre.org/objects#WinDriverObject-3")]
  else if String.eqb v "1.2" then oasis_namespaces
  else [].

Definition dropped (v : string) : list string :=
  if String.eqb v "1.0" then [mitre "extensions/AP#CAPEC2.5-1"; mitre "extensions/Malware#MAEC4.0-1"]
  else if String.eqb v "1.0.1" then [mitre "extensions/AP#CAPEC2.6-1"; mitre "extensions/Malware#MAEC4.0-1"]
  else [].

(** ** The attribute: words, taken two by two *)

(** The characters that separate words (Python's str.split, code points below
    256). *)
Definition separators : list nat := [9; 10; 11; 12; 13; 28; 29; 30; 31; 32; 133; 160].
Definition separator (a : ascii) : bool := existsb (Nat.eqb (nat_of_ascii a)) separators.

Fixpoint every (p : ascii -> bool) (s : string) : bool :=
  match s with EmptyString => true | String a s' => p a && every p s' end.

(** [words s l]: [l] is the list of the longest runs of other characters. *)
Inductive words : string -> list string -> Prop :=
| words_none s : every separator s = true -> words s []
| words_one sp w rest l :
    every separator sp = true -> w <> "" -> every (fun a => negb (separator a)) w = true ->
    match rest with EmptyString => True | String a _ => separator a = true end ->
    words rest l -> words (sp ++ w ++ rest) (w :: l).

(** Namespaces and locations listed by an attribute value; a last word
    without partner does not count. *)
Definition lists (s : string) (l : list (string * string)) : Prop :=
  exists ws, words s ws /\
  (ws = flat_map (fun p => [fst p; snd p]) l \/
   exists w, ws = (flat_map (fun p => [fst p; snd p]) l ++ [w])%list).

(** What an entry becomes. *)
Definition entry (v : string) (p : string * string) : string * string :=
  let ns := lookup (fst p) (fst p) (successors v) in (ns, lookup ns (snd p) (locations v)).

(** The attribute before and after the step from version [v]. *)
Definition relisted (v : string) (old new : option string) : Prop :=
  match old with
  | None => new = None
  | Some s => exists s' l, new = Some s' /\ lists s l /\
      words s' (flat_map (fun p => [fst (entry v p); snd (entry v p)])
                  (filter (fun p => negb (mem_str (fst p) (dropped v))) l))
  end.

(** The attribute's name. *)
Definition schema_location : qname := qn "http://www.w3.org/2001/XMLSchema-instance" "schemaLocation".

(** The root (label 1) gets the new list; other nodes keep what they have. *)
Definition relocated_root (v : string) (h h' : hdr) : Prop :=
  if Nat.eqb (h_id h) 1
  then relisted v (attr_of schema_location h) (attr_of schema_location h')
  else attr_of schema_location h' = attr_of schema_location h.
