(** * What each update step does to a document.

    The release notes as a program: for each version the list of changes, in
    order, with the names spelled out.  Only the schema location tables and
    the STIX 1.2.1 namespace table are shared with the model (they are copied
    from /repo by a tool); everything else is written here.  No proofs in this
    file. *)

From Coq Require Import String Ascii List Bool Arith.
From Verif Require Import Str Xml Utils Base Tables SpecDoc SpecPass.
Import ListNotations.
Local Open Scope string_scope.

(** ** Putting passes together *)

(** One change after the other, up to the first one that fails. *)
Definition in_order (l : list (tree -> res tree)) : tree -> res tree := passes (fun f => f) l.

(** A change that cannot fail; a change that depends on an option. *)
Definition always (f : tree -> tree) (t : tree) : res tree := Ok (f t).
Definition when (b : bool) (f : tree -> res tree) : tree -> res tree := if b then f else Ok.

(** ** Names *)
Definition cybox := qn "http://cybox.mitre.org/cybox-2".
Definition object_name (object : string) : string -> qname :=
  qn ("http://cybox.mitre.org/objects#" ++ object ++ "Object-2").
Definition http_name := object_name "HTTPSession".
Definition packet_name := object_name "Packet".
Definition NS_STIX : string := "http://stix.mitre.org/stix-1".
Definition NS_COMMON : string := "http://stix.mitre.org/common-1".
Definition stix := qn NS_STIX.
Definition common := qn NS_COMMON.
Definition incident := qn "http://stix.mitre.org/Incident-1".
Definition ttp := qn "http://stix.mitre.org/TTP-1".
Definition coa := qn "http://stix.mitre.org/CourseOfAction-1".
Definition actor := qn "http://stix.mitre.org/ThreatActor-1".
Definition campaign := qn "http://stix.mitre.org/Campaign-1".
Definition target := qn "http://stix.mitre.org/ExploitTarget-1".
Definition indicator := qn "http://stix.mitre.org/Indicator-2".
Definition marking := qn "http://data-marking.mitre.org/Marking-1".

(** An element below the root with one of the names. *)
Definition any_inside (qs : list qname) (anc : list tree) (t : tree) : bool :=
  inside anc && named_in qs t.

(** An element, the root included, with one of the names. *)
Definition anywhere (qs : list qname) (_ : list tree) (t : tree) : bool := named_in qs t.

(** An element named [q] whose parent has one of the names and is not the root. *)
Definition child_in (parents : list qname) (q : qname) (anc : list tree) (t : tree) : bool :=
  child_of parents anc && named q t.

(** ** CybOX 2.0 to 2.0.1 *)

Definition cybox_vocab (name : string) : string :=
  "http://cybox.mitre.org/XMLSchema/default_vocabularies/" ++ name.

Definition event_type : vocab :=
  Vocab "http://cybox.mitre.org/default_vocabularies-2" ["EventTypeVocab-1.0"] "EventTypeVocab-1.0.1"
    (PStr (cybox_vocab "2.0.1/cybox_default_vocabularies.xsd#EventTypeVocab-1.0.1"))
    (PStr "CybOX Default Event Types")
    [("Anomoly Events", "Anomaly Events")].

(** [marked] says which elements carry the CybOX version. *)
Definition cybox_2_0_step (marked : list tree -> tree -> bool) (opts : options)
  : tree -> res tree :=
  in_order
    [ always (schemaloc_pass [] [] cybox_2_0_schemaloc_map);
      always (edit_where marked stamp_cybox_2_0_1);
      always (lists_pass (cybox "Object") (cybox "Properties"));
      when (update_vocabularies opts) (vocab_pass event_type) ].

(** ** CybOX 2.0.1 to 2.1 *)

Definition driver_ns : dict string :=
  [("http://cybox.mitre.org/objects#WinDriverObject-2",
    "http://cybox.mitre.org/objects#WinDriverObject-3")].

(** The value of a field moved from its child to the field itself. *)
Definition value_of_child (q : qname) (t : tree) : res tree :=
  match filter (named q) (kids t) with
  | [] => Err IndexError
  | v :: _ => Ok (Node (Hdr 0 KElem (h_tag (head t)) [] (attr_update [] (h_attr (head v)))
                          (h_text (head v)) false None) [])
  end.

(** The field without its children, a datatype becoming string. *)
Definition as_string (t : tree) : res tree :=
  let attrs := attr_update [] (h_attr (head t)) in
  Ok (Node (Hdr 0 KElem (h_tag (head t)) []
              (if has_attr (lq "datatype") (head t)
               then attr_set (lq "datatype") "string" attrs else attrs)
              (h_text (head t)) false None) []).

Definition rename (old new : qname) : tree -> res tree :=
  always (edit_where (any_inside [old]) (set_tag new)).

(** The first reference is a tuple in the code, which breaks its use (see the
    property on vocabulary references). *)
Definition object_relationship : vocab :=
  Vocab "http://cybox.mitre.org/default_vocabularies-2" ["ObjectRelationshipVocab-1.0"]
    "ObjectRelationshipVocab-1.1"
    (PTuple (cybox_vocab "2.1/cybox_default_vocabularies.xsd#ObjectRelationshipVocab-1.1"))
    (PStr "CybOX Default Object-Object Relationships") [].
Definition tool_type : vocab :=
  Vocab "http://cybox.mitre.org/default_vocabularies-2" ["ToolTypeVocab-1.0"] "ToolTypeVocab-1.1"
    (PStr (cybox_vocab "2.1/cybox_default_vocabularies.xsd#ToolTypeVocab-1.1"))
    (PStr "CybOX Default Tool Types") [("A/V", "AV")].
Definition action_name : vocab :=
  Vocab "http://cybox.mitre.org/default_vocabularies-2" ["ActionNameVocab-1.0"] "ActionNameVocab-1.1"
    (PStr (cybox_vocab "2.1/cybox_default_vocabularies.xsd#DefinedActionNameVocab-1.1"))
    (PStr "CybOX Default Action Names") [].

(** Elements that became optional in CybOX 2.1. *)
Definition cybox_2_1_optional : list qname :=
  ([object_name "URI" "Value"; object_name "DiskPartition" "Partition_ID";
    object_name "DNSCache" "DNS_Entry"; object_name "DNSQuery" "QName";
    object_name "File" "Depth"; http_name "Message_Body"; http_name "Domain_Name";
    object_name "LinuxPackage" "Name"]
   ++ map packet_name
        ["Destination_Unreachable"; "Error_Msg"; "Info_Msg"; "Traceroute"; "Source_Quench";
         "Redirect_Message"; "Time_Exceeded"; "Echo_Reply"; "Echo_Request";
         "Timestamp_Request"; "Timestamp_Reply"; "Address_Mask";
         "Outbound_Packet_Forward_Success"; "Outbound_Packet_no_Route"; "Network_Redirect";
         "Host_Redirect"; "ToS_Host_Redirect"; "ToS_Network_Redirect";
         "TTL_Exceeded_In_Transit"; "Frag_Reassembly_Time_Exceeded"; "Timestamp";
         "Receive_Timestamp"; "Transmit_Timestamp"; "Address_Mask_Request";
         "Address_Mask_Reply"; "IPv6_Addr"; "IP_Addr_Prefix"]
   ++ [object_name "Product" "Product"; object_name "Product" "Vendor";
       object_name "System" "IP_Address"; object_name "WinComputerAccount" "Delegation";
       object_name "WinComputerAccount" "Bitmask"; object_name "WinComputerAccount" "Service";
       object_name "WinFile" "Size_In_Bytes"; object_name "WinNetworkShare" "Netname";
       object_name "WinPrefetch" "VolumeItem"; object_name "WinPrefetch" "DeviceItem"])%list.

Definition cybox_2_0_1_step (marked : list tree -> tree -> bool) (opts : options)
  : tree -> res tree :=
  in_order
    [ namespaces_pass [] driver_ns;
      always (schemaloc_pass [] driver_ns cybox_2_0_1_schemaloc_map);
      always (edit_where marked stamp_cybox_2_1);
      rewrite_all (any_inside [http_name "DNT"]) (value_of_child (object_name "URI" "Value"));
      rewrite_all (any_inside [http_name "Vary"]) (value_of_child (object_name "URI" "Value"));
      rewrite_all (any_inside [http_name "Refresh"]) as_string;
      rename (http_name "X_Requested_For") (http_name "X_Forwarded_For");
      rename (packet_name "Authenication_Data") (packet_name "Authentication_Data");
      rename (packet_name "Excapsulating_Security_Payload")
             (packet_name "Encapsulating_Security_Payload");
      rename (packet_name "Protol_Addr_Size") (packet_name "Proto_Addr_Size");
      always (unwrap_pass (object_name "WinMailslot" "Handle") (object_name "WinHandle" "Handle")
                (object_name "WinMailslot" "Handle"));
      when (update_vocabularies opts)
        (passes vocab_pass [object_relationship; tool_type; action_name]);
      when (remove_optionals opts) (always (optional_pass (any_inside cybox_2_1_optional))) ].

(** ** STIX *)

Definition stix_vocab (name : string) : string :=
  "http://stix.mitre.org/XMLSchema/default_vocabularies/" ++ name.
Definition NS_STIX_VOCABS : string := "http://stix.mitre.org/default_vocabularies-1".

(** The elements that carry a STIX version: packages, and the seven kinds of
    component in the namespace of their kind, of packages or of shared types,
    when they have a version attribute. *)
Definition component_names : list qname :=
  flat_map (fun p => [fst p (snd p); stix (snd p); common (snd p)])
    [(indicator, "Indicator"); (incident, "Incident"); (ttp, "TTP");
     (coa, "Course_Of_Action"); (actor, "Threat_Actor"); (campaign, "Campaign");
     (target, "Exploit_Target")].

Definition carries_version (_ : list tree) (t : tree) : bool :=
  named (stix "STIX_Package") t
  || named_in component_names t && has_attr (lq "version") (head t).

(** ** STIX 1.0 to 1.0.1 *)

Definition motivation_1_0_1 : vocab :=
  Vocab NS_STIX_VOCABS ["MotivationVocab-1.0"] "MotivationVocab-1.0.1"
    (PStr (stix_vocab "1.0.1/stix_default_vocabularies.xsd#MotivationVocab-1.0.1"))
    (PStr "STIX Default Motivation Vocabulary")
    [("Ideological - Anti-Establisment", "Ideological - Anti-Establishment")].

(** The second reference is a tuple in the code. *)
Definition operational_support : vocab :=
  Vocab NS_STIX_VOCABS ["PlanningAndOperationalSupportVocab-1.0"]
    "PlanningAndOperationalSupportVocab-1.0.1"
    (PTuple (stix_vocab "1.0.1/stix_default_vocabularies.xsd#PlanningAndOperationalSupportVocab-1.0.1"))
    (PStr "STIX Default Planning and Operational Support Vocabulary")
    [("Planning - Open-Source Intelligence (OSINT) Gethering",
      "Planning - Open-Source Intelligence (OSINT) Gathering");
     ("Planning ", "Planning")].

Definition cybox_in_stix_1_0 : list qname :=
  [stix "Observables"; incident "Structured_Description"; ttp "Observable_Characterization"].

Definition stix_1_0_step (opts : options) : tree -> res tree :=
  in_order
    [ cybox_2_0_step (anywhere cybox_in_stix_1_0) opts;
      always (schemaloc_pass ["http://stix.mitre.org/extensions/AP#CAPEC2.5-1";
                              "http://stix.mitre.org/extensions/Malware#MAEC4.0-1"]
                [] stix_1_0_schemaloc_map);
      always (edit_where carries_version (stamp_stix "2.0.1" "1.0.1"));
      when (update_vocabularies opts) (passes vocab_pass [motivation_1_0_1; operational_support]) ].

(** ** STIX 1.0.1 to 1.1 *)

Definition motivation_1_1 : vocab :=
  Vocab NS_STIX_VOCABS ["MotivationVocab-1.0"; "MotivationVocab-1.0.1"] "MotivationVocab-1.1"
    (PStr (stix_vocab "1.1.0/stix_default_vocabularies.xsd#MotivationVocab-1.1"))
    (PStr "STIX Default Motivation Vocabulary") [("Policital", "Political")].
Definition indicator_type : vocab :=
  Vocab NS_STIX_VOCABS ["IndicatorTypeVocab-1.0"] "IndicatorTypeVocab-1.1"
    (PStr (stix_vocab "1.1.0/stix_default_vocabularies.xsd#IndicatorTypeVocab-1.1"))
    (PStr "STIX Default Indicator Type Vocabulary") [].

Definition cybox_in_stix_1_0_1 : list qname :=
  [stix "Observables"; incident "Structured_Description"; ttp "Observable_Characterization";
   ttp "Targeted_Technical_Details"; coa "Parameter_Observables"].

Definition stix_1_0_1_step (opts : options) : tree -> res tree :=
  in_order
    [ cybox_2_0_1_step (any_inside cybox_in_stix_1_0_1) opts;
      always (schemaloc_pass ["http://stix.mitre.org/extensions/AP#CAPEC2.6-1";
                              "http://stix.mitre.org/extensions/Malware#MAEC4.0-1"]
                [] stix_1_0_1_schemaloc_map);
      always (edit_where carries_version (stamp_stix "2.1" "1.1"));
      rewrite_all (any_inside [common "Contributors"]) (contributing_sources NS_COMMON);
      rewrite_all (child_in [ttp "Exploit_Targets"] (common "Exploit_Target"))
                  (wrap (ttp "Exploit_Target"));
      when (update_vocabularies opts) (passes vocab_pass [motivation_1_1; indicator_type]);
      when (remove_optionals opts)
        (always (optional_pass (any_inside [marking "Controlled_Structure";
                                            marking "Marking_Structure"]))) ].

(** ** STIX 1.1 to 1.1.1 *)

Definition availability_loss : vocab :=
  Vocab NS_STIX_VOCABS ["AvailabilityLossTypeVocab-1.0"] "AvailabilityLossTypeVocab-1.1.1"
    (PStr (stix_vocab "1.1.1/stix_default_vocabularies.xsd#AvailabilityLossTypeVocab-1.1.1"))
    (PStr "STIX Default Availability Loss Type Vocabulary") [("Degredation", "Degradation")].

(** The statements and confidences whose source becomes structured. *)
Definition sourced : list qname :=
  [campaign "Confidence"; coa "Applicability_Confidence"; incident "Confidence";
   indicator "Confidence"; common "Confidence_Assertion"; common "Confidence";
   actor "Confidence"; campaign "Intended_Effect"; coa "Cost"; coa "Efficacy";
   incident "Intended_Effect"; indicator "Likely_Impact"; indicator "Efficacy";
   actor "Type"; actor "Motivation"; actor "Sophistication"; actor "Intended_Effect";
   actor "Planning_And_Operational_Support"; ttp "Intended_Effect"].

Definition stix_1_1_step (o : oracle) (opts : options) : tree -> res tree :=
  in_order
    [ always (schemaloc_pass [] driver_ns cybox_2_0_1_schemaloc_map);
      always (schemaloc_pass [] [] stix_1_1_schemaloc_map);
      always (edit_where carries_version (stamp_stix "2.1.1" "1.1.1"));
      rewrite_all (child_in sourced (common "Source")) (structured_source o false);
      rewrite_all (child_in [indicator "Sighting"] (indicator "Source")) (structured_source o true);
      rewrite_all (child_in [indicator "Related_Campaigns"] (indicator "Related_Campaign"))
                  (wrap_renamed (indicator "Related_Campaign") (common "Campaign"));
      when (update_vocabularies opts) (vocab_pass availability_loss);
      when (remove_optionals opts)
        (optional_in_type "GenericTestMechanismType"
           "http://stix.mitre.org/extensions/TestMechanism#Generic-1") ].

(** ** STIX 1.1.1 to 1.2 *)

Definition discovery_method : vocab :=
  Vocab NS_STIX_VOCABS ["DiscoveryMethodVocab-1.0"] "DiscoveryMethodVocab-2.0"
    (PStr (stix_vocab "1.2.0/stix_default_vocabularies.xsd#DiscoveryMethodTypeVocab-2.0"))
    (PStr "STIX Default Discovery Method Vocabulary")
    [("Fraud Detection", "External - Fraud Detection")].

Definition stix_1_1_1_step (opts : options) : tree -> res tree :=
  in_order
    [ always (schemaloc_pass [] [] stix_1_1_1_schemaloc_map);
      always (edit_where carries_version (stamp_stix "2.2" "1.2"));
      when (update_vocabularies opts) (vocab_pass discovery_method) ].

(** ** STIX 1.2 to 1.2.1 *)

Definition stix_1_2_step : tree -> res tree :=
  in_order
    [ namespaces_pass [] stix_1_2_ns_map;
      always (schemaloc_pass [] stix_1_2_ns_map []);
      always (on_root (hset_attr (lq "version") "1.2.1")) ].

(** ** The steps by starting version *)

Definition stix_step (o : oracle) (opts : options) (v : string) : option (tree -> res tree) :=
  dict_get v
    [("1.0", stix_1_0_step opts); ("1.0.1", stix_1_0_1_step opts);
     ("1.1", stix_1_1_step o opts); ("1.1.1", stix_1_1_1_step opts); ("1.2", stix_1_2_step)].

Definition cybox_step (opts : options) (v : string) : option (tree -> res tree) :=
  dict_get v
    [("2.0", cybox_2_0_step (anywhere [cybox "Observables"]) opts);
     ("2.0.1", cybox_2_0_1_step (anywhere [cybox "Observables"]) opts)].
