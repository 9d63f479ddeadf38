(** * /repo/ramrod/stix/: base.py, common.py, __init__.py and the five
    updaters.  No proofs in this file. *)

From Coq Require Import String Ascii List Bool Arith.
From Verif Require Import Str Xml XPath Utils Base Tables Cybox.
Import ListNotations.
Local Open Scope string_scope.

(** ** common.py:4 *)
Definition STIX_VERSIONS : list string :=
  ["1.0"; "1.0.1"; "1.1"; "1.1.1"; "1.2"; "1.2.1"].

(** ** base.py *)

(** base.py:19, 121-122 *)
Definition STIX_VOCAB_NS : string := "http://stix.mitre.org/default_vocabularies-1".

(** base.py:21-44 (spacing of the literal kept) *)
Definition STIX_XPATH_VERSIONED : string :=
  "//stix:STIX_Package | " ++
  "//indicator:Indicator[@version] | " ++
  "//stix:Indicator[@version] | " ++
  "//stixCommon:Indicator[@version] | " ++
  "//incident:Incident[@version] | " ++
  "//stix:Incident[@version] | " ++
  "//stixCommon:Incident[@version] | " ++
  "//ttp:TTP[@version] | " ++
  "//stix:TTP[@version] | " ++
  "//stixCommon:TTP[@version] | " ++
  "//coa:Course_Of_Action[@version] | " ++
  "//stix:Course_Of_Action[@version] | " ++
  "//stixCommon:Course_Of_Action[@version] |" ++
  "//ta:Threat_Actor[@version]| " ++
  "//stix:Threat_Actor[@version] | " ++
  "//stixCommon:Threat_Actor[@version] | " ++
  "//campaign:Campaign[@version] | " ++
  "//stix:Campaign[@version] | " ++
  "//stixCommon:Campaign[@version] | " ++
  "//et:Exploit_Target[@version] | " ++
  "//stix:Exploit_Target[@version] | " ++
  "//stixCommon:Exploit_Target[@version]".

(** base.py:46 *)
Definition STIX_XPATH_ROOT : string := "//stix:STIX_Package".

(** base.py:54-74 [_init_cybox_updater] with the selectors set by
    stix_1_0.py:210-221 and stix_1_0_1.py:379-392: an instance of the CybOX
    updater class [cy] whose NSMAP is the STIX one overlaid by its own. *)
Definition embed_cybox (cy : cls) (stix_nsmap : nsmap_t) (selectors : string) : cls :=
  Cls (c_version cy) (dict_update stix_nsmap (c_nsmap cy)) (c_klass_nsmap cy)
    (c_disallowed_ns cy) (c_ns_map cy) (c_schemaloc_map cy) (c_vocabs cy)
    selectors selectors (c_disallowed cy) (c_opt_elems cy) (c_opt_attrs cy) (c_trans cy).

(** base.py:76-82 [get_version] *)
Definition stix_node_version (i : nat) : M (option string) :=
  h <- get_hdr i ;; ret (attr_get (lq "version") (h_attr h)).

(** base.py:84-118 [_check_version]: returns or raises on the first root. *)
Definition stix_check_version (u : cls) (root : nat) : M unit :=
  roots <- get_root_nodes u root ;;
  match roots with
  | [] => ret tt
  | i :: _ =>
      found <- stix_node_version i ;;
      match found with
      | None => raise UnknownVersionError
      | Some f =>
          if negb (truthy found) then raise UnknownVersionError
          else
            eq <- liftr (is_version_equal f (c_version u)) ;;
            if eq : bool then ret tt
            else raise (InvalidVersionError (Some i) (Some (c_version u)) (Some f))
      end
  end.

(** [_update_versions] of the STIX updaters: stix_1_0.py:277-289,
    stix_1_0_1.py:450-462, stix_1_1.py:331-343, stix_1_1_1.py:121-133. *)
Definition stix_update_versions (u : cls) (indicator other : string) (root : nat) : M unit :=
  nodes <- get_versioned_nodes u root ;;
  for_each nodes (fun i =>
    h <- get_hdr i ;;
    if String.eqb (q_local (h_tag h)) "Indicator"
    then modify i (hset_attr (lq "version") indicator)
    else modify i (hset_attr (lq "version") other)).

(** ** stix_1_0.py *)

(** stix_1_0.py:14-21 *)
Definition MotivationVocab_1_0 : vocab :=
  Vocab STIX_VOCAB_NS ["MotivationVocab-1.0"] "MotivationVocab-1.0.1"
    (PStr "http://stix.mitre.org/XMLSchema/default_vocabularies/1.0.1/stix_default_vocabularies.xsd#MotivationVocab-1.0.1")
    (PStr "STIX Default Motivation Vocabulary")
    [("Ideological - Anti-Establisment", "Ideological - Anti-Establishment")].

(** stix_1_0.py:24-32; the reference is a tuple (trailing comma) *)
Definition PlanningAndOperationalSupportVocab : vocab :=
  Vocab STIX_VOCAB_NS ["PlanningAndOperationalSupportVocab-1.0"]
    "PlanningAndOperationalSupportVocab-1.0.1"
    (PTuple "http://stix.mitre.org/XMLSchema/default_vocabularies/1.0.1/stix_default_vocabularies.xsd#PlanningAndOperationalSupportVocab-1.0.1")
    (PStr "STIX Default Planning and Operational Support Vocabulary")
    [("Planning - Open-Source Intelligence (OSINT) Gethering",
      "Planning - Open-Source Intelligence (OSINT) Gathering");
     ("Planning ", "Planning")].

Definition NS_MAEC_4_0 : string := "http://stix.mitre.org/extensions/Malware#MAEC4.0-1".
Definition NS_CAPEC_2_5 : string := "http://stix.mitre.org/extensions/AP#CAPEC2.5-1".
Definition NS_CAPEC_2_6 : string := "http://stix.mitre.org/extensions/AP#CAPEC2.6-1".

(** stix_1_0.py:35-38, stix_1_0_1.py:45-48 (XPATH is the inherited ".") *)
Definition DisallowedMAEC : dfield :=
  DField [("MAEC4.0InstanceType", NS_MAEC_4_0)] "." IAll.
(** stix_1_0.py:41-69, stix_1_0_1.py:51-80 *)
Definition DisallowedMalware : dfield :=
  DField [] ".//ttp:Malware" (IOnlyExt NS_MAEC_4_0).
(** stix_1_0.py:72-75 *)
Definition DisallowedCAPEC_1_0 : dfield :=
  DField [("CAPEC2.5InstanceType", NS_CAPEC_2_5)] "." IAll.
(** stix_1_0.py:78-107 *)
Definition DisallowedAttackPatterns_1_0 : dfield :=
  DField [] ".//ttp:Attack_Patterns" (IOnlyExt NS_CAPEC_2_5).

(** stix_1_0.py:111-204, class attributes *)
Definition STIX_1_0 : cls :=
  Cls "1.0" stix_1_0_nsmap stix_1_0_nsmap stix_1_0_disallowed_ns
    stix_1_0_ns_map stix_1_0_schemaloc_map
    [MotivationVocab_1_0; PlanningAndOperationalSupportVocab]
    STIX_XPATH_VERSIONED STIX_XPATH_ROOT
    [DisallowedCAPEC_1_0; DisallowedMAEC; DisallowedMalware;
     DisallowedAttackPatterns_1_0]
    [] [] [].

(** stix_1_0.py:213-217 *)
Definition CYBOX_SELECTORS_1_0 : string :=
  "//stix:Observables | " ++
  "//incident:Structured_Description | " ++
  "//ttp:Observable_Characterization".

Definition Cybox_in_1_0 : cls := embed_cybox Cybox_2_0 stix_1_0_nsmap CYBOX_SELECTORS_1_0.

(** stix_1_0.py:233-257 [_get_disallowed]; the CybOX 2.0 updater contributes
    nothing (cybox_2_0.py:260-265). *)
Definition stix_1_0_get_disallowed (o : oracle) (root : nat) : M (list nat) :=
  find_disallowed o (c_klass_nsmap STIX_1_0) (c_disallowed STIX_1_0) root.

(** stix_1_0.py:302-336 [check_update] *)
Definition stix_1_0_check (o : oracle) (root : nat) (opts : options) : M unit :=
  (if check_versions opts
   then stix_check_version STIX_1_0 root ;;; cybox_check_version Cybox_in_1_0 root
   else ret tt) ;;;
  disallowed <- stix_1_0_get_disallowed o root ;;
  match disallowed with
  | [] => ret tt
  | _ => raise (UpdateError (Some disallowed) None)
  end.

(** stix_1_0.py:338-348 [_update] with [_update_cybox] (stix_1_0.py:291-300) *)
Definition stix_1_0_do_update (root : nat) (opts : options) : M nat :=
  updated <- cybox_2_0_do_update Cybox_in_1_0 root opts ;;
  updated <- update_namespaces STIX_1_0 updated ;;
  update_schemalocs STIX_1_0 updated ;;;
  stix_update_versions STIX_1_0 "2.0.1" "1.0.1" updated ;;;
  (if update_vocabularies opts then update_vocabs STIX_1_0 updated else ret tt) ;;;
  ret updated.

(** [_get_duplicates] returns None (stix_1_0.py:223-231); [_clean_duplicates]
    is base.py:815-816. *)
Definition STIX_1_0_Updater (o : oracle) : updater :=
  Updater (stix_1_0_check o)
          stix_1_0_do_update
          (fun root => l <- stix_1_0_get_disallowed o root ;; ret (Some l))
          (fun _ => ret None)
          (fun l _ => clean_disallowed l)
          (fun _ _ => raise NotImplementedError).

(** ** stix_1_0_1.py *)

(** stix_1_0_1.py:18-28 *)
Definition MotivationVocab_1_0_1 : vocab :=
  Vocab STIX_VOCAB_NS ["MotivationVocab-1.0"; "MotivationVocab-1.0.1"] "MotivationVocab-1.1"
    (PStr "http://stix.mitre.org/XMLSchema/default_vocabularies/1.1.0/stix_default_vocabularies.xsd#MotivationVocab-1.1")
    (PStr "STIX Default Motivation Vocabulary")
    [("Policital", "Political")].

(** stix_1_0_1.py:31-35 *)
Definition IndicatorTypeVocab : vocab :=
  Vocab STIX_VOCAB_NS ["IndicatorTypeVocab-1.0"] "IndicatorTypeVocab-1.1"
    (PStr "http://stix.mitre.org/XMLSchema/default_vocabularies/1.1.0/stix_default_vocabularies.xsd#IndicatorTypeVocab-1.1")
    (PStr "STIX Default Indicator Type Vocabulary") [].

(** stix_1_0_1.py:38-42 *)
Definition OptionalDataMarkingFields : dfield :=
  optional (".//marking:Controlled_Structure | " ++ ".//marking:Marking_Structure").

(** stix_1_0_1.py:83-86 *)
Definition DisallowedCAPEC_1_0_1 : dfield :=
  DField [("CAPEC2.6InstanceType", NS_CAPEC_2_6)] "." IAll.
(** stix_1_0_1.py:89-117 *)
Definition DisallowedAttackPatterns_1_0_1 : dfield :=
  DField [] ".//ttp:Attack_Patterns" (IOnlyExt NS_CAPEC_2_6).
(** stix_1_0_1.py:120-154 *)
Definition DisallowedDateTime : dfield :=
  DField [] ".//campaign:Activity/stixCommon:Date_Time" IBadDateTime.

(** stix_1_0_1.py:157-190 *)
Definition TransTTPExploitTargets : tfield :=
  TField ".//ttp:Exploit_Targets/stixCommon:Exploit_Target"
    (TExploitTargets (qn "http://stix.mitre.org/TTP-1" "Exploit_Target")).
(** stix_1_0_1.py:193-256 *)
Definition TransCommonContributors : tfield :=
  TField ".//stixCommon:Contributors" (TContributors "http://stix.mitre.org/common-1").

(** stix_1_0_1.py:260-373, class attributes *)
Definition STIX_1_0_1 : cls :=
  Cls "1.0.1" stix_1_0_1_nsmap stix_1_0_1_nsmap stix_1_0_1_disallowed_ns
    stix_1_0_1_ns_map stix_1_0_1_schemaloc_map
    [MotivationVocab_1_0_1; IndicatorTypeVocab]
    STIX_XPATH_VERSIONED STIX_XPATH_ROOT
    [DisallowedMAEC; DisallowedCAPEC_1_0_1; DisallowedDateTime;
     DisallowedMalware; DisallowedAttackPatterns_1_0_1]
    [OptionalDataMarkingFields] []
    [TransCommonContributors; TransTTPExploitTargets].

(** stix_1_0_1.py:382-388 (trailing blank kept) *)
Definition CYBOX_SELECTORS_1_0_1 : string :=
  ".//stix:Observables | " ++
  ".//incident:Structured_Description | " ++
  ".//ttp:Observable_Characterization | " ++
  ".//ttp:Targeted_Technical_Details | " ++
  ".//coa:Parameter_Observables ".

Definition Cybox_in_1_0_1 : cls :=
  embed_cybox Cybox_2_0_1 stix_1_0_1_nsmap CYBOX_SELECTORS_1_0_1.

(** stix_1_0_1.py:413-436 [_get_disallowed] *)
Definition stix_1_0_1_get_disallowed (o : oracle) (root : nat) : M (list nat) :=
  disallowed <- find_disallowed o (c_klass_nsmap STIX_1_0_1) (c_disallowed STIX_1_0_1) root ;;
  disallowed_cybox <- cybox_2_0_1_get_disallowed o Cybox_in_1_0_1 root ;;
  ret (disallowed ++ disallowed_cybox)%list.

(** stix_1_0_1.py:438-448 [_get_duplicates] *)
Definition stix_1_0_1_get_duplicates (root : nat) : M (dict (list nat)) :=
  duplicates <- get_duplicates STIX_1_0_1 root ;;
  cybox <- get_duplicates Cybox_in_1_0_1 root ;;
  ret (dict_update duplicates cybox).

(** stix_1_0_1.py:512-549 [check_update] *)
Definition stix_1_0_1_check (o : oracle) (root : nat) (opts : options) : M unit :=
  (if check_versions opts
   then stix_check_version STIX_1_0_1 root ;;; cybox_check_version Cybox_in_1_0_1 root
   else ret tt) ;;;
  duplicates <- stix_1_0_1_get_duplicates root ;;
  disallowed <- stix_1_0_1_get_disallowed o root ;;
  report disallowed duplicates.

(** stix_1_0_1.py:551-565 [_update] with [_update_cybox]
    (stix_1_0_1.py:464-474) *)
Definition stix_1_0_1_do_update (o : oracle) (root : nat) (opts : options) : M nat :=
  updated <- cybox_2_0_1_do_update o Cybox_in_1_0_1 root opts ;;
  updated <- update_namespaces STIX_1_0_1 updated ;;
  update_schemalocs STIX_1_0_1 updated ;;;
  stix_update_versions STIX_1_0_1 "2.1" "1.1" updated ;;;
  translate_fields o STIX_1_0_1 updated ;;;
  (if update_vocabularies opts then update_vocabs STIX_1_0_1 updated else ret tt) ;;;
  (if remove_optionals opts then update_optionals o STIX_1_0_1 updated else ret tt) ;;;
  ret updated.

Definition STIX_1_0_1_Updater (o : oracle) : updater :=
  Updater (stix_1_0_1_check o)
          (stix_1_0_1_do_update o)
          (fun root => l <- stix_1_0_1_get_disallowed o root ;; ret (Some l))
          (fun root => d <- stix_1_0_1_get_duplicates root ;; ret (Some d))
          (fun l _ => clean_disallowed l)
          (fun d opts => clean_duplicates opts d).

(** ** stix_1_1.py *)

(** stix_1_1.py:17-24 *)
Definition AvailabilityLossVocab : vocab :=
  Vocab STIX_VOCAB_NS ["AvailabilityLossTypeVocab-1.0"] "AvailabilityLossTypeVocab-1.1.1"
    (PStr "http://stix.mitre.org/XMLSchema/default_vocabularies/1.1.1/stix_default_vocabularies.xsd#AvailabilityLossTypeVocab-1.1.1")
    (PStr "STIX Default Availability Loss Type Vocabulary")
    [("Degredation", "Degradation")].

(** stix_1_1.py:27-49 (spacing of the literal kept) *)
Definition COMMON_SOURCE_XPATH : string :=
  let f := "stixCommon:Source" in
  ".//campaign:Confidence/" ++ f ++ " | " ++
  ".//coa:Applicability_Confidence/" ++ f ++ " | " ++
  ".//incident:Confidence/" ++ f ++ " | " ++
  ".//indicator:Confidence/" ++ f ++ " | " ++
  ".//stixCommon:Confidence_Assertion/" ++ f ++ " | " ++
  ".//stixCommon:Confidence/" ++ f ++ " | " ++
  ".//ta:Confidence/" ++ f ++ " | " ++
  ".//campaign:Intended_Effect/" ++ f ++ " | " ++
  ".//coa:Cost/" ++ f ++ " | " ++
  ".//coa:Efficacy/" ++ f ++ "| " ++
  ".//incident:Intended_Effect/" ++ f ++ " | " ++
  ".//indicator:Likely_Impact/" ++ f ++ " | " ++
  ".//indicator:Efficacy/" ++ f ++ " | " ++
  ".//ta:Type/" ++ f ++ " | " ++
  ".//ta:Motivation/" ++ f ++ " | " ++
  ".//ta:Sophistication/" ++ f ++ " | " ++
  ".//ta:Intended_Effect/" ++ f ++ " | " ++
  ".//ta:Planning_And_Operational_Support/" ++ f ++ " | " ++
  ".//ttp:Intended_Effect/" ++ f.

Definition TransCommonSource : tfield := TField COMMON_SOURCE_XPATH TCommonSource.
(** stix_1_1.py:94-138 *)
Definition TransSightingsSource : tfield :=
  TField ".//indicator:Sighting/indicator:Source" TSightingsSource.
(** stix_1_1.py:141-180 *)
Definition TransIndicatorRelatedCampaign : tfield :=
  TField ".//indicator:Related_Campaigns/indicator:Related_Campaign"
    (TRelatedCampaign (qn "http://stix.mitre.org/Indicator-2" "Related_Campaign")
                      (qn "http://stix.mitre.org/common-1" "Campaign")).
(** stix_1_1.py:183-187 *)
Definition OptionalGenericTestMechanismFields : dfield :=
  DField [("GenericTestMechanismType",
           "http://stix.mitre.org/extensions/TestMechanism#Generic-1")]
    "./*" IEmptyElem.

(** stix_1_1.py:191-287, class attributes *)
Definition STIX_1_1 : cls :=
  Cls "1.1" stix_1_1_nsmap stix_1_1_nsmap stix_1_1_disallowed_ns
    stix_1_1_ns_map stix_1_1_schemaloc_map [AvailabilityLossVocab]
    STIX_XPATH_VERSIONED STIX_XPATH_ROOT []
    [OptionalGenericTestMechanismFields] []
    [TransCommonSource; TransSightingsSource; TransIndicatorRelatedCampaign].

(** stix_1_1.py:360-395 [check_update]; stix_1_1.py:311-329: [_get_disallowed]
    and [_get_duplicates] return None. *)
Definition stix_1_1_check (root : nat) (opts : options) : M unit :=
  if check_versions opts then stix_check_version STIX_1_1 root else ret tt.

(** stix_1_1.py:397-409 [_update]; [_update_cybox] (stix_1_1.py:345-357) only
    updates the schema locations with the CybOX 2.0.1 tables. *)
Definition stix_1_1_do_update (o : oracle) (root : nat) (opts : options) : M nat :=
  update_schemalocs Cybox_2_0_1 root ;;;
  update_schemalocs STIX_1_1 root ;;;
  stix_update_versions STIX_1_1 "2.1.1" "1.1.1" root ;;;
  translate_fields o STIX_1_1 root ;;;
  (if update_vocabularies opts then update_vocabs STIX_1_1 root else ret tt) ;;;
  (if remove_optionals opts then update_optionals o STIX_1_1 root else ret tt) ;;;
  ret root.

Definition STIX_1_1_Updater (o : oracle) : updater :=
  Updater stix_1_1_check
          (stix_1_1_do_update o)
          (fun _ => ret None)
          (fun _ => ret None)
          (fun _ _ => raise NotImplementedError)
          (fun _ _ => raise NotImplementedError).

(** ** stix_1_1_1.py *)

(** stix_1_1_1.py:13-20 *)
Definition DiscoveryMethodVocab : vocab :=
  Vocab STIX_VOCAB_NS ["DiscoveryMethodVocab-1.0"] "DiscoveryMethodVocab-2.0"
    (PStr "http://stix.mitre.org/XMLSchema/default_vocabularies/1.2.0/stix_default_vocabularies.xsd#DiscoveryMethodTypeVocab-2.0")
    (PStr "STIX Default Discovery Method Vocabulary")
    [("Fraud Detection", "External - Fraud Detection")].

(** stix_1_1_1.py:24-95, class attributes *)
Definition STIX_1_1_1 : cls :=
  Cls "1.1.1" stix_1_1_1_nsmap stix_1_1_1_nsmap stix_1_1_1_disallowed_ns
    stix_1_1_1_ns_map stix_1_1_1_schemaloc_map [DiscoveryMethodVocab]
    STIX_XPATH_VERSIONED STIX_XPATH_ROOT [] [] [] [].

(** stix_1_1_1.py:135-156 [check_update]; stix_1_1_1.py:101-119: [_get_disallowed]
    and [_get_duplicates] return None. *)
Definition stix_1_1_1_check (root : nat) (opts : options) : M unit :=
  if check_versions opts then stix_check_version STIX_1_1_1 root else ret tt.

(** stix_1_1_1.py:158-165 [_update] *)
Definition stix_1_1_1_do_update (root : nat) (opts : options) : M nat :=
  update_schemalocs STIX_1_1_1 root ;;;
  stix_update_versions STIX_1_1_1 "2.2" "1.2" root ;;;
  (if update_vocabularies opts then update_vocabs STIX_1_1_1 root else ret tt) ;;;
  ret root.

Definition STIX_1_1_1_Updater : updater :=
  Updater stix_1_1_1_check
          stix_1_1_1_do_update
          (fun _ => ret None)
          (fun _ => ret None)
          (fun _ _ => raise NotImplementedError)
          (fun _ _ => raise NotImplementedError).

(** ** stix_1_2.py *)

(** stix_1_2.py:7-50, class attributes *)
Definition STIX_1_2 : cls :=
  Cls "1.2" stix_1_2_nsmap stix_1_2_nsmap stix_1_2_disallowed_ns
    stix_1_2_ns_map stix_1_2_schemaloc_map []
    STIX_XPATH_VERSIONED STIX_XPATH_ROOT [] [] [] [].

(** stix_1_2.py:52-73 [check_update] *)
Definition stix_1_2_check (root : nat) (opts : options) : M unit :=
  if check_versions opts then stix_check_version STIX_1_2 root else ret tt.

(** stix_1_2.py:75-81 [_update] *)
Definition stix_1_2_do_update (root : nat) (opts : options) : M nat :=
  root <- update_namespaces STIX_1_2 root ;;
  update_schemalocs STIX_1_2 root ;;;
  modify root (hset_attr (lq "version") "1.2.1") ;;;
  ret root.

(** The cleaning methods are those of base.py:501-529 and 809-816. *)
Definition STIX_1_2_Updater : updater :=
  Updater stix_1_2_check
          stix_1_2_do_update
          (fun _ => raise NotImplementedError)
          (fun root => d <- get_duplicates STIX_1_2 root ;; ret (Some d))
          (fun _ _ => raise NotImplementedError)
          (fun _ _ => raise NotImplementedError).

(** ** __init__.py *)

(** __init__.py:81-122 [STIX_UPDATERS] *)
Definition STIX_UPDATERS (o : oracle) : dict updater :=
  [("1.0", STIX_1_0_Updater o); ("1.0.1", STIX_1_0_1_Updater o);
   ("1.1", STIX_1_1_Updater o); ("1.1.1", STIX_1_1_1_Updater);
   ("1.2", STIX_1_2_Updater)].

(** __init__.py:15-18 [get_version] *)
Definition stix_get_version (d : docarg) : M (option string) :=
  root <- get_etree_root d false ;; stix_node_version root.

(** __init__.py:21-78 [update] *)
Definition stix_update (o : oracle) : docarg -> option string -> option string ->
  option options -> bool -> M results :=
  versioned_update o STIX_VERSIONS (STIX_UPDATERS o) stix_node_version.
