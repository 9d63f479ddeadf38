(** * Which documents a step accepts, and what it reports otherwise.

    Plain functions of the document [t] being checked.  A report names nodes
    of [t] by their identities.  Nothing here refers to memory, XPath, the
    tables or the updater code.  No proofs in this file. *)

From Coq Require Import String Ascii List Bool Arith.
From Verif Require Import Str Xml Utils Base Tables Spec SpecDoc SpecPass SpecStep.
Import ListNotations.
Local Open Scope string_scope.

(** The nodes of a document satisfying [p], in document order. *)
Definition selected (p : list tree -> tree -> bool) (t : tree) : list ctx :=
  filter (fun c => p (fst c) (snd c)) (visits [] t).

(** One check after the other, up to the first one that fails. *)
Definition in_turn (l : list (tree -> res unit)) (t : tree) : res unit :=
  fold_left (fun r f => rbind r (fun _ => f t)) l (Ok tt).

Definition if_asked (b : bool) (f : tree -> res unit) : tree -> res unit :=
  if b then f else fun _ => Ok tt.

(** ** Versions *)

(** The version [found] on node [i] must be [expected]. *)
Definition version_is (expected found : string) (i : nat) : res unit :=
  rbind (is_version_equal expected found) (fun same =>
  if same then Ok tt else Err (InvalidVersionError (Some i) (Some expected) (Some found))).

(** STIX: the first package of the document. *)
Definition stix_version_check (expected : string) (t : tree) : res unit :=
  match selected (anywhere [stix "STIX_Package"]) t with
  | [] => Ok tt
  | c :: _ =>
      match given (attr_get (lq "version") (h_attr (head (snd c)))) with
      | None => Err UnknownVersionError
      | Some found => version_is expected found (tid (snd c))
      end
  end.

(** CybOX: every element that carries a CybOX version. *)
Definition cybox_version_of (expected : string) (x : tree) : res unit :=
  match cybox_declared x with
  | None => Err UnknownVersionError
  | Some found => version_is expected found (tid x)
  end.

Definition cybox_version_check (expected : string) (marked : list tree -> tree -> bool) (t : tree)
  : res unit :=
  match first_err (fun c => cybox_version_of expected (snd c)) (selected marked t) with
  | Some e => Err e
  | None => Ok tt
  end.

(** ** Content that the next version cannot hold *)

Inductive rule :=
| Elements (p : list tree -> tree -> bool)     (* these elements *)
| Instances (name ns : string)                 (* the nodes of that xsi:type *)
| Parents (p : list tree -> tree -> bool).     (* the parents of these elements *)

Definition offenders (r : rule) (t : tree) : res (list nat) :=
  match r with
  | Elements p => Ok (map (fun c => tid (snd c)) (selected p t))
  | Instances name ns =>
      match first_err type_of (filter typed (visits [] t)) with
      | Some e => Err e
      | None => Ok (map (fun c => tid (snd c)) (filter (of_type name ns) (visits [] t)))
      end
  | Parents p => Ok (flat_map (fun c => match fst c with
                                        | q :: _ => [tid q]
                                        | [] => []
                                        end) (selected p t))
  end.

(** All rules, one after the other. *)
Fixpoint untranslatable (l : list rule) (t : tree) : res (list nat) :=
  match l with
  | [] => Ok []
  | r :: l' => rbind (offenders r t) (fun a => rbind (untranslatable l' t) (fun b => Ok (a ++ b)%list))
  end.

(** The prefix of the xsi:type of child [k] of [t] stands for [ns]. *)
Definition type_in (ns : string) (anc : list tree) (k : tree) : bool :=
  match attr_get TAG_XSI_TYPE (h_attr (head k)) with
  | Some v => ostr_eqb (env_get (Some (hd "" (split_char ":" v))) (env_of anc k)) (Some ns)
  | None => false
  end.

(** An element below the root with only such child elements (or none). *)
Definition only_holds (q : qname) (ns : string) (anc : list tree) (t : tree) : bool :=
  any_inside [q] anc t && forallb (fun k => negb (is_elem k) || type_in ns (t :: anc) k) (kids t).

Definition MAEC : string := "http://stix.mitre.org/extensions/Malware#MAEC4.0-1".
Definition CAPEC_2_5 : string := "http://stix.mitre.org/extensions/AP#CAPEC2.5-1".
Definition CAPEC_2_6 : string := "http://stix.mitre.org/extensions/AP#CAPEC2.6-1".

Definition stix_1_0_rules : list rule :=
  [ Instances "CAPEC2.5InstanceType" CAPEC_2_5;
    Instances "MAEC4.0InstanceType" MAEC;
    Elements (only_holds (ttp "Malware") MAEC);
    Elements (only_holds (ttp "Attack_Patterns") CAPEC_2_5) ].

(** The element is accepted by the XML Schema type xs:dateTime. *)
Definition date_time (o : oracle) (t : tree) : bool :=
  match given (h_text (head t)) with Some _ => o_datetime o (erase t) | None => false end.

Definition cybox_2_0_1_rules : list rule :=
  [ Elements (any_inside [http_name "X_Forwarded_Proto"]);
    Elements (any_inside [object_name "WinTask" "Trigger_Type"]);
    Elements (child_in [object_name "WinExecutableFile" "Section"]
                (object_name "WinExecutableFile" "Type"));
    Elements (fun anc t =>
      any_inside [object_name "WinMailslot" "Handle"] anc t
      && existsb (named (object_name "WinHandle" "Handle")) (kids t)
      && Nat.ltb 1 (length (kids t))) ].

Definition stix_1_0_1_rules (o : oracle) : list rule :=
  ([ Instances "MAEC4.0InstanceType" MAEC;
     Instances "CAPEC2.6InstanceType" CAPEC_2_6;
     Parents (fun anc t => child_in [campaign "Activity"] (common "Date_Time") anc t
                           && negb (date_time o t));
     Elements (only_holds (ttp "Malware") MAEC);
     Elements (only_holds (ttp "Attack_Patterns") CAPEC_2_6) ]
   ++ cybox_2_0_1_rules)%list.

(** ** Ids carried by several elements *)

Definition id_of (t : tree) : option string := attr_get (lq "id") (h_attr (head t)).

(** The elements of the given namespaces, below the root, in document order. *)
Definition counted (nss : list string) (t : tree) : list tree :=
  filter (fun x => is_elem x && match q_ns (h_tag (head x)) with
                                | Some ns => mem_str ns nss
                                | None => false
                                end)
    (map snd (tl (visits [] t))).

(** Those with the id [i]. *)
Definition bearers (nss : list string) (i : string) (t : tree) : list nat :=
  map tid (filter (fun x => ostr_eqb (id_of x) (Some i)) (counted nss t)).

(** The ids in use, each once, in the order of their first use. *)
Fixpoint firsts (seen : list string) (l : list string) : list string :=
  match l with
  | [] => []
  | x :: l' => if mem_str x seen then firsts seen l' else x :: firsts (x :: seen) l'
  end.

Definition ids_in_use (nss : list string) (t : tree) : list string :=
  firsts [] (flat_map (fun x => match id_of x with Some i => [i] | None => [] end) (counted nss t)).

(** The ids carried by several of them. *)
Definition shared (nss : list string) (t : tree) : list string :=
  filter (fun i => Nat.ltb 1 (length (bearers nss i t))) (ids_in_use nss t).

Definition with_bearers (nss : list string) (t : tree) (l : list string) : dict (list nat) :=
  map (fun i => (i, bearers nss i t)) l.

(** The namespaces known for CybOX 2.0.1 (the objects by their last part) and
    for STIX 1.0.1. *)
Definition cybox_namespaces : list string :=
  (map (fun name => ("http://cybox.mitre.org/objects#" ++ name)%string)
     ["APIObject-2"; "AccountObject-2"; "AddressObject-2"; "ArtifactObject-2"; "CodeObject-2";
      "CustomObject-1"; "DNSCacheObject-2"; "DNSQueryObject-2"; "DNSRecordObject-2";
      "DeviceObject-2"; "DiskObject-2"; "DiskPartitionObject-2"; "EmailMessageObject-2";
      "FileObject-2"; "GUIDialogboxObject-2"; "GUIObject-2"; "GUIWindowObject-2";
      "HTTPSessionObject-2"; "LibraryObject-2"; "LinkObject-1"; "LinuxPackageObject-2";
      "MemoryObject-2"; "MutexObject-2"; "NetworkFlowObject-2"; "NetworkConnectionObject-2";
      "NetworkRouteEntryObject-2"; "NetworkRouteObject-2"; "NetworkSocketObject-2";
      "NetworkSubnetObject-2"; "PDFFileObject-1"; "PacketObject-2"; "PipeObject-2";
      "PortObject-2"; "ProcessObject-2"; "ProductObject-2"; "SemaphoreObject-2";
      "SocketAddressObject-1"; "SystemObject-2"; "URIObject-2"; "UnixFileObject-2";
      "UnixNetworkRouteEntryObject-2"; "UnixPipeObject-2"; "UnixProcessObject-2";
      "UnixUserAccountObject-2"; "UnixVolumeObject-2"; "UserAccountObject-2";
      "UserSessionObject-2"; "VolumeObject-2"; "WhoisObject-2"; "WinComputerAccountObject-2";
      "WinCriticalSectionObject-2"; "WinDriverObject-2"; "WinEventLogObject-2";
      "WinEventObject-2"; "WinExecutableFileObject-2"; "WinFileObject-2"; "WinHandleObject-2";
      "WinKernelHookObject-2"; "WinKernelObject-2"; "WinMailslotObject-2";
      "WinMemoryPageRegionObject-2"; "WinMutexObject-2"; "WinNetworkRouteEntryObject-2";
      "WinNetworkShareObject-2"; "WinPipeObject-2"; "WinPrefetchObject-2"; "WinProcessObject-2";
      "WinRegistryKeyObject-2"; "WinSemaphoreObject-2"; "WinServiceObject-2";
      "WinSystemObject-2"; "WinSystemRestoreObject-2"; "WinTaskObject-2"; "WinThreadObject-2";
      "WinUserAccountObject-2"; "WinVolumeObject-2"; "WinWaitableTimerObject-2";
      "X509CertificateObject-2"]
   ++ ["http://cybox.mitre.org/cybox-2"; "http://cybox.mitre.org/common-2";
       "http://cybox.mitre.org/default_vocabularies-2";
       "http://cybox.mitre.org/extensions/platform#CPE2.3-1"])%list.
Definition stix_namespaces : list string :=
  ["http://stix.mitre.org/Campaign-1"; "http://stix.mitre.org/extensions/AP#CAPEC2.6-1";
   "http://stix.mitre.org/extensions/Address#CIQAddress3.0-1";
   "http://stix.mitre.org/CourseOfAction-1"; "http://stix.mitre.org/ExploitTarget-1";
   "http://stix.mitre.org/extensions/StructuredCOA#Generic-1";
   "http://stix.mitre.org/extensions/TestMechanism#Generic-1";
   "http://stix.mitre.org/Incident-1"; "http://stix.mitre.org/Indicator-2";
   "http://stix.mitre.org/extensions/Malware#MAEC4.0-1";
   "http://data-marking.mitre.org/Marking-1";
   "http://stix.mitre.org/extensions/TestMechanism#OpenIOC2010-1";
   "http://stix.mitre.org/extensions/TestMechanism#OVAL5.10-1";
   "http://data-marking.mitre.org/extensions/MarkingStructure#Simple-1";
   "http://stix.mitre.org/extensions/TestMechanism#Snort-1"; "http://stix.mitre.org/stix-1";
   "http://stix.mitre.org/extensions/Identity#stix-ciq3.0-1"; "http://stix.mitre.org/common-1";
   "http://stix.mitre.org/default_vocabularies-1"; "http://stix.mitre.org/ThreatActor-1";
   "http://data-marking.mitre.org/extensions/MarkingStructure#TLP-1";
   "http://stix.mitre.org/TTP-1"; "http://stix.mitre.org/extensions/Vulnerability#CVRF-1";
   "http://stix.mitre.org/extensions/TestMechanism#YARA-1"].

Definition cybox_duplicates (t : tree) : dict (list nat) :=
  with_bearers cybox_namespaces t (shared cybox_namespaces t).

(** The ids shared among STIX elements are listed first. *)
Definition stix_duplicates (t : tree) : dict (list nat) :=
  let both := (stix_namespaces ++ cybox_namespaces)%list in
  let a := shared stix_namespaces t in
  with_bearers both t (a ++ filter (fun i => negb (mem_str i a)) (shared both t))%list.

(** ** The checks by starting version *)

Definition nothing_untranslatable (rules : list rule) (t : tree) : res unit :=
  rbind (untranslatable rules t) (fun l =>
  match l with [] => Ok tt | _ => Err (UpdateError (Some l) None) end).

Definition nothing_to_clean (rules : list rule) (dups : tree -> dict (list nat)) (t : tree) : res unit :=
  rbind (untranslatable rules t) (fun l =>
  match l, dups t with
  | [], [] => Ok tt
  | _, d => Err (UpdateError (Some l) (Some d))
  end).

Definition stix_check (o : oracle) (opts : options) (v : string) : option (tree -> res unit) :=
  dict_get v
    [("1.0", in_turn [ if_asked (check_versions opts) (stix_version_check "1.0");
                       if_asked (check_versions opts)
                         (cybox_version_check "2.0" (anywhere cybox_in_stix_1_0));
                       nothing_untranslatable stix_1_0_rules ]);
     ("1.0.1", in_turn [ if_asked (check_versions opts) (stix_version_check "1.0.1");
                         if_asked (check_versions opts)
                           (cybox_version_check "2.0.1" (any_inside cybox_in_stix_1_0_1));
                         nothing_to_clean (stix_1_0_1_rules o) stix_duplicates ]);
     ("1.1", if_asked (check_versions opts) (stix_version_check "1.1"));
     ("1.1.1", if_asked (check_versions opts) (stix_version_check "1.1.1"));
     ("1.2", if_asked (check_versions opts) (stix_version_check "1.2"))].

Definition cybox_check (opts : options) (v : string) : option (tree -> res unit) :=
  dict_get v
    [("2.0", if_asked (check_versions opts)
               (cybox_version_check "2.0" (anywhere [cybox "Observables"])));
     ("2.0.1", in_turn [ if_asked (check_versions opts)
                           (cybox_version_check "2.0.1" (anywhere [cybox "Observables"]));
                         nothing_to_clean cybox_2_0_1_rules cybox_duplicates ])].
