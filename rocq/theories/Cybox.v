(** * /repo/ramrod/cybox/: base.py, common.py, __init__.py, cybox_2_0.py,
    cybox_2_0_1.py.  No proofs in this file. *)

From Coq Require Import String Ascii List Bool Arith.
From Verif Require Import Str Xml XPath Utils Base Tables.
Import ListNotations.
Local Open Scope string_scope.

(** ** common.py:4-7 *)
Definition CYBOX_VERSIONS : list string := ["2.0"; "2.0.1"; "2.1"].
Definition TAG_CYBOX_MAJOR : qname := lq "cybox_major_version".
Definition TAG_CYBOX_MINOR : qname := lq "cybox_minor_version".
Definition TAG_CYBOX_UPDATE : qname := lq "cybox_update_version".

(** ** base.py *)

(** base.py:16, 93-94 *)
Definition CYBOX_VOCAB_NS : string := "http://cybox.mitre.org/default_vocabularies-2".
(** base.py:17-19 *)
Definition CYBOX_XPATH_NODES : string := "//cybox:Observables".
Definition XPATH_OBJECT_PROPS : string := "//cybox:Object/cybox:Properties".

(** base.py:24-53 [get_version] *)
Definition cybox_hdr_version (h : hdr) : res string :=
  let maj := attr_get TAG_CYBOX_MAJOR (h_attr h) in
  let mnr := attr_get TAG_CYBOX_MINOR (h_attr h) in
  let upd := attr_get TAG_CYBOX_UPDATE (h_attr h) in
  match maj, mnr with
  | Some a, Some b =>
      if truthy maj && truthy mnr then
        match upd with
        | Some c => if truthy upd then Ok (a ++ "." ++ b ++ "." ++ c)
                    else Ok (a ++ "." ++ b)
        | None => Ok (a ++ "." ++ b)
        end
      else Err UnknownVersionError
  | _, _ => Err UnknownVersionError
  end.

Definition cybox_node_version (i : nat) : M string :=
  h <- get_hdr i ;; liftr (cybox_hdr_version h).

(** base.py:55-90 [_check_version]: every root node is checked. *)
Definition cybox_check_version (u : cls) (root : nat) : M unit :=
  roots <- get_root_nodes u root ;;
  for_each roots (fun i =>
    found <- cybox_node_version i ;;
    eq <- liftr (is_version_equal (c_version u) found) ;;
    if eq : bool then ret tt
    else raise (InvalidVersionError (Some i) (Some (c_version u)) (Some found))).

(** ** cybox_2_0.py *)

(** cybox_2_0.py:14-21 *)
Definition EventTypeVocab : vocab :=
  Vocab CYBOX_VOCAB_NS ["EventTypeVocab-1.0"] "EventTypeVocab-1.0.1"
    (PStr "http://cybox.mitre.org/XMLSchema/default_vocabularies/2.0.1/cybox_default_vocabularies.xsd#EventTypeVocab-1.0.1")
    (PStr "CybOX Default Event Types")
    [("Anomoly Events", "Anomaly Events")].

(** cybox_2_0.py:25-211, class attributes *)
Definition Cybox_2_0 : cls :=
  Cls "2.0" cybox_2_0_nsmap cybox_2_0_nsmap cybox_2_0_disallowed_ns
    cybox_2_0_ns_map cybox_2_0_schemaloc_map [EventTypeVocab]
    CYBOX_XPATH_NODES CYBOX_XPATH_NODES [] [] [] [].

(** cybox_2_0.py:217-228 [_update_versions] *)
Definition cybox_2_0_update_versions (u : cls) (root : nat) : M unit :=
  nodes <- get_versioned_nodes u root ;;
  for_each nodes (fun i =>
    modify i (hset_attr TAG_CYBOX_MAJOR "2") ;;;
    modify i (hset_attr TAG_CYBOX_MINOR "0") ;;;
    modify i (hset_attr TAG_CYBOX_UPDATE "1")).

(** cybox_2_0.py:255-258, the text rewriting *)
Definition convert_list (s : string) : string :=
  replace "&comma;" "," (replace "," "##comma##" s).

(** cybox_2_0.py:230-258 [_update_lists].  [findall('.//*')] yields the
    descendant elements; the list of properties is computed first. *)
Definition update_lists (u : cls) (root : nat) : M unit :=
  props <- xpath root XPATH_OBJECT_PROPS (c_nsmap u) ;;
  for_each props (fun p =>
    c <- deref p ;;
    for_each (map (fun d => tid (snd d))
                (filter (fun d => is_elem (snd d)) (tl (visits [] (snd c)))))
      (fun i =>
         h <- get_hdr i ;;
         match h_text h with
         | Some t => if truthy (h_text h)
                     then modify i (set_text (Some (convert_list t)))
                     else ret tt
         | None => ret tt
         end)).

(** cybox_2_0.py:279-301 [check_update] *)
Definition cybox_2_0_check (u : cls) (root : nat) (opts : options) : M unit :=
  if check_versions opts then cybox_check_version u root else ret tt.

(** cybox_2_0.py:303-311 [_update] *)
Definition cybox_2_0_do_update (u : cls) (root : nat) (opts : options) : M nat :=
  update_schemalocs u root ;;;
  cybox_2_0_update_versions u root ;;;
  update_lists u root ;;;
  (if update_vocabularies opts then update_vocabs u root else ret tt) ;;;
  ret root.

(** cybox_2_0.py:260-277: [_get_disallowed] and [_get_duplicates] return None;
    the cleaning methods are those of base.py:812-816. *)
Definition Cybox_2_0_Updater : updater :=
  Updater (cybox_2_0_check Cybox_2_0)
          (cybox_2_0_do_update Cybox_2_0)
          (fun _ => ret None)
          (fun _ => ret None)
          (fun _ _ => raise NotImplementedError)
          (fun _ _ => raise NotImplementedError).

(** ** cybox_2_0_1.py *)

(** cybox_2_0_1.py:16-20; the reference is a tuple (trailing comma) *)
Definition ObjectRelationshipVocab : vocab :=
  Vocab CYBOX_VOCAB_NS ["ObjectRelationshipVocab-1.0"] "ObjectRelationshipVocab-1.1"
    (PTuple "http://cybox.mitre.org/XMLSchema/default_vocabularies/2.1/cybox_default_vocabularies.xsd#ObjectRelationshipVocab-1.1")
    (PStr "CybOX Default Object-Object Relationships") [].

(** cybox_2_0_1.py:23-30 *)
Definition ToolTypeVocab : vocab :=
  Vocab CYBOX_VOCAB_NS ["ToolTypeVocab-1.0"] "ToolTypeVocab-1.1"
    (PStr "http://cybox.mitre.org/XMLSchema/default_vocabularies/2.1/cybox_default_vocabularies.xsd#ToolTypeVocab-1.1")
    (PStr "CybOX Default Tool Types") [("A/V", "AV")].

(** cybox_2_0_1.py:33-37 *)
Definition ActionNameVocab : vocab :=
  Vocab CYBOX_VOCAB_NS ["ActionNameVocab-1.0"] "ActionNameVocab-1.1"
    (PStr "http://cybox.mitre.org/XMLSchema/default_vocabularies/2.1/cybox_default_vocabularies.xsd#DefinedActionNameVocab-1.1")
    (PStr "CybOX Default Action Names") [].

(** cybox_2_0_1.py:40-41 *)
Definition DisallowedTaskTriggerType : dfield :=
  DField [] ".//WinTaskObj:Trigger_Type" IAll.
(** cybox_2_0_1.py:44-70 *)
Definition DisallowedWindowsMailslotHandle : dfield :=
  DField [] ".//WinMailslotObj:Handle[WinHandleObj:Handle]" IManyKids.
(** cybox_2_0_1.py:73-83 *)
Definition DisallowedWinExecutableFile : dfield :=
  DField [] ".//WinExecutableFileObj:Section/WinExecutableFileObj:Type" IAll.
(** cybox_2_0_1.py:86-87 *)
Definition DisallowedHTTPSession : dfield :=
  DField [] ".//HTTPSessionObj:X_Forwarded_Proto" IAll.

Definition optional (x : string) : dfield := DField [] x IEmptyElem.

(** cybox_2_0_1.py:90-91 *)
Definition OptionalDNSCacheFields := optional ".//DNSCacheObj:DNS_Entry".
(** cybox_2_0_1.py:94-95 *)
Definition OptionalDNSQueryFields := optional ".//DNSQueryObj:QName".
(** cybox_2_0_1.py:98-99 *)
Definition OptionalDiskPartitionFields := optional ".//DiskPartitionObj:Partition_ID".
(** cybox_2_0_1.py:102-103 *)
Definition OptionalFileFields := optional ".//FileObj:Depth".
(** cybox_2_0_1.py:106-110 *)
Definition OptionalHTTPSessionFields :=
  optional (".//HTTPSessionObj:Message_Body | " ++ ".//HTTPSessionObj:Domain_Name").
(** cybox_2_0_1.py:113-114 *)
Definition OptionalLinkPackageFields := optional ".//LinuxPackageObj:Name".
(** cybox_2_0_1.py:117-130 *)
Definition PACKET_ELEMENTS : list string :=
  ["Destination_Unreachable"; "Error_Msg"; "Info_Msg"; "Traceroute";
   "Source_Quench"; "Redirect_Message"; "Time_Exceeded"; "Echo_Reply";
   "Echo_Request"; "Timestamp_Request"; "Timestamp_Reply"; "Address_Mask";
   "Outbound_Packet_Forward_Success"; "Outbound_Packet_no_Route";
   "Network_Redirect"; "Host_Redirect"; "ToS_Host_Redirect";
   "ToS_Network_Redirect"; "TTL_Exceeded_In_Transit";
   "Frag_Reassembly_Time_Exceeded"; "Timestamp"; "Receive_Timestamp";
   "Transmit_Timestamp"; "Address_Mask_Request"; "Address_Mask_Reply";
   "IPv6_Addr"; "IP_Addr_Prefix"].
Definition OptionalNetworkPacketFields :=
  optional (join " | " (map (fun x => ".//PacketObj:" ++ x) PACKET_ELEMENTS)).
(** cybox_2_0_1.py:133-137 *)
Definition OptionalProductFields :=
  optional (".//ProductObj:Product | " ++ ".//ProductObj:Vendor").
(** cybox_2_0_1.py:140-141 *)
Definition OptionalSystemFields := optional ".//SystemObj:IP_Address".
(** cybox_2_0_1.py:144-145 *)
Definition OptionalURIFields := optional ".//URIObj:Value".
(** cybox_2_0_1.py:148-153 *)
Definition OptionalWinComputerAccountFields :=
  optional (".//WinComputerAccountObj:Delegation | "
            ++ ".//WinComputerAccountObj:Bitmask | "
            ++ ".//WinComputerAccountObj:Service").
(** cybox_2_0_1.py:156-157 *)
Definition OptionalWinFileFields := optional ".//WinFileObj:Size_In_Bytes".
(** cybox_2_0_1.py:160-161 *)
Definition OptionalWinNetworkShareFields := optional ".//WinNetworkShareObj:Netname".
(** cybox_2_0_1.py:164-168 *)
Definition OptionalWinPrefetchFields :=
  optional (".//WinPrefetchObj:VolumeItem | " ++ ".//WinPrefetchObj:DeviceItem").

(** cybox_2_0_1.py:171-174 *)
Definition TransHTTPSessionDNT : tfield :=
  TField ".//HTTPSessionObj:DNT" (TDefault "./URIObj:Value" None true []).
(** cybox_2_0_1.py:177-180 *)
Definition TransHTTPSessionVary : tfield :=
  TField ".//HTTPSessionObj:Vary" (TDefault "./URIObj:Value" None true []).
(** cybox_2_0_1.py:183-185 *)
Definition TransHTTPSessionXRequestedFor : tfield :=
  TField ".//HTTPSessionObj:X_Requested_For"
    (TRenamed (qn "http://cybox.mitre.org/objects#HTTPSessionObject-2" "X_Forwarded_For")).
(** cybox_2_0_1.py:188-193; XPATH_VALUE is the inherited "." *)
Definition TransHTTPSessionRefresh : tfield :=
  TField ".//HTTPSessionObj:Refresh"
    (TDefault "." None true [(lq "datatype", "string")]).
(** cybox_2_0_1.py:195-197 *)
Definition TransNetPacketProtoAddrSize : tfield :=
  TField ".//PacketObj:Protol_Addr_Size"
    (TRenamed (qn "http://cybox.mitre.org/objects#PacketObject-2" "Proto_Addr_Size")).
(** cybox_2_0_1.py:200-202 *)
Definition TransNetPacketEncapsulatingSecurityPayload : tfield :=
  TField ".//PacketObj:Excapsulating_Security_Payload"
    (TRenamed (qn "http://cybox.mitre.org/objects#PacketObject-2" "Encapsulating_Security_Payload")).
(** cybox_2_0_1.py:205-207 *)
Definition TransNetPacketAuthenticationData : tfield :=
  TField ".//PacketObj:Authenication_Data"
    (TRenamed (qn "http://cybox.mitre.org/objects#PacketObject-2" "Authentication_Data")).
(** cybox_2_0_1.py:209-223 *)
Definition TransWinMailslotHandle : tfield :=
  TField ".//WinMailslotObj:Handle/WinHandleObj:Handle"
    (TMailslot (qn "http://cybox.mitre.org/objects#WinMailslotObject-2" "Handle")).

(** cybox_2_0_1.py:227-513, class attributes *)
Definition Cybox_2_0_1 : cls :=
  Cls "2.0.1" cybox_2_0_1_nsmap cybox_2_0_1_nsmap cybox_2_0_1_disallowed_ns
    cybox_2_0_1_ns_map cybox_2_0_1_schemaloc_map
    [ObjectRelationshipVocab; ToolTypeVocab; ActionNameVocab]
    CYBOX_XPATH_NODES CYBOX_XPATH_NODES
    [DisallowedHTTPSession; DisallowedTaskTriggerType;
     DisallowedWinExecutableFile; DisallowedWindowsMailslotHandle]
    [OptionalURIFields; OptionalDiskPartitionFields; OptionalDNSCacheFields;
     OptionalDNSQueryFields; OptionalFileFields; OptionalHTTPSessionFields;
     OptionalLinkPackageFields; OptionalNetworkPacketFields;
     OptionalProductFields; OptionalSystemFields;
     OptionalWinComputerAccountFields; OptionalWinFileFields;
     OptionalWinNetworkShareFields; OptionalWinPrefetchFields]
    []
    [TransHTTPSessionDNT; TransHTTPSessionVary; TransHTTPSessionRefresh;
     TransHTTPSessionXRequestedFor; TransNetPacketAuthenticationData;
     TransNetPacketEncapsulatingSecurityPayload; TransNetPacketProtoAddrSize;
     TransWinMailslotHandle].

(** cybox_2_0_1.py:519-532 [_update_versions] *)
Definition cybox_2_0_1_update_versions (u : cls) (root : nat) : M unit :=
  nodes <- get_versioned_nodes u root ;;
  for_each nodes (fun i =>
    modify i (hset_attr TAG_CYBOX_MAJOR "2") ;;;
    modify i (hset_attr TAG_CYBOX_MINOR "1") ;;;
    modify i (hdel_attr TAG_CYBOX_UPDATE)).

(** cybox_2_0_1.py:564-580 [_get_disallowed] *)
Definition cybox_2_0_1_get_disallowed (o : oracle) (u : cls) (root : nat) : M (list nat) :=
  find_disallowed o (c_klass_nsmap u) (c_disallowed u) root.

(** [if not (disallowed or duplicates): return; raise UpdateError(...)] *)
Definition report (disallowed : list nat) (duplicates : dict (list nat)) : M unit :=
  match disallowed, duplicates with
  | [], [] => ret tt
  | _, _ => raise (UpdateError (Some disallowed) (Some duplicates))
  end.

(** cybox_2_0_1.py:617-653 [check_update] *)
Definition cybox_2_0_1_check (o : oracle) (u : cls) (root : nat) (opts : options) : M unit :=
  (if check_versions opts then cybox_check_version u root else ret tt) ;;;
  duplicates <- get_duplicates u root ;;
  disallowed <- cybox_2_0_1_get_disallowed o u root ;;
  report disallowed duplicates.

(** cybox_2_0_1.py:655-668 [_update] *)
Definition cybox_2_0_1_do_update (o : oracle) (u : cls) (root : nat) (opts : options) : M nat :=
  updated <- update_namespaces u root ;;
  update_schemalocs u updated ;;;
  cybox_2_0_1_update_versions u updated ;;;
  translate_fields o u updated ;;;
  (if update_vocabularies opts then update_vocabs u updated else ret tt) ;;;
  (if remove_optionals opts then update_optionals o u updated else ret tt) ;;;
  ret updated.

Definition Cybox_2_0_1_Updater (o : oracle) : updater :=
  Updater (cybox_2_0_1_check o Cybox_2_0_1)
          (cybox_2_0_1_do_update o Cybox_2_0_1)
          (fun root => l <- cybox_2_0_1_get_disallowed o Cybox_2_0_1 root ;; ret (Some l))
          (fun root => d <- get_duplicates Cybox_2_0_1 root ;; ret (Some d))
          (fun l _ => clean_disallowed l)
          (fun d opts => clean_duplicates opts d).

(** ** __init__.py *)

(** __init__.py:82-126 [CYBOX_UPDATERS]: the registered updaters by version *)
Definition CYBOX_UPDATERS (o : oracle) : dict updater :=
  [("2.0", Cybox_2_0_Updater); ("2.0.1", Cybox_2_0_1_Updater o)].

(** __init__.py:15-18 [get_version] *)
Definition cybox_get_version (d : docarg) : M string :=
  root <- get_etree_root d false ;; cybox_node_version root.

(** [versions[idx(a):idx(b)]] for members of the table *)
Fixpoint index_of (v : string) (l : list string) : nat :=
  match l with
  | [] => 0
  | x :: l' => if String.eqb x v then 0 else S (index_of v l')
  end.

Definition version_slice (a b : string) (l : list string) : list string :=
  firstn (index_of b l - index_of a l) (skipn (index_of a l) l).

Definition coll_items (c : coll) : list nat :=
  match c with CTuple l | CList l => l | CDict _ => [] end.
Definition coll_dict (c : coll) : dict (list nat) :=
  match c with CDict d => d | _ => [] end.

(** The loop shared by /repo/ramrod/cybox/__init__.py:60-70 and
    /repo/ramrod/stix/__init__.py:63-71: [removed.extend(result.removed)]
    (iterating a dict yields its keys; the only dict that occurs is empty) and
    [remapped.update(result.remapped_ids)] (the only tuple is empty). *)
Fixpoint run_steps (o : oracle) (table : dict updater) (steps : list string) (root : nat)
  (opts : option options) (force : bool) (removed : list nat) (remapped : dict (list nat))
  : M (nat * list nat * dict (list nat)) :=
  match steps with
  | [] => ret (root, removed, remapped)
  | v :: vs =>
      match dict_get v table with
      | None => raise KeyError
      | Some up =>
          result <- updater_update o up (DElem root) opts force ;;
          root' <- as_element (r_document result) ;;
          run_steps o table vs root' opts force
            (removed ++ coll_items (r_removed result))
            (dict_update remapped (coll_dict (r_remapped result)))
      end
  end.

(** __init__.py:21-78 [update]: [from_ or get_version(root)],
    [to_ or versions[-1]], validation, then the steps. *)
Definition versioned_update (o : oracle) (versions : list string) (table : dict updater)
  (get_version : nat -> M (option string))
  (d : docarg) (from to : option string) (opts : option options) (force : bool) : M results :=
  root <- get_etree_root d false ;;
  from' <- (if truthy from then ret from else get_version root) ;;
  let to' := if truthy to then to else Some (last versions "") in
  liftr (validate_versions from' to' versions) ;;;
  match from', to' with
  | Some a, Some b =>
      r <- run_steps o table (version_slice a b versions) root opts force [] [] ;;
      let '(doc, removed, remapped) := r in
      ret (update_results doc (CList removed) (CDict remapped))
  | _, _ => raise UnknownVersionError
  end.

Definition cybox_update (o : oracle) : docarg -> option string -> option string ->
  option options -> bool -> M results :=
  versioned_update o CYBOX_VERSIONS (CYBOX_UPDATERS o)
    (fun root => v <- cybox_node_version root ;; ret (Some v)).
