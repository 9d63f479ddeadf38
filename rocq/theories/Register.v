(** Model of the registration of updater classes.

    Models /repo/ramrod/stix/__init__.py:82-122 and
    /repo/ramrod/cybox/__init__.py:80-120: the two dictionaries of updater
    classes, [_wire_nsmaps] and [register_updater].  The other model files use
    only the outcome of the registrations made by importing the packages; here
    the registrations themselves are modelled, for any classes. *)
From Coq Require Import List String Bool.
From Verif Require Import Str Xml XPath Utils Base Tables Cybox Stix.
Import ListNotations.
Local Open Scope string_scope.
Local Open Scope list_scope.

(** Which of the two packages a class is registered with. *)
Inductive family := FStix | FCybox.

(** stix/common.py:4, cybox/common.py:4 *)
Definition known_versions (f : family) : list string :=
  match f with FStix => STIX_VERSIONS | FCybox => CYBOX_VERSIONS end.

(** An updater class as [register_updater] sees it (base.py:418-470, class
    attributes): the helper classes it lists are given by their qualified
    names, with what each describes; [u_run] stands for the methods of its
    instances.  Simplification: NSMAP dictionaries are values, so a later
    change of one made in place is not followed. *)
Record uclass := UClass {
  u_version : string;
  u_nsmap : nsmap_t;
  u_disallowed : list (string * dfield);
  u_opt_elems : list (string * dfield);
  u_opt_attrs : list (string * dfield);
  u_trans : list (string * tfield);
  u_run : updater
}.

(** The classes and dictionaries registration changes.  [w_nsmaps] holds the
    NSMAP attributes helper classes have of their own; a class without one
    shows that of base.py:137 or base.py:251.  Simplification: no listed
    helper class is a base class of another (so it is in /repo), hence setting
    the attribute of one does not show on another. *)
Record world := World {
  w_stix : dict uclass;
  w_cybox : dict uclass;
  w_nsmaps : dict nsmap_t
}.

(** stix/__init__.py:85, cybox/__init__.py:97: both dictionaries start empty *)
Definition fresh : world := World [] [] [].

Definition registry (f : family) (w : world) : dict uclass :=
  match f with FStix => w_stix w | FCybox => w_cybox w end.

(** stix/__init__.py:87-97, cybox/__init__.py:81-91 [_wire_nsmaps]: the chain
    of the four tuples, in that order, and the assignments. *)
Definition nsmapped (u : uclass) : list string :=
  map fst (u_disallowed u) ++ map fst (u_opt_elems u) ++
  map fst (u_opt_attrs u) ++ map fst (u_trans u).

Definition wire_nsmaps (u : uclass) (w : world) : world :=
  World (w_stix w) (w_cybox w)
    (fold_left (fun d k => dict_set k (u_nsmap u) d) (nsmapped u) (w_nsmaps w)).

(** stix/__init__.py:99-114, cybox/__init__.py:100-115 [register_updater]:
    the result (the class itself, or ValueError) and the world afterwards. *)
Definition register_updater (f : family) (u : uclass) (w : world)
  : res uclass * world :=
  if mem_str (u_version u) (known_versions f) then
    let w' := wire_nsmaps u w in
    (Ok u,
     match f with
     | FStix => World (dict_set (u_version u) u (w_stix w')) (w_cybox w') (w_nsmaps w')
     | FCybox => World (w_stix w') (dict_set (u_version u) u (w_cybox w')) (w_nsmaps w')
     end)
  else (Err ValueError, w).

(** A history of attempts; an attempt that raised leaves what it left. *)
Fixpoint register_all (h : list (family * uclass)) (w : world) : world :=
  match h with
  | [] => w
  | (f, u) :: h' => register_all h' (snd (register_updater f u w))
  end.

(** What [update] looks a version up in (stix/__init__.py:65,
    cybox/__init__.py:65), instances in place of classes. *)
Definition updaters_of (d : dict uclass) : dict updater :=
  map (fun p => (fst p, u_run (snd p))) d.

(** ** The classes of /repo *)

(** stix/stix_1_0.py:110-204 *)
Definition STIX_1_0_class (o : oracle) : uclass :=
  UClass "1.0" stix_1_0_nsmap
    [("stix_1_0.DisallowedCAPEC", DisallowedCAPEC_1_0);
     ("stix_1_0.DisallowedMAEC", DisallowedMAEC);
     ("stix_1_0.DisallowedMalware", DisallowedMalware);
     ("stix_1_0.DisallowedAttackPatterns", DisallowedAttackPatterns_1_0)]
    [] [] [] (STIX_1_0_Updater o).

(** stix/stix_1_0_1.py:259-373 *)
Definition STIX_1_0_1_class (o : oracle) : uclass :=
  UClass "1.0.1" stix_1_0_1_nsmap
    [("stix_1_0_1.DisallowedMAEC", DisallowedMAEC);
     ("stix_1_0_1.DisallowedCAPEC", DisallowedCAPEC_1_0_1);
     ("stix_1_0_1.DisallowedDateTime", DisallowedDateTime);
     ("stix_1_0_1.DisallowedMalware", DisallowedMalware);
     ("stix_1_0_1.DisallowedAttackPatterns", DisallowedAttackPatterns_1_0_1)]
    [("stix_1_0_1.OptionalDataMarkingFields", OptionalDataMarkingFields)]
    []
    [("stix_1_0_1.TransCommonContributors", TransCommonContributors);
     ("stix_1_0_1.TransTTPExploitTargets", TransTTPExploitTargets)]
    (STIX_1_0_1_Updater o).

(** stix/stix_1_1.py:190-287 *)
Definition STIX_1_1_class (o : oracle) : uclass :=
  UClass "1.1" stix_1_1_nsmap []
    [("stix_1_1.OptionalGenericTestMechanismFields", OptionalGenericTestMechanismFields)]
    []
    [("stix_1_1.TransCommonSource", TransCommonSource);
     ("stix_1_1.TransSightingsSource", TransSightingsSource);
     ("stix_1_1.TransIndicatorRelatedCampaign", TransIndicatorRelatedCampaign)]
    (STIX_1_1_Updater o).

(** stix/stix_1_1_1.py:23-99 *)
Definition STIX_1_1_1_class : uclass :=
  UClass "1.1.1" stix_1_1_1_nsmap [] [] [] [] STIX_1_1_1_Updater.

(** stix/stix_1_2.py:6-50 *)
Definition STIX_1_2_class : uclass :=
  UClass "1.2" stix_1_2_nsmap [] [] [] [] STIX_1_2_Updater.

(** cybox/cybox_2_0.py:24-160 *)
Definition Cybox_2_0_class : uclass :=
  UClass "2.0" cybox_2_0_nsmap [] [] [] [] Cybox_2_0_Updater.

(** cybox/cybox_2_0_1.py:226-407 *)
Definition Cybox_2_0_1_class (o : oracle) : uclass :=
  UClass "2.0.1" cybox_2_0_1_nsmap
    [("cybox_2_0_1.DisallowedHTTPSession", DisallowedHTTPSession);
     ("cybox_2_0_1.DisallowedTaskTriggerType", DisallowedTaskTriggerType);
     ("cybox_2_0_1.DisallowedWinExecutableFile", DisallowedWinExecutableFile);
     ("cybox_2_0_1.DisallowedWindowsMailslotHandle", DisallowedWindowsMailslotHandle)]
    [("cybox_2_0_1.OptionalURIFields", OptionalURIFields);
     ("cybox_2_0_1.OptionalDiskPartitionFields", OptionalDiskPartitionFields);
     ("cybox_2_0_1.OptionalDNSCacheFields", OptionalDNSCacheFields);
     ("cybox_2_0_1.OptionalDNSQueryFields", OptionalDNSQueryFields);
     ("cybox_2_0_1.OptionalFileFields", OptionalFileFields);
     ("cybox_2_0_1.OptionalHTTPSessionFields", OptionalHTTPSessionFields);
     ("cybox_2_0_1.OptionalLinkPackageFields", OptionalLinkPackageFields);
     ("cybox_2_0_1.OptionalNetworkPacketFields", OptionalNetworkPacketFields);
     ("cybox_2_0_1.OptionalProductFields", OptionalProductFields);
     ("cybox_2_0_1.OptionalSystemFields", OptionalSystemFields);
     ("cybox_2_0_1.OptionalWinComputerAccountFields", OptionalWinComputerAccountFields);
     ("cybox_2_0_1.OptionalWinFileFields", OptionalWinFileFields);
     ("cybox_2_0_1.OptionalWinNetworkShareFields", OptionalWinNetworkShareFields);
     ("cybox_2_0_1.OptionalWinPrefetchFields", OptionalWinPrefetchFields)]
    []
    [("cybox_2_0_1.TransHTTPSessionDNT", TransHTTPSessionDNT);
     ("cybox_2_0_1.TransHTTPSessionVary", TransHTTPSessionVary);
     ("cybox_2_0_1.TransHTTPSessionRefresh", TransHTTPSessionRefresh);
     ("cybox_2_0_1.TransHTTPSessionXRequestedFor", TransHTTPSessionXRequestedFor);
     ("cybox_2_0_1.TransNetPacketAuthenticationData", TransNetPacketAuthenticationData);
     ("cybox_2_0_1.TransNetPacketEncapsulatingSecurityPayload", TransNetPacketEncapsulatingSecurityPayload);
     ("cybox_2_0_1.TransNetPacketProtoAddrSize", TransNetPacketProtoAddrSize);
     ("cybox_2_0_1.TransWinMailslotHandle", TransWinMailslotHandle)]
    (Cybox_2_0_1_Updater o).

(** cybox/__init__.py:118-120, stix/__init__.py:117-122 and the imports at the
    head of stix/stix_1_0.py:7: the registrations made by importing the
    packages, in the order in which they happen. *)
Definition import_history (o : oracle) : list (family * uclass) :=
  [(FCybox, Cybox_2_0_class); (FCybox, Cybox_2_0_1_class o);
   (FStix, STIX_1_0_class o); (FStix, STIX_1_0_1_class o);
   (FStix, STIX_1_1_class o); (FStix, STIX_1_1_1_class);
   (FStix, STIX_1_2_class)].
