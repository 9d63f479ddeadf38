(** * Property theorems: what updates and cleaning do, by document content.

    [numbered (next s) t] is the working copy of the document [t]: the same
    content, its nodes numbered in document order.  Reported nodes are nodes
    of that copy. *)

From Coq Require Import String Ascii List Bool Arith NArith Sorting.
From Verif Require Import Str Xml XPath Utils Base Tables Cybox Stix Ramrod Spec SpecDoc SpecPass SpecStep
  SpecCheck SpecClean SpecUpdate SpecReport Lib Api RefineUpdate Updates Reports UpdateFacts Samples PropsApi SpecChain Refused.
Import ListNotations.
Local Open Scope string_scope.

(** ** C04: the steps between the two versions, in order *)

(** [chain one vs] runs step [one v] for every [v] of [vs], each on the document
    the previous one returned, up to the first that fails. *)
Theorem C04_stix_steps : forall o d from to opts force s t a vs,
  wf_state s -> denotes s d t -> stix_start from t = Some a ->
  between ["1.0"; "1.0.1"; "1.1"; "1.1.1"; "1.2"; "1.2.1"] a
    (match given to with Some b => b | None => "1.2.1" end) vs ->
  match chain (stix_single o (or_default o opts) force) vs (gen s) (erase t) with
  | Ok (e, l, ds) => exists r s' ns, stix_update o d from to opts force s = (Ok r, s') /\
      wf_state s' /\ document s' (r_document r) e /\ Forall2 (document s') (removed_nodes r) l /\
      length ns = length ds /\ remapped_ids r = merge [] ns ds
  | Err x => exists n s', stix_update o d from to opts force s = (Err (shift_exn n x), s')
  end.
Proof. exact stix_update_runs. Qed.
Print Assumptions C04_stix_steps.

Theorem C04_cybox_steps : forall o d from to opts force s t a vs,
  wf_state s -> denotes s d t -> cybox_start from t = Some a ->
  between ["2.0"; "2.0.1"; "2.1"] a (match given to with Some b => b | None => "2.1" end) vs ->
  match chain (cybox_single (or_default o opts) force) vs (gen s) (erase t) with
  | Ok (e, l, ds) => exists r s' ns, cybox_update o d from to opts force s = (Ok r, s') /\
      wf_state s' /\ document s' (r_document r) e /\ Forall2 (document s') (removed_nodes r) l /\
      length ns = length ds /\ remapped_ids r = merge [] ns ds
  | Err x => exists n s', cybox_update o d from to opts force s = (Err (shift_exn n x), s')
  end.
Proof. exact cybox_update_runs. Qed.
Print Assumptions C04_cybox_steps.

(** ... and [stix_single], [cybox_single] are what the updater registered for
    that version does. *)
Theorem C04_stix_step : forall o opts v up d force s t,
  dict_get v (STIX_UPDATERS o) = Some up -> wf_state s -> denotes s d t ->
  match stix_single o (or_default o opts) force v (gen s) (numbered (next s) t) with
  | Ok oc => exists r s', updater_update o up d opts force s = (Ok r, s') /\ wf_state s' /\
      document s' (r_document r) (new_document oc) /\
      Forall2 (document s') (removed_nodes r) (removed_subtrees oc) /\
      remapped_ids r = replaced oc /\ gen s' = gen s + replacements oc
  | Err x => exists s', updater_update o up d opts force s = (Err x, s')
  end.
Proof. exact stix_step_performed. Qed.
Print Assumptions C04_stix_step.

Theorem C04_cybox_step : forall o opts v up d force s t,
  dict_get v (CYBOX_UPDATERS o) = Some up -> wf_state s -> denotes s d t ->
  match cybox_single (or_default o opts) force v (gen s) (numbered (next s) t) with
  | Ok oc => exists r s', updater_update o up d opts force s = (Ok r, s') /\ wf_state s' /\
      document s' (r_document r) (new_document oc) /\
      Forall2 (document s') (removed_nodes r) (removed_subtrees oc) /\
      remapped_ids r = replaced oc /\ gen s' = gen s + replacements oc
  | Err x => exists s', updater_update o up d opts force s = (Err x, s')
  end.
Proof. exact cybox_step_performed. Qed.
Print Assumptions C04_cybox_step.

(** Three steps, the first of which has to clean. *)
Example C04_case :
  stix_start None pkg_1_0_1_bad = Some "1.0.1" /\
  between ["1.0"; "1.0.1"; "1.1"; "1.1.1"; "1.2"; "1.2.1"] "1.0.1" "1.2" ["1.0.1"; "1.1"; "1.1.1"] /\
  match chain (stix_single o0 (default_options o0) true) ["1.0.1"; "1.1"; "1.1.1"] 0 (erase pkg_1_0_1_bad) with
  | Ok (e, l, ds) => stix_start None e = Some "1.2" /\ length l = 2 /\ map (map fst) ds = [["ex:t1"]; []; []]
  | Err _ => False
  end /\
  chain (stix_single o0 (default_options o0) false) ["1.0.1"; "1.1"; "1.1.1"] 0 (erase pkg_1_0_1_bad)
  = Err (UpdateError (Some [2; 1]) (Some [("ex:t1", [3; 4])])).
Proof.
  split; [reflexivity|]. split.
  - exists ["1.0"], ["1.1"; "1.1.1"], ["1.2.1"]. split; reflexivity.
  - vm_compute. repeat split; reflexivity.
Qed.

(** ** C08: version mismatches *)

(** The first package of the document carries another version, or none. *)
Theorem C08_stix_mismatch : forall o v up opts d s t x,
  dict_get v (STIX_UPDATERS o) = Some up -> check_versions (or_default o opts) = true ->
  wf_state s -> denotes s d t ->
  first_of (anywhere [stix "STIX_Package"]) (numbered (next s) t) x ->
  (stix_declared x = None -> fst (updater_update o up d opts false s) = Err UnknownVersionError) /\
  (forall w, stix_declared x = Some w -> other_version w v ->
   fst (updater_update o up d opts false s) = Err (InvalidVersionError (Some (tid x)) (Some v) (Some w))).
Proof. exact stix_mismatch. Qed.
Print Assumptions C08_stix_mismatch.

(** The first element among those whose CybOX version is looked at that carries
    another CybOX version than the one that goes with [v], or none. *)
Theorem C08_stix_embedded_mismatch : forall o v up opts d s t cv p l1 anc x l2,
  dict_get v (STIX_UPDATERS o) = Some up -> check_versions (or_default o opts) = true ->
  wf_state s -> denotes s d t -> embedded v = Some (cv, p) ->
  (forall y, first_of (anywhere [stix "STIX_Package"]) (numbered (next s) t) y ->
     same_version (stix_declared y) v) ->
  selected p (numbered (next s) t) = (l1 ++ (anc, x) :: l2)%list ->
  (forall c, In c l1 -> same_version (cybox_declared (snd c)) cv) ->
  (cybox_declared x = None -> fst (updater_update o up d opts false s) = Err UnknownVersionError) /\
  (forall w, cybox_declared x = Some w -> other_version w cv ->
   fst (updater_update o up d opts false s) = Err (InvalidVersionError (Some (tid x)) (Some cv) (Some w))).
Proof. exact stix_embedded_mismatch. Qed.
Print Assumptions C08_stix_embedded_mismatch.

(** The first Observables element with another version, or none. *)
Theorem C08_cybox_mismatch : forall o v up opts d s t l1 anc x l2,
  dict_get v (CYBOX_UPDATERS o) = Some up -> check_versions (or_default o opts) = true ->
  wf_state s -> denotes s d t ->
  selected (anywhere [cybox "Observables"]) (numbered (next s) t) = (l1 ++ (anc, x) :: l2)%list ->
  (forall c, In c l1 -> same_version (cybox_declared (snd c)) v) ->
  (cybox_declared x = None -> fst (updater_update o up d opts false s) = Err UnknownVersionError) /\
  (forall w, cybox_declared x = Some w -> other_version w v ->
   fst (updater_update o up d opts false s) = Err (InvalidVersionError (Some (tid x)) (Some v) (Some w))).
Proof. exact cybox_mismatch. Qed.
Print Assumptions C08_cybox_mismatch.

(** Numerically equal versions, or no check at all: no version error. *)
Theorem C08_stix_accepted : forall o v up opts d force s t,
  dict_get v (STIX_UPDATERS o) = Some up -> wf_state s -> denotes s d t ->
  check_versions (or_default o opts) = false \/ stix_versions_ok v (numbered (next s) t) ->
  fst (updater_update o up d opts force s) <> Err UnknownVersionError /\
  (forall i a b, fst (updater_update o up d opts force s) <> Err (InvalidVersionError i a b)).
Proof. exact stix_accepted. Qed.
Print Assumptions C08_stix_accepted.

Theorem C08_cybox_accepted : forall o v up opts d force s t,
  dict_get v (CYBOX_UPDATERS o) = Some up -> wf_state s -> denotes s d t ->
  check_versions (or_default o opts) = false \/ cybox_versions_ok v (numbered (next s) t) ->
  fst (updater_update o up d opts force s) <> Err UnknownVersionError /\
  (forall i a b, fst (updater_update o up d opts force s) <> Err (InvalidVersionError i a b)).
Proof. exact cybox_accepted. Qed.
Print Assumptions C08_cybox_accepted.

(** There is no third case: an update that is asked to look at versions and is
    not forced either finds the right ones or raises one of the two errors, or
    ValueError for a version that cannot be read ([about_version]). *)
Theorem C08_stix_decided : forall o v up opts d s t,
  dict_get v (STIX_UPDATERS o) = Some up -> check_versions (or_default o opts) = true ->
  wf_state s -> denotes s d t ->
  stix_versions_ok v (numbered (next s) t) \/
  exists x, fst (updater_update o up d opts false s) = Err x /\ about_version x.
Proof. exact stix_decided. Qed.
Print Assumptions C08_stix_decided.

Theorem C08_cybox_decided : forall o v up opts d s t,
  dict_get v (CYBOX_UPDATERS o) = Some up -> check_versions (or_default o opts) = true ->
  wf_state s -> denotes s d t ->
  cybox_versions_ok v (numbered (next s) t) \/
  exists x, fst (updater_update o up d opts false s) = Err x /\ about_version x.
Proof. exact cybox_decided. Qed.
Print Assumptions C08_cybox_decided.

(** "1.1.0" passes for "1.1", "1.2" does not; an observables list inside a
    package carries a wrong CybOX version. *)

Example C08_case :
  first_of (anywhere [stix "STIX_Package"]) (numbered 0 pkg_1_1) (numbered 0 pkg_1_1) /\
  stix_declared (numbered 0 pkg_1_1) = Some "1.1" /\ other_version "1.1" "1.2" /\
  same_version (Some "1.1.0") "1.1" /\ stix_versions_ok "1.1" (numbered 0 (package "1.1.0" [])) /\
  (exists cv p anc x, embedded "1.0" = Some (cv, p) /\ selected p (numbered 0 pkg_embedded) = [(anc, x)] /\
     cybox_declared x = Some "2.1" /\ other_version "2.1" cv) /\
  cybox_versions_ok "2.0" (numbered 0 obs_2_0).
Proof. exact versions_case. Qed.

(** ** C09: what a non-forced update refuses *)

Theorem C09_stix_1_0 : forall o up opts d s t,
  dict_get "1.0" (STIX_UPDATERS o) = Some up -> wf_state s -> denotes s d t ->
  let T := numbered (next s) t in
  check_versions (or_default o opts) = false \/ stix_versions_ok "1.0" T ->
  match untranslatable stix_1_0_rules T with
  | Err e => fst (updater_update o up d opts false s) = Err e /\ ~ documented e
  | Ok [] => forall e, fst (updater_update o up d opts false s) = Err e -> ~ documented e
  | Ok l => exists s', updater_update o up d opts false s = (Err (UpdateError (Some l) None), s') /\
                       In T (heap s')
  end.
Proof. exact stix_1_0_refuses. Qed.
Print Assumptions C09_stix_1_0.

Theorem C09_stix_1_0_1 : forall o up opts d s t,
  dict_get "1.0.1" (STIX_UPDATERS o) = Some up -> wf_state s -> denotes s d t ->
  let T := numbered (next s) t in
  check_versions (or_default o opts) = false \/ stix_versions_ok "1.0.1" T ->
  match untranslatable (stix_1_0_1_rules o) T, stix_duplicates T with
  | Err e, _ => fst (updater_update o up d opts false s) = Err e /\ ~ documented e
  | Ok [], [] => forall e, fst (updater_update o up d opts false s) = Err e -> ~ documented e
  | Ok l, dups => exists s', updater_update o up d opts false s = (Err (UpdateError (Some l) (Some dups)), s') /\
                             In T (heap s')
  end.
Proof. exact stix_1_0_1_refuses. Qed.
Print Assumptions C09_stix_1_0_1.

Theorem C09_cybox_2_0_1 : forall o up opts d s t,
  dict_get "2.0.1" (CYBOX_UPDATERS o) = Some up -> wf_state s -> denotes s d t ->
  let T := numbered (next s) t in
  check_versions (or_default o opts) = false \/ cybox_versions_ok "2.0.1" T ->
  match untranslatable cybox_2_0_1_rules T, cybox_duplicates T with
  | Err e, _ => fst (updater_update o up d opts false s) = Err e /\ ~ documented e
  | Ok [], [] => forall e, fst (updater_update o up d opts false s) = Err e -> ~ documented e
  | Ok l, dups => exists s', updater_update o up d opts false s = (Err (UpdateError (Some l) (Some dups)), s') /\
                             In T (heap s')
  end.
Proof. exact cybox_2_0_1_refuses. Qed.
Print Assumptions C09_cybox_2_0_1.

(** The lists hold exactly the nodes the rules are about. *)
Theorem C09_exactly : forall rules T l,
  untranslatable rules T = Ok l -> forall i, In i l <-> exists r, In r rules /\ offends r T i.
Proof. exact untranslatable_spec. Qed.
Print Assumptions C09_exactly.

(** The other steps have nothing to refuse. *)
Theorem C09_other_steps : forall o v up opts d force s t,
  (dict_get v (STIX_UPDATERS o) = Some up /\ In v ["1.1"; "1.1.1"; "1.2"]) \/
  (dict_get v (CYBOX_UPDATERS o) = Some up /\ v = "2.0") ->
  wf_state s -> denotes s d t ->
  forall a b, fst (updater_update o up d opts force s) <> Err (UpdateError a b).
Proof. exact others_never_refuse. Qed.
Print Assumptions C09_other_steps.

Example C09_case :
  let T := numbered 0 pkg_1_0_1_bad in
  stix_versions_ok "1.0.1" T /\
  untranslatable (stix_1_0_1_rules o0) T = Ok [2; 1] /\ stix_duplicates T = [("ex:t1", [3; 4])] /\
  stix_versions_ok "1.0" (numbered 0 (package "1.0" [])) /\
  untranslatable stix_1_0_rules (numbered 0 (package "1.0" [])) = Ok [] /\
  cybox_versions_ok "2.0.1" (numbered 0 (observables
    [(lq "cybox_major_version", "2"); (lq "cybox_minor_version", "0"); (lq "cybox_update_version", "1")] [])).
Proof. exact refusals_case. Qed.

(** ** C10: check_update predicts update *)

(** Both name the nodes of their own copy of the document: those at the places
    that [e0] lists. *)
Theorem C10_check_predicts_update : forall o up opts s T,
  registered o up -> wf_state s -> In T (heap s) ->
  match up_check up (tid T) (or_default o opts) s with
  | (Err x, s1) => s1 = s /\ exists e0 T' s',
      updater_update o up (DElem (tid T)) opts false s = (Err (about T' e0), s') /\
      x = about T e0 /\ In T' (heap s') /\ erase T' = erase T
  | (Ok _, s1) => s1 = s /\
      forall e s', updater_update o up (DElem (tid T)) opts false s = (Err e, s') -> ~ documented e
  end.
Proof. exact registered_check_predicts. Qed.
Print Assumptions C10_check_predicts_update.

Example C10_case :
  registered o0 (STIX_1_0_1_Updater o0) /\ registered o0 (STIX_1_1_Updater o0) /\
  (exists e, up_check (STIX_1_0_1_Updater o0) 0 (default_options o0) (memory [pkg_1_0_1_bad])
             = (Err e, memory [pkg_1_0_1_bad])) /\
  up_check (STIX_1_1_Updater o0) 0 (default_options o0) (memory [pkg_1_1]) = (Ok tt, memory [pkg_1_1]).
Proof. exact predicts_case. Qed.

(** ** C12: a forced update is cleaning followed by the step *)

Theorem C12_stix_forced_cleans_first : forall o v up opts f d s t e0 s0,
  dict_get v (STIX_UPDATERS o) = Some up -> stix_step o (or_default o opts) v = Some f ->
  wf_state s -> denotes s d t ->
  updater_update o up d opts false s = (Err e0, s0) -> documented e0 ->
  match clean o up d opts s with
  | (Err x, _) => fst (updater_update o up d opts true s) = Err x
  | (Ok k, s1) => exists e1 l, document s1 (r_document k) e1 /\ Forall2 (document s1) (removed_nodes k) l /\
      match f e1 with
      | Err y => fst (updater_update o up d opts true s) = Err y
      | Ok e2 => exists r s2, updater_update o up d opts true s = (Ok r, s2) /\
          document s2 (r_document r) e2 /\ Forall2 (document s2) (removed_nodes r) l /\
          remapped_ids r = remapped_ids k
      end
  end.
Proof. exact stix_forced. Qed.
Print Assumptions C12_stix_forced_cleans_first.

Theorem C12_cybox_forced_cleans_first : forall o v up opts f d s t e0 s0,
  dict_get v (CYBOX_UPDATERS o) = Some up -> cybox_step (or_default o opts) v = Some f ->
  wf_state s -> denotes s d t ->
  updater_update o up d opts false s = (Err e0, s0) -> documented e0 ->
  match clean o up d opts s with
  | (Err x, _) => fst (updater_update o up d opts true s) = Err x
  | (Ok k, s1) => exists e1 l, document s1 (r_document k) e1 /\ Forall2 (document s1) (removed_nodes k) l /\
      match f e1 with
      | Err y => fst (updater_update o up d opts true s) = Err y
      | Ok e2 => exists r s2, updater_update o up d opts true s = (Ok r, s2) /\
          document s2 (r_document r) e2 /\ Forall2 (document s2) (removed_nodes r) l /\
          remapped_ids r = remapped_ids k
      end
  end.
Proof. exact cybox_forced. Qed.
Print Assumptions C12_cybox_forced_cleans_first.

Example C12_forced_case :
  (exists e s', updater_update o0 (STIX_1_0_1_Updater o0) (DFile (Some pkg_1_0_1_bad)) None false (memory [])
                = (Err e, s') /\ documented e) /\
  (exists k s1, clean o0 (STIX_1_0_1_Updater o0) (DFile (Some pkg_1_0_1_bad)) None (memory []) = (Ok k, s1) /\
                length (removed_nodes k) = 2) /\
  (exists r s2, updater_update o0 (STIX_1_0_1_Updater o0) (DFile (Some pkg_1_0_1_bad)) None true (memory [])
                = (Ok r, s2)).
Proof. exact forced_case. Qed.

(** ** C14: cleaning removes what it reports and nothing else *)

(** [fst dt] are the untranslatable nodes, [snd dt] the shared ids. *)
Theorem C14_stix_clean : forall o v up opts D d s t,
  dict_get v (STIX_UPDATERS o) = Some up -> stix_dirt o v = Some D -> wf_state s -> denotes s d t ->
  let T := numbered (next s) t in
  let new_id := new_id_func (or_default o opts) in
  match D T with
  | Ok dt => exists r s', clean o up d opts s = (Ok r, s') /\ wf_state s' /\
      document s' (r_document r) (erase (cleaned new_id (gen s) dt T)) /\
      Forall2 (document s') (removed_nodes r) (map erase (removed_content new_id (gen s) dt T)) /\
      remapped_ids r = snd dt /\ gen s' = gen s + length (renumbered dt)
  | Err x => exists s', clean o up d opts s = (Err x, s')
  end.
Proof. exact stix_clean_does. Qed.
Print Assumptions C14_stix_clean.

Theorem C14_cybox_clean : forall o v up opts D d s t,
  dict_get v (CYBOX_UPDATERS o) = Some up -> cybox_dirt v = Some D -> wf_state s -> denotes s d t ->
  let T := numbered (next s) t in
  let new_id := new_id_func (or_default o opts) in
  match D T with
  | Ok dt => exists r s', clean o up d opts s = (Ok r, s') /\ wf_state s' /\
      document s' (r_document r) (erase (cleaned new_id (gen s) dt T)) /\
      Forall2 (document s') (removed_nodes r) (map erase (removed_content new_id (gen s) dt T)) /\
      remapped_ids r = snd dt /\ gen s' = gen s + length (renumbered dt)
  | Err x => exists s', clean o up d opts s = (Err x, s')
  end.
Proof. exact cybox_clean_does. Qed.
Print Assumptions C14_cybox_clean.

(** Taking nodes out leaves exactly the other nodes, with their ancestors and
    headers as they were, in the same order. *)
Theorem C14_survivors : forall l T,
  map path (visits [] (without l T)) = map path (survivors l T).
Proof. exact without_survivors. Qed.
Print Assumptions C14_survivors.

Example C14_case :
  let T := numbered 0 pkg_1_0_1_bad in
  (exists D dt, stix_dirt o0 "1.0.1" = Some D /\ D T = Ok dt /\ fst dt = [2; 1] /\
     snd dt = [("ex:t1", [3; 4])] /\
     map (fun c => tid (snd c)) (survivors [2; 1] T) = [0; 3; 4] /\
     map (fun x => tid x) (removed_content (create_new_id (o_uuid o0)) 0 dt T) = [2; 1] /\
     map (fun x => length (kids x)) (removed_content (create_new_id (o_uuid o0)) 0 dt T) = [0; 0]).
Proof. exact clean_case. Qed.

(** ** C15: new ids *)

(** Node by node: a node gets a new id exactly when it is listed, the [k]-th
    listed one gets the one made with number [g + k], nothing else changes. *)
Theorem C15_node_by_node : forall f g l T,
  Forall2 (fun c c' => with_new_id (match position (tid (snd c)) l, id_of (snd c) with
                                    | Some k, Some old => Some (f (g + k) old)
                                    | _, _ => None
                                    end) (head (snd c)) (head (snd c')) /\
                       length (fst c') = length (fst c))
    (visits [] T) (visits [] (fresh_ids f g l T)).
Proof. exact fresh_ids_nodes. Qed.
Print Assumptions C15_node_by_node.

(** The listed nodes are those with shared ids, each once; cleaning calls the
    id function once for each. *)
Theorem C15_stix_listed : forall o opts up d s t r s',
  dict_get "1.0.1" (STIX_UPDATERS o) = Some up -> wf_state s -> denotes s d t ->
  clean o up d opts s = (Ok r, s') ->
  let T := numbered (next s) t in
  let listed := flat_map snd (remapped_ids r) in
  NoDup listed /\ gen s' = gen s + length listed /\
  (forall i, In i listed <-> exists name, bears (stix_namespaces ++ cybox_namespaces) name T i /\
     exists j, j <> i /\ bears (stix_namespaces ++ cybox_namespaces) name T j) /\
  (exists l, document s' (r_document r)
     (erase (without l (fresh_ids (new_id_func (or_default o opts)) (gen s) listed T)))).
Proof. exact stix_listed. Qed.
Print Assumptions C15_stix_listed.

Theorem C15_cybox_listed : forall o opts up d s t r s',
  dict_get "2.0.1" (CYBOX_UPDATERS o) = Some up -> wf_state s -> denotes s d t ->
  clean o up d opts s = (Ok r, s') ->
  let T := numbered (next s) t in
  let listed := flat_map snd (remapped_ids r) in
  NoDup listed /\ gen s' = gen s + length listed /\
  (forall i, In i listed <-> exists name, bears cybox_namespaces name T i /\
     exists j, j <> i /\ bears cybox_namespaces name T j) /\
  (exists l, document s' (r_document r)
     (erase (without l (fresh_ids (new_id_func (or_default o opts)) (gen s) listed T)))).
Proof. exact cybox_listed. Qed.
Print Assumptions C15_cybox_listed.

(** The other steps replace no id. *)
Theorem C15_other_steps : forall o v up opts d s t r s',
  (dict_get v (STIX_UPDATERS o) = Some up /\ v <> "1.0.1") \/
  (dict_get v (CYBOX_UPDATERS o) = Some up /\ v <> "2.0.1") ->
  wf_state s -> denotes s d t ->
  clean o up d opts s = (Ok r, s') -> remapped_ids r = [] /\ gen s' = gen s.
Proof. exact others_keep_ids. Qed.
Print Assumptions C15_other_steps.

(** The default id function. *)
Theorem C15_default_id : forall o k old,
  new_id_func (default_options o) k old = old ++ "-cleaned-" ++ o_uuid o k.
Proof. exact default_id. Qed.
Print Assumptions C15_default_id.

Example C15_case :
  (exists r s', clean o0 (STIX_1_0_1_Updater o0) (DFile (Some pkg_1_0_1_bad)) None (memory []) = (Ok r, s') /\
     remapped_ids r = [("ex:t1", [3; 4])]) /\
  (exists r s', clean o0 (Cybox_2_0_1_Updater o0) (DFile (Some obs_2_0)) None (memory []) = (Ok r, s')).
Proof. exact listed_case. Qed.

(** ** C16: which nodes share an id *)

(** One group for each id with several bearers; it lists all bearers in
    document order. *)
Theorem C16_stix_groups : forall o opts up d s t r s',
  dict_get "1.0.1" (STIX_UPDATERS o) = Some up -> wf_state s -> denotes s d t ->
  clean o up d opts s = (Ok r, s') ->
  let bearer name := bears (stix_namespaces ++ cybox_namespaces) name (numbered (next s) t) in
  NoDup (map fst (remapped_ids r)) /\
  (forall name l, In (name, l) (remapped_ids r) ->
     2 <= length l /\ StronglySorted lt l /\ forall i, In i l <-> bearer name i) /\
  (forall name i j, bearer name i -> bearer name j -> i <> j -> exists l, In (name, l) (remapped_ids r)).
Proof. exact stix_groups. Qed.
Print Assumptions C16_stix_groups.

Theorem C16_cybox_groups : forall o opts up d s t r s',
  dict_get "2.0.1" (CYBOX_UPDATERS o) = Some up -> wf_state s -> denotes s d t ->
  clean o up d opts s = (Ok r, s') ->
  let bearer name := bears cybox_namespaces name (numbered (next s) t) in
  NoDup (map fst (remapped_ids r)) /\
  (forall name l, In (name, l) (remapped_ids r) ->
     2 <= length l /\ StronglySorted lt l /\ forall i, In i l <-> bearer name i) /\
  (forall name i j, bearer name i -> bearer name j -> i <> j -> exists l, In (name, l) (remapped_ids r)).
Proof. exact cybox_groups. Qed.
Print Assumptions C16_cybox_groups.

(** The ids a refused update reports are grouped in the same way. *)
Theorem C16_reported_groups : forall T,
  (forall name l, In (name, l) (stix_duplicates T) <->
     2 <= length l /\ l = bearers (stix_namespaces ++ cybox_namespaces) name T) /\
  (forall name l, In (name, l) (cybox_duplicates T) <->
     2 <= length l /\ l = bearers cybox_namespaces name T) /\
  (forall nss name i, In i (bearers nss name T) <-> bears nss name T i).
Proof. exact reported_groups. Qed.
Print Assumptions C16_reported_groups.

(** ** C27: a step is its list of changes *)

(** [stix_step] and [cybox_step] (file SpecStep) list the changes of each step. *)
Theorem C27_stix_step_changes : forall o opts v up f d s t r s',
  dict_get v (STIX_UPDATERS o) = Some up -> stix_step o (or_default o opts) v = Some f ->
  wf_state s -> denotes s d t -> updater_update o up d opts false s = (Ok r, s') ->
  exists e, f (erase t) = Ok e /\ document s' (r_document r) e /\
    removed_nodes r = [] /\ remapped_ids r = [].
Proof. exact stix_step_changes. Qed.
Print Assumptions C27_stix_step_changes.

Theorem C27_cybox_step_changes : forall o opts v up f d s t r s',
  dict_get v (CYBOX_UPDATERS o) = Some up -> cybox_step (or_default o opts) v = Some f ->
  wf_state s -> denotes s d t -> updater_update o up d opts false s = (Ok r, s') ->
  exists e, f (erase t) = Ok e /\ document s' (r_document r) e /\
    removed_nodes r = [] /\ remapped_ids r = [].
Proof. exact cybox_step_changes. Qed.
Print Assumptions C27_cybox_step_changes.

(** An accepted document is updated whenever its changes can be made; otherwise
    the update raises what the change raises. *)
Theorem C27_stix_step_complete : forall o opts v up c f d s t,
  dict_get v (STIX_UPDATERS o) = Some up ->
  stix_check o (or_default o opts) v = Some c -> stix_step o (or_default o opts) v = Some f ->
  wf_state s -> denotes s d t -> c (numbered (next s) t) = Ok tt ->
  match f (erase t) with
  | Ok e => exists r s', updater_update o up d opts false s = (Ok r, s') /\ document s' (r_document r) e
  | Err y => fst (updater_update o up d opts false s) = Err y
  end.
Proof. exact stix_step_complete. Qed.
Print Assumptions C27_stix_step_complete.

Theorem C27_cybox_step_complete : forall o opts v up c f d s t,
  dict_get v (CYBOX_UPDATERS o) = Some up ->
  cybox_check (or_default o opts) v = Some c -> cybox_step (or_default o opts) v = Some f ->
  wf_state s -> denotes s d t -> c (numbered (next s) t) = Ok tt ->
  match f (erase t) with
  | Ok e => exists r s', updater_update o up d opts false s = (Ok r, s') /\ document s' (r_document r) e
  | Err y => fst (updater_update o up d opts false s) = Err y
  end.
Proof. exact cybox_step_complete. Qed.
Print Assumptions C27_cybox_step_complete.

Example C27_case :
  (exists r s', updater_update o0 (STIX_1_1_Updater o0) (DFile (Some pkg_1_1)) None false (memory []) = (Ok r, s')) /\
  (exists r s', updater_update o0 Cybox_2_0_Updater (DFile (Some obs_2_0)) None false (memory []) = (Ok r, s')) /\
  (exists f e, stix_step o0 (default_options o0) "1.1" = Some f /\ f (erase pkg_1_1) = Ok e /\
     e <> erase pkg_1_1).
Proof. exact changes_case. Qed.

(** ** C32: only the content of the document matters *)

Theorem C32_update_by_content : forall o d1 d2 from to opts force s1 s2 t1 t2,
  wf_state s1 -> wf_state s2 -> denotes s1 d1 t1 -> denotes s2 d2 t2 ->
  erase t1 = erase t2 -> gen s1 = gen s2 ->
  match ramrod_update o d1 from to opts force s1, ramrod_update o d2 from to opts force s2 with
  | (Ok r1, s1'), (Ok r2, s2') => same_results s1' r1 s2' r2
  | (Err e1, _), (Err e2, _) => same_error e1 e2
  | _, _ => False
  end.
Proof. exact ramrod_agree. Qed.
Print Assumptions C32_update_by_content.

Theorem C32_stix_update_by_content : forall o d1 d2 from to opts force s1 s2 t1 t2,
  wf_state s1 -> wf_state s2 -> denotes s1 d1 t1 -> denotes s2 d2 t2 ->
  erase t1 = erase t2 -> gen s1 = gen s2 ->
  match stix_update o d1 from to opts force s1, stix_update o d2 from to opts force s2 with
  | (Ok r1, s1'), (Ok r2, s2') => same_results s1' r1 s2' r2
  | (Err e1, _), (Err e2, _) => same_error e1 e2
  | _, _ => False
  end.
Proof. exact stix_agree. Qed.
Print Assumptions C32_stix_update_by_content.

Theorem C32_cybox_update_by_content : forall o d1 d2 from to opts force s1 s2 t1 t2,
  wf_state s1 -> wf_state s2 -> denotes s1 d1 t1 -> denotes s2 d2 t2 ->
  erase t1 = erase t2 -> gen s1 = gen s2 ->
  match cybox_update o d1 from to opts force s1, cybox_update o d2 from to opts force s2 with
  | (Ok r1, s1'), (Ok r2, s2') => same_results s1' r1 s2' r2
  | (Err e1, _), (Err e2, _) => same_error e1 e2
  | _, _ => False
  end.
Proof. exact cybox_agree. Qed.
Print Assumptions C32_cybox_update_by_content.

(** The same package as second document of a memory and as a file. *)
Example C32_case :
  wf_state (memory [obs_2_0; pkg_1_1]) /\
  denotes (memory [obs_2_0; pkg_1_1]) (DElem 4) (fst (renum 4 pkg_1_1)) /\
  denotes (memory []) (DFile (Some pkg_1_1)) pkg_1_1 /\
  erase (fst (renum 4 pkg_1_1)) = erase pkg_1_1 /\
  gen (memory [obs_2_0; pkg_1_1]) = gen (memory []).
Proof. exact content_case. Qed.
