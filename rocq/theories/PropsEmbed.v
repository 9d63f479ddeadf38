(** * Property theorems: CybOX content inside a STIX package. *)

From Coq Require Import String Ascii List Bool Arith.
From Verif Require Import Str Xml XPath Utils Base Tables Cybox Stix Ramrod Spec SpecDoc SpecPass SpecStep
  SpecTrace SpecEmbed Lib Api Worked Samples PropsApi Embedded.
Import ListNotations.
Local Open Scope string_scope.

(** ** C54: content is updated as in a document of its own *)

(** The step of the STIX updater does to the embedded content what the step of
    the CybOX updater does to a document with that content. *)
Theorem C54_same_as_alone : forall o v w up up2 d opts force s t r s', In (v, w) content_versions ->
  dict_get v (STIX_UPDATERS o) = Some up -> dict_get w (CYBOX_UPDATERS o) = Some up2 ->
  wf_state s -> denotes s d t -> updater_update o up d opts force s = (Ok r, s') ->
  exists t1 e, worked_on o up d opts force s t t1 /\ document s' (r_document r) (erase e) /\
    carried (stix_gone (or_default o opts) v) (labelled t1) e /\
    forall A x D d2 s2 r2 s2' new, In (A, x) (visits [] (labelled t1)) -> embeds A x D ->
      wf_state s2 -> denotes s2 d2 D ->
      updater_update o up2 d2 opts false s2 = (Ok r2, s2') -> document s2' (r_document r2) new ->
      exists A' x', In (A', x') (visits [] e) /\ tid x' = tid x /\ map erase (kids x') = map erase (kids new).
Proof. exact embedded_update. Qed.
Print Assumptions C54_same_as_alone.

(** The CybOX document cannot be a stumbling block either: when its check
    passes, its update succeeds. *)
Theorem C54_alone_succeeds : forall o v w up up2 d opts force s t r s', In (v, w) content_versions ->
  dict_get v (STIX_UPDATERS o) = Some up -> dict_get w (CYBOX_UPDATERS o) = Some up2 ->
  wf_state s -> denotes s d t -> updater_update o up d opts force s = (Ok r, s') ->
  exists t1, worked_on o up d opts force s t t1 /\
    forall A x D s2 u, In (A, x) (visits [] (labelled t1)) -> embeds A x D -> wf_state s2 -> In D (heap s2) ->
      up_check up2 (tid D) (or_default o opts) s2 = (Ok u, s2) ->
      exists r2 s2', updater_update o up2 (DElem (tid D)) opts false s2 = (Ok r2, s2').
Proof. exact embedded_succeeds. Qed.
Print Assumptions C54_alone_succeeds.

(** A package and a CybOX document with the same content: a field whose value
    moves, a field that is renamed, a term of an outdated vocabulary and an
    element of a namespace that moves. *)
Definition the_content : list tree :=
  [el (qn CYBOX_NS "Observable") [] [(lq "id", "ex:o1")] None
     [el (http_name "DNT") [] [] None [el (object_name "URI" "Value") [] [(lq "x", "1")] (Some "yes") []];
      el (http_name "X_Requested_For") [] [] (Some "host") [];
      el (qn CYBOX_NS "Type") [] [(TAG_XSI_TYPE, "cyboxVocabs:ToolTypeVocab-1.0")] (Some "A/V") [];
      el (qn "http://cybox.mitre.org/objects#WinDriverObject-2" "Driver_Name") [] [] (Some "d") []]].

Definition versions_2_0_1 : list (qname * string) :=
  [(lq "cybox_major_version", "2"); (lq "cybox_minor_version", "0"); (lq "cybox_update_version", "1")].

Definition pkg_with_content : tree := package "1.0.1" [el (qn STIX_NS "Observables") [] versions_2_0_1 None the_content].
Definition obs_with_content : tree := observables versions_2_0_1 the_content.

(** The names and texts of the content of the first element below the root, or
    of the root. *)
Definition reading (l : list tree) : list (string * option string) :=
  flat_map (fun k => map (fun y => (q_local (h_tag (head y)), h_text (head y))) (nodes k)) l.
Definition new_reading : list (string * option string) :=
  [("Observable", None); ("DNT", Some "yes"); ("X_Forwarded_For", Some "host"); ("Type", Some "AV"); ("Driver_Name", Some "d")].
Definition same_reading (l : list tree) : bool :=
  forallb (fun p => String.eqb (fst (fst p)) (fst (snd p)) && ostr_eqb (snd (fst p)) (snd (snd p))) (combine (reading l) new_reading)
  && Nat.eqb (length (reading l)) (length new_reading).

Example C54_case :
  (exists A x, In (A, x) (visits [] (labelled (erase pkg_with_content))) /\ tid x = 2 /\ embeds A x obs_with_content) /\
  (exists r s' new, updater_update o0 (STIX_1_0_1_Updater o0) (DFile (Some pkg_with_content)) None false (memory []) = (Ok r, s') /\
     document s' (r_document r) new /\ same_reading (flat_map kids (kids new)) = true) /\
  (exists r s' new, updater_update o0 (Cybox_2_0_1_Updater o0) (DFile (Some obs_with_content)) None false (memory []) = (Ok r, s') /\
     document s' (r_document r) new /\ same_reading (kids new) = true).
Proof.
  split; [|split].
  - eexists _, _. split; [right; left; reflexivity|]. split; [reflexivity|].
    split; [reflexivity|]. split; [reflexivity|]. split; [reflexivity|]. split; [reflexivity|]. split; [|split].
    + intros y [<-|[<-|[]]]; (split; [reflexivity|]); (split; [|intros [X|[X|[X|[]]]]; discriminate X]);
        intros (_ & ns & f & E & [<-|[]] & Pr); injection E as <-; discriminate Pr.
    + intros y Hy. vm_compute in Hy.
      repeat (destruct Hy as [<-|Hy];
        [split; [intros (_ & ns & f & E & [<-|[<-|[]]] & Pr); injection E as <-; discriminate Pr
                |intros value a n I Sp; cbn in I; repeat (destruct I as [X|I]; [try discriminate X; injection X as <-; vm_compute in Sp; injection Sp as <- <-;
                    intros [Y|[Y|[Y|[Y|[]]]]]; discriminate Y|]); destruct I]|]).
      destruct Hy.
    + intros k y [<-|[]] Hy _. vm_compute in Hy. repeat (destruct Hy as [<-|Hy]; [discriminate|]). destruct Hy.
  - destruct (run_document (updater_update o0 (STIX_1_0_1_Updater o0) (DFile (Some pkg_with_content)) None false (memory []))
      (fun new => same_reading (flat_map kids (kids new)))) as (r & s' & new & E & D & B); [vm_compute; reflexivity|].
    exists r, s', new. auto.
  - destruct (run_document (updater_update o0 (Cybox_2_0_1_Updater o0) (DFile (Some obs_with_content)) None false (memory []))
      (fun new => same_reading (kids new))) as (r & s' & new & E & D & B); [vm_compute; reflexivity|].
    exists r, s', new. auto.
Qed.
