(** * Consequences of the functional description of updates. *)

From Coq Require Import String Ascii List Bool Arith NArith Lia.
From Verif Require Import Str Xml XPath Utils Base Tables Cybox Stix Ramrod Spec SpecDoc SpecPass SpecStep
  SpecCheck SpecClean SpecUpdate Lib Frame Api Versions NoFail Refine RefineBase RefineTrans RefineLists RefineSteps
  RefineCheck RefineClean Relabel RefineUpdate.
Import ListNotations.
Local Open Scope string_scope.

Lemma documented_forceable e : documented e <-> forceable e = true.
Proof. split; [intros []; reflexivity|]. destruct e; try discriminate; constructor. Qed.

Lemma step_errors up opts c D f e y : describes up opts c D f -> f (erase e) = Err y -> ~ documented y.
Proof. intros H E Q. apply documented_forceable in Q. rewrite (described_errors _ _ _ _ _ _ _ H E) in Q. discriminate. Qed.

(** The check decides before anything is changed. *)
Lemma update_refused o up opts c D f d s t x : describes up (or_default o opts) c D f ->
  wf_state s -> denotes s d t -> c (numbered (next s) t) = Err x ->
  exists s', updater_update o up d opts false s = (Err x, s') /\ In (numbered (next s) t) (heap s').
Proof.
  intros (HC & _) W Dn E. unfold updater_update.
  destruct (copied s d t W Dn) as (n1 & E1 & W1). rewrite bind_run, E1. cbv beta zeta.
  set (T := numbered (next s) t) in *. set (s1 := St _ _ _) in *.
  assert (HT : In T (heap s1)) by (simpl; apply in_app_iff; right; left; auto).
  exists s1. split; auto. unfold try_catch. rewrite bind_run, (HC s1 T W1 HT), E, andb_false_r. reflexivity.
Qed.

Lemma update_accepted o up opts c D f d force s t : describes up (or_default o opts) c D f ->
  wf_state s -> denotes s d t -> c (numbered (next s) t) = Ok tt ->
  match f (erase t) with
  | Ok e => exists r s', updater_update o up d opts force s = (Ok r, s') /\ wf_state s' /\
      document s' (r_document r) e /\ removed_nodes r = [] /\ remapped_ids r = []
  | Err y => exists s', updater_update o up d opts force s = (Err y, s') /\ ~ documented y
  end.
Proof.
  intros H W Dn E. pose proof (update_performs o up opts c D f d force s t H W Dn) as P.
  unfold performs, single in P. rewrite E, numbered_erase in P. pose proof (fun y => step_errors _ _ _ _ _ t y H) as Q.
  destruct (f (erase t)) as [e|y]; simpl rbind in P.
  - destruct P as (r & s' & E1 & W1 & D1 & F1 & R1 & _). exists r, s'. split; auto. split; auto. split; auto.
    simpl in *. inversion F1. auto.
  - destruct P as (s' & E1). exists s'. auto.
Qed.

Lemma update_returned o up opts c D f d s t r s' : describes up (or_default o opts) c D f ->
  wf_state s -> denotes s d t -> updater_update o up d opts false s = (Ok r, s') ->
  c (numbered (next s) t) = Ok tt /\
  exists e, f (erase t) = Ok e /\ document s' (r_document r) e /\ removed_nodes r = [] /\ remapped_ids r = [].
Proof.
  intros H W Dn E. destruct (c (numbered (next s) t)) as [[]|x] eqn:Ec.
  - split; auto. pose proof (update_accepted o up opts c D f d false s t H W Dn Ec) as P.
    destruct (f (erase t)) as [e|y].
    + destruct P as (r' & s1 & E1 & P). rewrite E in E1. injection E1 as <- <-. exists e. intuition.
    + destruct P as (s1 & E1 & _). rewrite E in E1. discriminate.
  - destruct (update_refused o up opts c D f d s t x H W Dn Ec) as (s1 & E1 & _). rewrite E in E1. discriminate.
Qed.

(** A non-forced update raises a documented error exactly when the check does. *)
Lemma update_error_iff o up opts c D f d s t x : describes up (or_default o opts) c D f ->
  wf_state s -> denotes s d t -> documented x ->
  (fst (updater_update o up d opts false s) = Err x <-> c (numbered (next s) t) = Err x).
Proof.
  intros H W Dn Q. split; intro E.
  - destruct (c (numbered (next s) t)) as [[]|y] eqn:Ec.
    + pose proof (update_accepted o up opts c D f d false s t H W Dn Ec) as P.
      destruct (f (erase t)) as [e|y].
      * destruct P as (r' & s1 & E1 & P). rewrite E1 in E. discriminate.
      * destruct P as (s1 & E1 & N). rewrite E1 in E. injection E as ->. elim N; auto.
    + destruct (update_refused o up opts c D f d s t y H W Dn Ec) as (s1 & E1 & _).
      rewrite E1 in E. injection E as ->. reflexivity.
  - destruct (update_refused o up opts c D f d s t x H W Dn E) as (s1 & E1 & _). rewrite E1. reflexivity.
Qed.

(** ** clean *)

Definition clean_performs (m : M results) (s : st) (opts : options) (T : tree) (r : res dirt) : Prop :=
  match r with
  | Ok dt => exists r s', m s = (Ok r, s') /\ wf_state s' /\
      document s' (r_document r) (erase (cleaned (new_id_func opts) (gen s) dt T)) /\
      Forall2 (document s') (removed_nodes r) (map erase (removed_content (new_id_func opts) (gen s) dt T)) /\
      remapped_ids r = snd dt /\ gen s' = gen s + length (renumbered dt)
  | Err x => exists s', m s = (Err x, s')
  end.

Lemma clean_does o up opts c D f d s t : describes up (or_default o opts) c D f ->
  wf_state s -> denotes s d t ->
  clean_performs (clean o up d opts) s (or_default o opts) (numbered (next s) t) (D (numbered (next s) t)).
Proof.
  intros (_ & HD & _) W Dn. unfold clean.
  destruct (copied s d t W Dn) as (n1 & E1 & W1). unfold clean_performs. rewrite bind_run, E1.
  set (T := numbered (next s) t) in *. set (s1 := St _ _ _) in *.
  assert (HT : In T (heap s1)) by (simpl; apply in_app_iff; right; left; auto).
  pose proof (HD s1 T W1 HT) as Q. change (gen s1) with (gen s) in Q.
  destruct (D T) as [dt|x]; [|exists s1; auto].
  destruct Q as (copies & s2 & E2 & S2 & G2 & R2 & C2).
  eexists _, s2. split; [exact E2|]. split; [apply (st_wf _ _ _ _ S2)|].
  cbn [r_document removed_nodes remapped_ids r_removed r_remapped]. split.
  { eexists. split; [apply (st_in _ _ _ _ S2)|]. split; auto.
    unfold cleaned. rewrite without_rwm, rwm_tid, fresh_ids_tmap. apply tmap_tid, renumber_keeps. }
  split; [|auto]. apply Forall2_erase; auto. intros x0 Hx. apply (C2 x0 Hx).
Qed.

(** A forced update of a document the check refuses. *)
Lemma forced_is_clean_then_step o up opts c D f d s t e0 s0 : describes up (or_default o opts) c D f ->
  wf_state s -> denotes s d t ->
  updater_update o up d opts false s = (Err e0, s0) -> documented e0 ->
  match clean o up d opts s with
  | (Err x, _) => fst (updater_update o up d opts true s) = Err x
  | (Ok k, s1) => exists e1 l, document s1 (r_document k) e1 /\ Forall2 (document s1) (removed_nodes k) l /\
      match f e1 with
      | Err y => fst (updater_update o up d opts true s) = Err y
      | Ok e2 => exists r s2, updater_update o up d opts true s = (Ok r, s2) /\
          document s2 (r_document r) e2 /\ Forall2 (document s2) (removed_nodes r) l /\
          remapped_ids r = remapped_ids k
      end
  end.
Proof.
  intros H W Dn E0 Q. assert (Ec : c (numbered (next s) t) = Err e0).
  { apply (update_error_iff o up opts c D f d s t e0 H W Dn Q). rewrite E0. reflexivity. }
  pose proof (update_performs o up opts c D f d true s t H W Dn) as P.
  pose proof (clean_does o up opts c D f d s t H W Dn) as K.
  unfold performs, single, clean_performs in *. rewrite Ec in P.
  apply documented_forceable in Q. rewrite Q in P. simpl andb in P. cbv iota in P.
  destruct (D (numbered (next s) t)) as [dt|x]; simpl rbind in P.
  - destruct K as (k & s1 & E1 & W1 & D1 & F1 & R1 & _). rewrite E1.
    eexists _, _. split; [exact D1|]. split; [exact F1|].
    destruct (f (erase _)) as [e2|y]; simpl rbind in P.
    + destruct P as (r & s2 & E2 & W2 & D2 & F2 & R2 & _). exists r, s2. split; auto. split; auto. split; auto.
      rewrite R2, R1. reflexivity.
    + destruct P as (s2 & E2). rewrite E2. reflexivity.
  - destruct K as (s1 & E1). destruct P as (s2 & E2). rewrite E1, E2. reflexivity.
Qed.

(** ** check_update and update *)

Lemma size_ids t : size t = length (ids t).
Proof. rewrite <- (seq_length (size t) 0), <- renum_ids. rewrite <- size_erase, erase_renum. apply size_erase. Qed.

Lemma map_nth_seq l : map (fun k => nth k l 0) (seq 0 (length l)) = l.
Proof. induction l as [|i l IH]; simpl; auto. f_equal. rewrite <- seq_shift, map_map. exact IH. Qed.

Lemma numbered_about T : T = relabel (fun k => nth k (ids T) 0) (numbered 0 (erase T)).
Proof.
  apply erase_ids_eq.
  - rewrite relabel_erase. unfold numbered. rewrite erase_renum. symmetry. apply erase_idem.
  - rewrite relabel_ids. unfold numbered. rewrite renum_ids, size_erase_eq, size_ids, map_nth_seq. reflexivity.
Qed.

Lemma about_relab T e : relab_exn (fun k => nth k (ids T) 0) e = about T e.
Proof. destruct e; reflexivity. Qed.

Lemma check_predicts o up opts c D f s T : describes up (or_default o opts) c D f -> stable c ->
  wf_state s -> In T (heap s) ->
  match up_check up (tid T) (or_default o opts) s with
  | (Err x, s1) => s1 = s /\ exists e0 T' s',
      updater_update o up (DElem (tid T)) opts false s = (Err (about T' e0), s') /\
      x = about T e0 /\ In T' (heap s') /\ erase T' = erase T
  | (Ok _, s1) => s1 = s /\ forall e s', updater_update o up (DElem (tid T)) opts false s = (Err e, s') -> ~ documented e
  end.
Proof.
  intros H St W HT. assert (Dn : denotes s (DElem (tid T)) T).
  { exists [], T. split; auto. split; auto. apply visits_self. }
  pose proof H as (HC & _). rewrite (HC s T W HT).
  set (T' := numbered (next s) T).
  assert (E0 : erase T' = erase T) by apply numbered_erase.
  pose proof (numbered_about T) as R1. pose proof (numbered_about T') as R2. rewrite E0 in R2.
  set (r1 := fun k => nth k (ids T) 0) in *. set (r2 := fun k => nth k (ids T') 0) in *.
  pose proof (St r1 (numbered 0 (erase T))) as C1. rewrite <- R1 in C1.
  pose proof (St r2 (numbered 0 (erase T))) as C2. rewrite <- R2 in C2.
  rewrite C1. destruct (c (numbered 0 (erase T))) as [[]|x]; simpl relab in *; (split; [reflexivity|]).
  - intros e s' E. pose proof (update_accepted o up opts c D f _ false s T H W Dn C2) as P.
    destruct (f (erase T)) as [y|y].
    + destruct P as (r & s1 & E1 & _). rewrite E1 in E. discriminate.
    + destruct P as (s1 & E1 & N). rewrite E1 in E. injection E as <- <-. exact N.
  - destruct (update_refused o up opts c D f _ s T _ H W Dn C2) as (s' & E1 & HT').
    exists x, T', s'. rewrite E1. unfold r1, r2. rewrite !about_relab. auto.
Qed.

(** ** Same content, same result *)

Lemma dict_sizes_set k (v w : list nat) d d' : length v = length w ->
  sizes d = sizes d' ->
  sizes (dict_set k v d)
  = sizes (dict_set k w d').
Proof.
  intro L. revert d'. induction d as [|[a x] d IH]; intros [|[b y] d'] E; simpl in *; try discriminate.
  - rewrite L. reflexivity.
  - injection E as -> Ex E. destruct (String.eqb _ _); simpl; [rewrite L, E|rewrite Ex, (IH d' E)]; reflexivity.
Qed.

Lemma dict_sizes_update e e' : 
  sizes e = sizes e' ->
  forall d d',
  sizes d = sizes d' ->
  sizes (dict_update d e)
  = sizes (dict_update d' e').
Proof.
  revert e'. induction e as [|[k x] e IH]; intros [|[k' x'] e'] E d d' Ed; simpl in *; try discriminate; auto.
  injection E as -> Ex E. apply IH; auto. apply dict_sizes_set; auto.
Qed.

Lemma merge_sizes ds : forall ns ns' d d', length ns = length ds -> length ns' = length ds ->
  sizes d = sizes d' ->
  sizes (merge d ns ds)
  = sizes (merge d' ns' ds).
Proof.
  unfold merge. induction ds as [|x ds IH]; intros [|n ns] [|n' ns'] d d' L L' E; simpl in *; try discriminate; auto.
  apply IH; auto. apply dict_sizes_update; auto. unfold sizes, shift_dict. rewrite !map_map. apply map_ext.
  intros [k l]. simpl. rewrite !map_length. reflexivity.
Qed.

Definition agree (m1 m2 : M results) (s1 s2 : st) : Prop :=
  match m1 s1, m2 s2 with
  | (Ok r1, s1'), (Ok r2, s2') => same_results s1' r1 s2' r2
  | (Err e1, _), (Err e2, _) => same_error e1 e2
  | _, _ => False
  end.

Lemma runs_agree m1 m2 s1 s2 c : runs_chain m1 s1 c -> runs_chain m2 s2 c -> agree m1 m2 s1 s2.
Proof.
  unfold runs_chain, agree. destruct c as [[[e l] ds]|x].
  - intros (r1 & s1' & n1 & -> & W1 & D1 & F1 & L1 & R1) (r2 & s2' & n2 & -> & W2 & D2 & F2 & L2 & R2).
    exists e, l. rewrite R1, R2. repeat (split; auto). apply merge_sizes; auto.
  - intros (n1 & s1' & ->) (n2 & s2' & ->). exists x, n1, n2. auto.
Qed.

Lemma same_error_refl e : same_error e e.
Proof.
  exists e, 0, 0. assert (shift_exn 0 e = e); [|auto]. destruct e as [l d| |i a b| | | | | | | | |]; auto.
  - unfold shift_exn. f_equal.
    + destruct l; simpl; auto. rewrite map_id. reflexivity.
    + destruct d; simpl; auto. unfold shift_dict. f_equal. rewrite <- (map_id d) at 2. apply map_ext.
      intros [k v]. simpl. rewrite map_id. reflexivity.
  - destruct i; reflexivity.
Qed.

Lemma older_dec versions a b : NoDup versions -> older versions a b \/ ~ older versions a b.
Proof.
  intro N. pose proof (older_index versions a b N) as Q.
  destruct (in_dec string_dec a versions); [|right; tauto].
  destruct (in_dec string_dec b versions); [|right; tauto].
  destruct (lt_dec (index_of a versions) (index_of b versions)); [left|right]; tauto.
Qed.

Lemma head_same t1 t2 : erase t1 = erase t2 ->
  h_attr (head t1) = h_attr (head t2) /\ h_tag (head t1) = h_tag (head t2).
Proof. destruct t1 as [h1 k1], t2 as [h2 k2]. intro E. cbn in E. injection E. intros. destruct h1, h2. simpl in *. split; congruence. Qed.

Lemma stix_agree o d1 d2 from to opts force s1 s2 t1 t2 : wf_state s1 -> wf_state s2 ->
  denotes s1 d1 t1 -> denotes s2 d2 t2 -> erase t1 = erase t2 -> gen s1 = gen s2 ->
  agree (stix_update o d1 from to opts force) (stix_update o d2 from to opts force) s1 s2.
Proof.
  intros W1 W2 D1 D2 E G. destruct (head_same _ _ E) as [Ea _].
  assert (Es : stix_start from t1 = stix_start from t2) by (unfold stix_start; rewrite Ea; reflexivity).
  pose proof (stix_validation o d1 from to opts force s1 t1 W1 D1) as V1.
  pose proof (stix_validation o d2 from to opts force s2 t2 W2 D2) as V2.
  cbv zeta in V1, V2. rewrite <- Es in V2. destruct (stix_start from t1) as [a|] eqn:Ea1.
  - set (b := match given to with Some b => b | None => "1.2.1" end) in *.
    destruct stix_table_ok as [_ N]. destruct (older_dec STIX_VERSIONS a b N) as [Ho|Ho].
    + pose proof (slice_between _ _ _ N Ho) as B.
      eapply runs_agree; [eapply (stix_update_runs o d1 from to); eauto|].
      rewrite G, E. apply (stix_update_runs o d2 from to opts force s2 t2 a); auto.
    + unfold agree. rewrite (proj1 V1 Ho), (proj1 V2 Ho). apply same_error_refl.
  - unfold agree. rewrite V1, V2. apply same_error_refl.
Qed.

Lemma cybox_agree o d1 d2 from to opts force s1 s2 t1 t2 : wf_state s1 -> wf_state s2 ->
  denotes s1 d1 t1 -> denotes s2 d2 t2 -> erase t1 = erase t2 -> gen s1 = gen s2 ->
  agree (cybox_update o d1 from to opts force) (cybox_update o d2 from to opts force) s1 s2.
Proof.
  intros W1 W2 D1 D2 E G. destruct (head_same _ _ E) as [Ea _].
  assert (Es : cybox_start from t1 = cybox_start from t2).
  { unfold cybox_start, cybox_declared. rewrite Ea. reflexivity. }
  pose proof (cybox_validation o d1 from to opts force s1 t1 W1 D1) as V1.
  pose proof (cybox_validation o d2 from to opts force s2 t2 W2 D2) as V2.
  cbv zeta in V1, V2. rewrite <- Es in V2. destruct (cybox_start from t1) as [a|] eqn:Ea1.
  - set (b := match given to with Some b => b | None => "2.1" end) in *.
    destruct cybox_table_ok as [_ N]. destruct (older_dec CYBOX_VERSIONS a b N) as [Ho|Ho].
    + pose proof (slice_between _ _ _ N Ho) as B.
      eapply runs_agree; [eapply (cybox_update_runs o d1 from to); eauto|].
      rewrite G, E. apply (cybox_update_runs o d2 from to opts force s2 t2 a); auto.
    + unfold agree. rewrite (proj1 V1 Ho), (proj1 V2 Ho). apply same_error_refl.
  - unfold agree. rewrite V1, V2. apply same_error_refl.
Qed.

Lemma ramrod_agree o d1 d2 from to opts force s1 s2 t1 t2 : wf_state s1 -> wf_state s2 ->
  denotes s1 d1 t1 -> denotes s2 d2 t2 -> erase t1 = erase t2 -> gen s1 = gen s2 ->
  agree (ramrod_update o d1 from to opts force) (ramrod_update o d2 from to opts force) s1 s2.
Proof.
  intros W1 W2 D1 D2 E G. destruct (head_same _ _ E) as [_ Et].
  destruct (string_dec (q_local (h_tag (head t1))) "STIX_Package") as [N1|N1].
  - unfold agree. rewrite (ramrod_is_stix o d1 from to opts force s1 t1 W1 D1 N1).
    rewrite Et in N1. rewrite (ramrod_is_stix o d2 from to opts force s2 t2 W2 D2 N1).
    eapply stix_agree; eauto.
  - destruct (string_dec (q_local (h_tag (head t1))) "Observables") as [N2|N2].
    + unfold agree. rewrite (ramrod_is_cybox o d1 from to opts force s1 t1 W1 D1 N2).
      rewrite Et in N2. rewrite (ramrod_is_cybox o d2 from to opts force s2 t2 W2 D2 N2).
      eapply cybox_agree; eauto.
    + pose proof (ramrod_other o d1 from to opts force s1 t1 W1 D1 N1 N2) as R1. rewrite Et in N1, N2.
      pose proof (ramrod_other o d2 from to opts force s2 t2 W2 D2 N1 N2) as R2. unfold agree.
      destruct (ramrod_update o d1 from to opts force s1) as [[|] ?], (ramrod_update o d2 from to opts force s2) as [[|] ?];
        simpl in R1, R2; try discriminate. injection R1 as ->. injection R2 as ->. apply same_error_refl.
Qed.
