(** * Proofs: what the command line tool writes where. *)

From Coq Require Import String Ascii List Bool Arith.
From Verif Require Import Str Xml XPath Utils Base Tables Cybox Stix Ramrod Cli Spec SpecDoc SpecPass SpecStep SpecCheck SpecClean SpecUpdate SpecIds SpecCli
  Lib Api RefineUpdate Updates Kept Terminal Declared.
Import ListNotations.
Local Open Scope string_scope.
Local Open Scope list_scope.

(** ** Without force nothing is removed or renumbered *)

Lemma single_unforced c D f new_id g t oc : single c D f new_id false g t = Ok oc -> removed_subtrees oc = [] /\ replaced oc = [].
Proof.
  unfold single. destruct (c t) as [u|x]; [|discriminate]. destruct (f (erase t)) as [e|x]; [|discriminate]. intro E. injection E as <-. split; reflexivity.
Qed.

Lemma stix_single_unforced o opts v g t oc : stix_single o opts false v g t = Ok oc -> removed_subtrees oc = [] /\ replaced oc = [].
Proof.
  unfold stix_single. destruct (stix_check o opts v), (stix_dirt o v), (stix_step o opts v); try discriminate. apply single_unforced.
Qed.

Lemma cybox_single_unforced opts v g t oc : cybox_single opts false v g t = Ok oc -> removed_subtrees oc = [] /\ replaced oc = [].
Proof.
  unfold cybox_single. destruct (cybox_check opts v), (cybox_dirt v), (cybox_step opts v); try discriminate. apply single_unforced.
Qed.

Lemma chain_unforced one : (forall v g t oc, one v g t = Ok oc -> removed_subtrees oc = [] /\ replaced oc = []) ->
  forall vs g t e l ds, chain one vs g t = Ok (e, l, ds) -> l = [] /\ Forall (fun d => d = []) ds.
Proof.
  intro H. induction vs as [|v vs IH]; intros g t e l ds E; cbn [chain] in E.
  - injection E as <- <- <-. split; [reflexivity|constructor].
  - destruct (one v g (numbered 0 t)) as [oc|] eqn:O; [|discriminate]. cbn [rbind] in E. destruct (H _ _ _ _ O) as [A B].
    destruct (chain one vs _ _) as [[[e' l'] ds']|] eqn:C; [|discriminate]. cbn [rbind] in E. injection E as <- <- <-.
    destruct (IH _ _ _ _ _ C) as [-> F]. rewrite A, B. split; [reflexivity|constructor; auto].
Qed.

Lemma merge_nothing ds : Forall (fun d : dict (list nat) => d = []) ds -> forall ns, merge [] ns ds = [].
Proof.
  intros F ns. unfold merge. revert ns. induction F as [|d ds -> F IH]; intros [|n ns]; simpl; auto.
Qed.

Lemma ran_unforced m s one vs g t r s' : (forall v g t oc, one v g t = Ok oc -> removed_subtrees oc = [] /\ replaced oc = []) ->
  runs_chain m s (chain one vs g (erase t)) -> m s = (Ok r, s') -> removed_nodes r = [] /\ remapped_ids r = [].
Proof.
  intros H Rn E. unfold runs_chain in Rn. destruct (chain one vs g (erase t)) as [[[e l] ds]|x] eqn:Ch.
  - destruct Rn as (r0 & s0 & ns & E0 & _ & _ & F & _ & M). rewrite E in E0. injection E0 as <- <-. destruct (chain_unforced one H _ _ _ _ _ _ Ch) as [-> Fd].
    inversion F as [Q|]; subst. split; auto. rewrite M. apply merge_nothing. exact Fd.
  - destruct Rn as (n & s0 & E0). rewrite E in E0. discriminate.
Qed.

Lemma stix_unforced o d from to opts s t r s' : wf_state s -> denotes s d t ->
  stix_update o d from to opts false s = (Ok r, s') -> removed_nodes r = [] /\ remapped_ids r = [].
Proof.
  intros Wf D E. pose proof (stix_validation o d from to opts false s t Wf D) as Va. cbv zeta in Va.
  destruct (stix_start from t) as [a|] eqn:Ea; [|rewrite Va in E; discriminate].
  set (b := match given to with Some b => b | None => "1.2.1" end) in *.
  destruct stix_table_ok as [_ Nt]. destruct (older_dec STIX_VERSIONS a b Nt) as [Ho|Ho]; [|rewrite (proj1 Va Ho) in E; discriminate].
  pose proof (slice_between _ _ _ Nt Ho) as B.
  eapply ran_unforced; [|exact (stix_update_runs o d from to opts false s t a _ Wf D Ea B)|exact E]. intros v g t' oc. apply stix_single_unforced.
Qed.

Lemma cybox_unforced o d from to opts s t r s' : wf_state s -> denotes s d t ->
  cybox_update o d from to opts false s = (Ok r, s') -> removed_nodes r = [] /\ remapped_ids r = [].
Proof.
  intros Wf D E. pose proof (cybox_validation o d from to opts false s t Wf D) as Va. cbv zeta in Va.
  destruct (cybox_start from t) as [a|] eqn:Ea; [|rewrite Va in E; discriminate].
  set (b := match given to with Some b => b | None => "2.1" end) in *.
  destruct cybox_table_ok as [_ Nt]. destruct (older_dec CYBOX_VERSIONS a b Nt) as [Ho|Ho]; [|rewrite (proj1 Va Ho) in E; discriminate].
  pose proof (slice_between _ _ _ Nt Ho) as B.
  eapply ran_unforced; [|exact (cybox_update_runs o d from to opts false s t a _ Wf D Ea B)|exact E]. intros v g t' oc. apply cybox_single_unforced.
Qed.

Lemma entry_unforced o update d from to opts s t r s' : entry o update -> wf_state s -> denotes s d t ->
  update d from to opts false s = (Ok r, s') -> removed_nodes r = [] /\ remapped_ids r = [].
Proof.
  intros En W D E. destruct En as [->|[->| ->]]; [|eapply stix_unforced; eauto|eapply cybox_unforced; eauto].
  destruct (String.eqb_spec (q_local (h_tag (head t))) "STIX_Package") as [N|N].
  - rewrite (ramrod_is_stix o d from to opts false s t W D N) in E. eapply stix_unforced; eauto.
  - destruct (String.eqb_spec (q_local (h_tag (head t))) "Observables") as [N'|N'].
    + rewrite (ramrod_is_cybox o d from to opts false s t W D N') in E. eapply cybox_unforced; eauto.
    + pose proof (ramrod_other o d from to opts false s t W D N N') as Z. rewrite E in Z. discriminate.
Qed.

(** ** The streams *)

Lemma told_nothing s r rem rmp : tells_removed s r rem -> tells_remapped s r rmp ->
  ((rem ++ rmp)%list = [] <-> removed_nodes r = [] /\ remapped_ids r = []).
Proof.
  intros R M. destruct R as [A|tags A F], M as [B|l B G]; simpl; split; try tauto; try discriminate.
Qed.

Lemma told_no_document s r rem rmp root : tells_removed s r rem -> tells_remapped s r rmp -> ~ In (Document root) (rem ++ rmp)%list.
Proof.
  intros R M I. apply in_app_iff in I as [I|I].
  - destruct R as [|tags _ _]; [destruct I|]. destruct I as [I|I]; [discriminate|]. apply in_map_iff in I as (q & I & _). discriminate.
  - destruct M as [|l _ _]; [destruct I|]. destruct I as [I|I]; [discriminate|]. apply in_map_iff in I as (q & I & _). discriminate.
Qed.

Lemma stdout_alone o a opts s en c s' r s1 : wf_state s -> meant o a opts -> cli_main o a s = (en, c, s') ->
  a_exists a = true -> update_of o a opts s = (Ok r, s1) -> given (a_outfile a) = None ->
  (stdout c = [Document (r_document r)] <-> removed_nodes r = [] /\ remapped_ids r = []).
Proof.
  intros W Me E Ex U O. destruct (cli_status o a opts s en c s' W Me E) as (_ & K & _). destruct (K r s1 Ex U) as (_ & _ & rem & rmp & R & M & D).
  unfold delivered in D. rewrite O in D. destruct D as [_ ->]. rewrite <- (told_nothing s1 r rem rmp R M). split; [intro Q; injection Q; auto|intros ->; reflexivity].
Qed.

Lemma unforced_output o a opts s en c s' : wf_state s -> meant o a opts -> cli_main o a s = (en, c, s') -> a_force a = false -> exit_status en = 0 ->
  exists r, fst (update_of o a opts s) = Ok r /\
    match given (a_outfile a) with
    | Some f => outfile c = Some (f, r_document r) /\ stdout c = []
    | None => outfile c = None /\ stdout c = [Document (r_document r)]
    end.
Proof.
  intros W Me E Fo X. destruct (cli_status o a opts s en c s' W Me E) as (A & K & _). apply A in X as (Ex & r & s1 & U). exists r. split; [rewrite U; reflexivity|].
  destruct (K r s1 Ex U) as (_ & _ & rem & rmp & R & M & D).
  assert (Q : (rem ++ rmp)%list = []).
  { apply (told_nothing s1 r rem rmp R M). destruct (a_infile a) as [t|] eqn:I; [|rewrite (unparsed o a opts s I) in U; discriminate].
    unfold update_of in U. rewrite Fo in U. eapply (entry_unforced o (ramrod_update o)); [left; reflexivity|exact W| |exact U]. simpl. exact I. }
  unfold delivered in D. rewrite Q in D. exact D.
Qed.

Lemma file_output o a opts s en c s' f : wf_state s -> meant o a opts -> cli_main o a s = (en, c, s') -> given (a_outfile a) = Some f ->
  (forall root, ~ In (Document root) (stdout c)) /\
  (forall g root, outfile c = Some (g, root) <-> g = f /\ exists r, a_exists a = true /\ fst (update_of o a opts s) = Ok r /\ root = r_document r).
Proof.
  intros W Me E O. destruct (cli_status o a opts s en c s' W Me E) as (A & K & L).
  destruct (exit_status en) as [|n] eqn:X.
  - destruct (proj1 A eq_refl) as (Ex & r & s1 & U). destruct (K r s1 Ex U) as (_ & _ & rem & rmp & R & M & D). unfold delivered in D. rewrite O in D. destruct D as [D1 D2].
    rewrite D1, D2. split; [intro root; eapply told_no_document; eauto|]. intros g root. rewrite U. simpl. split.
    + intro Q. injection Q as <- <-. split; auto. exists r. auto.
    + intros (-> & r' & _ & Q & ->). injection Q as <-. reflexivity.
  - destruct (L ltac:(discriminate)) as (_ & L1 & L2). rewrite L1. split.
    + intros root I. destruct L2 as [Q|Q]; rewrite Q in I; [destruct I|]. destruct I as [I|[]]. discriminate.
    + intros g root. split; [discriminate|]. intros (_ & r & Ex & U & _). exfalso. destruct (update_of o a opts s) as [x s1] eqn:V. simpl in U. subst x.
      assert (Q : S n = 0) by (apply A; eauto). discriminate.
Qed.

Lemma not_optional q f x : (forall v, f v <> BadNode q) -> ~ In (BadNode q) (optional_line f x).
Proof. intros N I. unfold optional_line in I. destruct (given x); [|destruct I]. destruct I as [I|[]]. exact (N _ I). Qed.

Lemma node_named o a opts s en c s' i expected found s1 :
  wf_state s -> meant o a opts -> cli_main o a s = (en, c, s') -> a_exists a = true ->
  update_of o a opts s = (Err (InvalidVersionError (Some i) expected found), s1) ->
  exists anc x, node_at s1 i anc x /\ forall q, In (BadNode q) (stderr c) <-> kids x <> [] /\ q = h_tag (head x).
Proof.
  intros W Me E Ex U. destruct (cli_caught o a opts s en c s' W Me E) as (_ & K & _). destruct (K _ _ Ex U) as (_ & X & _). specialize (X (doc_invalid _ _ _)).
  remember (InvalidVersionError (Some i) expected found) as e eqn:Ee. remember (stderr c) as err eqn:Er.
  destruct X as [ | | |j anc y ex fo N C|j anc y ex fo N C]; try discriminate Ee; injection Ee as -> -> ->; exists anc, y; (split; [exact N|]); intro q.
  - split; [|intros [Q _]; contradiction]. intro I. exfalso. destruct I as [I|I]; [discriminate|].
    apply in_app_iff in I as [I|I]; eapply not_optional in I; auto; discriminate.
  - split; [|intros [_ ->]; right; left; reflexivity]. intro I. destruct I as [I|[I|I]]; [discriminate|injection I as ->; auto|]. exfalso.
    apply in_app_iff in I as [I|I]; eapply not_optional in I; auto; discriminate.
Qed.
