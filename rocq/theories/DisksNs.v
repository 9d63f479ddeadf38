(** * Proofs: what a run of the namespace script does to the outside. *)

From Coq Require Import String Ascii List Bool Arith Lia.
From Verif Require Import Str Xml Utils Tables UpdateNs SpecNs Scripts Cli Disk SpecDisk Disks DiskNs SpecDiskNs.
Import ListNotations.
Local Open Scope string_scope.
Local Open Scope list_scope.

(** ** Lines *)

Lemma line_end_ends c : line_end c = true <-> ends_line c.
Proof.
  unfold line_end, ends_line. rewrite orb_true_iff, !Nat.eqb_eq. split.
  - intros [H|H]; [left|right]; rewrite <- (ascii_nat_embedding c), H; reflexivity.
  - intros [-> | ->]; [left|right]; reflexivity.
Qed.

Lemma one_line_nil : one_line "".
Proof. intros a c b E. destruct a; discriminate. Qed.
Lemma one_line_cons c l : one_line (String c l) <-> ~ ends_line c /\ one_line l.
Proof.
  split.
  - intro H. split; [exact (H "" c l eq_refl)|]. intros a x b E. apply (H (String c a) x b). rewrite E. reflexivity.
  - intros [N H] a x b E. destruct a as [|y a]; simpl in E; injection E as <- E; [exact N|exact (H a x b E)].
Qed.

Lemma lines_some x : lines_of x <> [].
Proof. destruct x as [|c x]; simpl; [discriminate|]. destruct (line_end c); [discriminate|]. destruct (lines_of x); discriminate. Qed.

Lemma lines_in x : in_lines x (lines_of x).
Proof.
  induction x as [|c x IH]; simpl; [apply il_last, one_line_nil|].
  destruct (line_end c) eqn:E.
  - apply (il_more "" c x); [apply one_line_nil|apply line_end_ends; exact E|exact IH].
  - assert (N : ~ ends_line c) by (rewrite <- line_end_ends; congruence).
    inversion IH; subst.
    + apply il_last, one_line_cons. auto.
    + apply (il_more (String c l) c0 x0 ls); auto. apply one_line_cons. auto.
Qed.

Lemma lines_one l : one_line l -> lines_of l = [l].
Proof.
  induction l as [|c l IH]; intro H; simpl; [reflexivity|]. apply one_line_cons in H. destruct H as [N H].
  destruct (line_end c) eqn:E; [apply line_end_ends in E; contradiction|]. rewrite (IH H). reflexivity.
Qed.
Lemma lines_more l c x : one_line l -> ends_line c -> lines_of (l ++ String c x)%string = l :: lines_of x.
Proof.
  intros H C. apply line_end_ends in C. induction l as [|a l IH]; simpl; [rewrite C; reflexivity|].
  apply one_line_cons in H. destruct H as [N H]. destruct (line_end a) eqn:E; [apply line_end_ends in E; contradiction|].
  rewrite (IH H). reflexivity.
Qed.

Lemma in_lines_is x ls : in_lines x ls <-> ls = lines_of x.
Proof.
  split; [|intros ->; apply lines_in].
  induction 1 as [l H|l c x ls H C L IH]; [symmetry; apply lines_one; exact H|]. rewrite (lines_more l c x H C), IH. reflexivity.
Qed.

(** ** What a run amounts to *)

Definition source_of (c : ns_command) (d : disk) (stdin : string) : option string :=
  match source_file c with Some f => d f | None => Some stdin end.

Definition list_of (d : disk) (id_ : string) : option (list string) :=
  if String.eqb id_ "stix1.2" then Some STIX_NS_1_2
  else if String.eqb id_ "stix1.2.1" then Some STIX_NS_1_2_1
  else option_map (fun text => namespace_lines (lines_of text)) (d id_).

Definition updated (c : ns_command) (d : disk) (t : tree) : outcome tree :=
  match list_of d (n_from c), list_of d (n_to c) with
  | Some A, Some B => match update_from_lists A B t with
                      | Ok t' => Done (special_case_version_update (n_to c) t')
                      | Err e => Raised e
                      end
  | _, _ => RefusedError
  end.

Definition stream (x : string) : list effect := map (fun b => Print (Byte b)) (list_ascii_of_string x).

Definition plan (parse : string -> option tree) (z : bool -> tree -> string) (stdin : string) (c : ns_command) (d : disk) : finish * list effect :=
  match source_of c d stdin with
  | None => (Status 2, [Complain Message])
  | Some text =>
      match parse text with
      | None => (Uncaught XMLSyntaxError, [])
      | Some t => match updated c d t with
                  | Done t' => (Status 0, stream (z (n_pretty c) t'))
                  | Raised e => (Uncaught e, [])
                  | _ => (UncaughtRefusal, [])
                  end
      end
  end.

Definition cut_off {A} (x : outcome A) : Prop := x = RefusedError \/ x = Killed.

Lemma namespace_list_run id_ n d k s : exists x k', p_namespace_list id_ n (World d [] k) s = (x, World d [] k', s) /\
  (x = match list_of d id_ with Some l => Done l | None => RefusedError end \/ (disturbed n /\ cut_off x)).
Proof.
  unfold p_namespace_list, list_of. destruct (String.eqb id_ "stix1.2"); [eexists; exists k; split; [reflexivity|auto]|].
  destruct (String.eqb id_ "stix1.2.1"); [eexists; exists k; split; [reflexivity|auto]|].
  rewrite p_bind_run. unfold read_file. rewrite p_bind_run. unfold access. cbn [w_clock].
  destruct (n k) eqn:W.
  - unfold now. cbn [w_disk w_done fold_left app]. destruct (d id_) as [text|]; cbn; eexists; exists (S k); (split; [reflexivity|left; reflexivity]).
  - cbn. eexists. exists (S k). split; [reflexivity|]. right. split; [exists k; congruence|left; reflexivity].
  - cbn. eexists. exists (S k). split; [reflexivity|]. right. split; [exists k; congruence|right; reflexivity].
Qed.

Lemma update_run c n d k s t : exists x k', p_ns_update (n_from c) (n_to c) t n (World d [] k) s = (x, World d [] k', s) /\
  (x = updated c d t \/ (disturbed n /\ cut_off x)).
Proof.
  unfold p_ns_update, updated. rewrite p_bind_run.
  destruct (namespace_list_run (n_from c) n d k s) as (x1 & k1 & -> & H1).
  destruct H1 as [-> |[D H1]].
  2: { destruct H1 as [-> | ->]; eexists; exists k1; (split; [reflexivity|right; split; [exact D|unfold cut_off; auto]]). }
  destruct (list_of d (n_from c)) as [A|]; [|eexists; exists k1; split; [reflexivity|auto]].
  rewrite p_bind_run. destruct (namespace_list_run (n_to c) n d k1 s) as (x2 & k2 & -> & H2).
  destruct H2 as [-> |[D H2]].
  2: { destruct H2 as [-> | ->]; eexists; exists k2; (split; [reflexivity|right; split; [exact D|unfold cut_off; auto]]). }
  destruct (list_of d (n_to c)) as [B|]; [|eexists; exists k2; split; [reflexivity|auto]].
  destruct (update_from_lists A B t); eexists; exists k2; (split; [reflexivity|auto]).
Qed.

Lemma each_run {A} (f : A -> effect) s l n : forall w, exists x k p,
  p_each (fun b => does (f b)) l n w s = (x, World (w_disk w) (w_done w ++ map f p) k, s) /\ begins p l /\
  ((x = Done tt /\ p = l) \/ (disturbed n /\ cut_off x)).
Proof.
  induction l as [|y l IH]; intro w; simpl.
  - exists (Done tt), (w_clock w), []. simpl. rewrite <- world_same. split; [reflexivity|]. split; [exists []; reflexivity|auto].
  - rewrite p_bind_run. unfold does at 1, access at 1. destruct (n (w_clock w)) eqn:W.
    + destruct (IH (World (w_disk w) (w_done w ++ [f y]) (S (w_clock w)))) as (x & k & p & E & (q & B) & H). cbn [w_disk w_done] in E.
      exists x, k, (y :: p). rewrite E, <- app_assoc. split; [reflexivity|]. split; [exists q; simpl; congruence|].
      destruct H as [[-> ->]|H]; auto.
    + exists RefusedError, (S (w_clock w)), []. simpl. rewrite app_nil_r. split; [reflexivity|]. split; [exists (y :: l); reflexivity|].
      right. split; [exists (w_clock w); congruence|left; reflexivity].
    + exists Killed, (S (w_clock w)), []. simpl. rewrite app_nil_r. split; [reflexivity|]. split; [exists (y :: l); reflexivity|].
      right. split; [exists (w_clock w); congruence|right; reflexivity].
Qed.

(** How a run relates to the plan: it follows it, or is cut off on the way, or
    takes a file it cannot open for missing. *)
Inductive follows (n : nat -> weather) (c : ns_command) (fin0 : finish) (l0 : list effect) : finish -> list effect -> Prop :=
| fw_all : follows n c fin0 l0 fin0 l0
| fw_cut fin l : disturbed n -> fin = UncaughtRefusal \/ fin = Dead -> begins l l0 -> follows n c fin0 l0 fin l
| fw_open f : disturbed n -> source_file c = Some f -> follows n c fin0 l0 (Status 2) [Complain Message].

Lemma cut_ended (x : outcome finish) : cut_off x -> ended x = UncaughtRefusal \/ ended x = Dead.
Proof. intros [-> | ->]; auto. Qed.

Lemma script_run parse z c text n d k s : exists x k' l, p_ns_script parse z c text n (World d [] k) s = (x, World d l k', s) /\
  let '(fin0, l0) := match parse text with
                     | None => (Uncaught XMLSyntaxError, [])
                     | Some t => match updated c d t with
                                 | Done t' => (Status 0, stream (z (n_pretty c) t'))
                                 | Raised e => (Uncaught e, [])
                                 | _ => (UncaughtRefusal, [])
                                 end
                     end in
  follows n c fin0 l0 (ended x) l.
Proof.
  unfold p_ns_script. destruct (parse text) as [t|]; [|eexists; exists k, []; split; [reflexivity|constructor]].
  rewrite p_bind_run. destruct (update_run c n d k s t) as (x & k1 & -> & [-> |[D H]]).
  - assert (Nk : updated c d t <> Killed).
    { unfold updated. destruct (list_of d (n_from c)), (list_of d (n_to c)); try discriminate. destruct (update_from_lists l l0 t); discriminate. }
    destruct (updated c d t) as [t'|e| |]; [|eexists; exists k1, []; split; [reflexivity|constructor]|eexists; exists k1, []; split; [reflexivity|constructor]|congruence].
    rewrite p_bind_run.
    destruct (each_run (fun b => Print (Byte b)) s (list_ascii_of_string (z (n_pretty c) t')) n (World d [] k1)) as (x & k2 & p & -> & B & H).
    cbn [w_disk w_done app]. destruct H as [[-> ->]|[D H]].
    + eexists. exists k2. eexists. split; [reflexivity|]. constructor.
    + assert (Bm : begins (map (fun b => Print (Byte b)) p) (stream (z (n_pretty c) t'))).
      { destruct B as (q & B). exists (map (fun b => Print (Byte b)) q). unfold stream. rewrite B, map_app. reflexivity. }
      destruct H as [-> | ->]; eexists; exists k2; eexists; (split; [reflexivity|]); apply fw_cut; auto.
  - set (fl := match updated c d t with Done t' => (Status 0, stream (z (n_pretty c) t')) | Raised e => (Uncaught e, []) | _ => (UncaughtRefusal, []) end).
    destruct fl as [fin0 l0]. destruct H as [-> | ->]; eexists; exists k1, []; (split; [reflexivity|]); apply fw_cut; auto; exists l0; reflexivity.
Qed.

Lemma ns_run parse z stdin c n d fin w : ns_tool parse z stdin c n d = (fin, w) ->
  w_disk w = d /\ follows n c (fst (plan parse z stdin c d)) (snd (plan parse z stdin c d)) fin (w_done w).
Proof.
  unfold ns_tool, p_ns_main, plan, source_of. set (s := St [] 0 0). intro E.
  pose proof (fun text k => script_run parse z c text n d k s) as R.
  destruct (source_file c) as [f|] eqn:F.
  - rewrite p_bind_run in E. unfold p_open, access at 1 in E. cbn [w_clock] in E. destruct (n 0) eqn:W0.
    + unfold now in E. cbn [w_disk w_done fold_left app] in E. destruct (d f) as [text|] eqn:Ef.
      * rewrite p_bind_run in E. unfold read_file in E. rewrite p_bind_run in E. unfold access at 1 in E. cbn [w_clock] in E.
        destruct (n 1) eqn:W1.
        -- unfold now in E. cbn [w_disk w_done fold_left app] in E. rewrite Ef in E. unfold p_ret at 1 in E.
           destruct (R text 2) as (x & k & l & Q & H). rewrite Q in E. injection E as <- <-. split; [reflexivity|]. cbn [w_done].
           destruct (match parse text with None => _ | Some _ => _ end) as [fin0 l0]. exact H.
        -- injection E as <- <-. split; [reflexivity|]. apply fw_cut; [exists 1; congruence|left; reflexivity|].
           cbn [w_done]. eexists. reflexivity.
        -- injection E as <- <-. split; [reflexivity|]. apply fw_cut; [exists 1; congruence|right; reflexivity|].
           cbn [w_done]. eexists. reflexivity.
      * rewrite p_bind_run in E. unfold p_complain, does, access at 1 in E. cbn [w_clock] in E. destruct (n 1) eqn:W1; injection E as <- <-; (split; [reflexivity|]).
        -- constructor.
        -- apply fw_cut; [exists 1; congruence|left; reflexivity|exists [Complain Message]; reflexivity].
        -- apply fw_cut; [exists 1; congruence|right; reflexivity|exists [Complain Message]; reflexivity].
    + assert (D : disturbed n) by (exists 0; congruence).
      rewrite p_bind_run in E. unfold p_complain, does, access at 1 in E. cbn [w_clock] in E. destruct (n 1) eqn:W1; injection E as <- <-; (split; [reflexivity|]).
      * eapply fw_open; eauto.
      * apply fw_cut; [exact D|left; reflexivity|eexists; reflexivity].
      * apply fw_cut; [exact D|right; reflexivity|eexists; reflexivity].
    + injection E as <- <-. split; [reflexivity|]. apply fw_cut; [exists 0; congruence|right; reflexivity|eexists; reflexivity].
  - rewrite p_bind_run in E. unfold access at 1 in E. cbn [w_clock] in E. destruct (n 0) eqn:W0.
    + unfold now in E. cbn [w_disk w_done fold_left app] in E. destruct (R stdin 1) as (x & k & l & Q & H). rewrite Q in E. injection E as <- <-.
      split; [reflexivity|]. cbn [w_done]. destruct (match parse stdin with None => _ | Some _ => _ end) as [fin0 l0]. exact H.
    + injection E as <- <-. split; [reflexivity|]. apply fw_cut; [exists 0; congruence|left; reflexivity|eexists; reflexivity].
    + injection E as <- <-. split; [reflexivity|]. apply fw_cut; [exists 0; congruence|right; reflexivity|eexists; reflexivity].
Qed.

(** ** The plan in words *)

Lemma source_is c d stdin text : source c d stdin text <-> source_of c d stdin = Some text.
Proof.
  unfold source_of, source_file. split.
  - intros [[-> | ->]|f x E N H]; [reflexivity..|]. rewrite E. destruct (String.eqb_spec f "-"); [contradiction|exact H].
  - destruct (n_file c) as [f|] eqn:E; [|intro H; injection H as <-; apply sc_stdin; auto].
    destruct (String.eqb_spec f "-") as [-> |N]; [intro H; injection H as <-; apply sc_stdin; auto|]. intro H. eapply sc_file; eauto.
Qed.

Lemma there_is d id_ : list_there d id_ <-> list_of d id_ <> None.
Proof.
  unfold list_there, list_of. destruct (String.eqb_spec id_ "stix1.2") as [-> |N1]; [split; [discriminate|auto]|].
  destruct (String.eqb_spec id_ "stix1.2.1") as [-> |N2]; [split; [discriminate|auto]|]. destruct (d id_) as [text|]; simpl; split.
  - discriminate.
  - eauto.
  - intros [H|[H|(x & H)]]; congruence.
  - congruence.
Qed.

Definition files_of (d : disk) : string -> list string := fun f => match d f with Some text => lines_of text | None => [] end.

Lemma files_hold d : holds_lines d (files_of d).
Proof. intros f text E. unfold files_of. rewrite E. apply lines_in. Qed.

Lemma list_is d files id_ : holds_lines d files -> list_there d id_ -> list_of d id_ = Some (get_namespace_list files id_).
Proof.
  intros H T. apply there_is in T. unfold list_of, get_namespace_list in *. destruct (String.eqb id_ "stix1.2"); [reflexivity|].
  destruct (String.eqb id_ "stix1.2.1"); [reflexivity|]. destruct (d id_) as [text|] eqn:E; [|contradiction].
  apply H, in_lines_is in E. simpl. rewrite E. reflexivity.
Qed.

Lemma updated_is c d files t : holds_lines d files -> list_there d (n_from c) -> list_there d (n_to c) ->
  updated c d t = match update_ns_main files (n_from c) (n_to c) t with Ok t' => Done t' | Err e => Raised e end.
Proof.
  intros H A B. unfold updated. rewrite (list_is d files _ H A), (list_is d files _ H B). unfold update_ns_main.
  destruct (update_from_lists _ _ t); reflexivity.
Qed.

Lemma updated_not c d t : ~ (list_there d (n_from c) /\ list_there d (n_to c)) -> updated c d t = RefusedError.
Proof.
  intro H. unfold updated. destruct (list_of d (n_from c)) eqn:A; [|reflexivity]. destruct (list_of d (n_to c)) eqn:B; [|reflexivity].
  exfalso. apply H. split; apply there_is; congruence.
Qed.

Lemma renames_plan parse z c d stdin t' : renames parse c d stdin t' -> plan parse z stdin c d = (Status 0, stream (z (n_pretty c) t')).
Proof.
  intros (text & t & files & S & P & A & B & H & E). unfold plan. apply source_is in S. rewrite S, P, (updated_is c d files t H A B), E. reflexivity.
Qed.

Lemma hopeless_plan parse z c d stdin fin : hopeless parse c d stdin fin ->
  fst (plan parse z stdin c d) = fin /\ snd (plan parse z stdin c d) = match fin with Status _ => [Complain Message] | _ => [] end.
Proof.
  unfold plan. intros [N|text S P|text t S P N|text t files e S P A B H E].
  - destruct (source_of c d stdin) as [text|] eqn:Q; [exfalso; apply (N text), source_is, Q|]. split; reflexivity.
  - apply source_is in S. rewrite S, P. split; reflexivity.
  - apply source_is in S. rewrite S, P, (updated_not c d t N). split; reflexivity.
  - apply source_is in S. rewrite S, P, (updated_is c d files t H A B), E. split; reflexivity.
Qed.

Lemma hopeless_not_0 parse c d stdin fin : hopeless parse c d stdin fin -> fin <> Status 0.
Proof. intros []; discriminate. Qed.

Lemma hopeful parse c d stdin : (exists t', renames parse c d stdin t') \/ (exists fin, hopeless parse c d stdin fin).
Proof.
  destruct (source_of c d stdin) as [text|] eqn:S.
  2: { right. eexists. apply hl_source. intros text H. apply source_is in H. congruence. }
  apply source_is in S. destruct (parse text) as [t|] eqn:P; [|right; eexists; eapply hl_parse; eauto].
  destruct (list_of d (n_from c)) as [A|] eqn:EA.
  2: { right. eexists. eapply hl_lists; eauto. intros [H _]. apply there_is in H. congruence. }
  destruct (list_of d (n_to c)) as [B|] eqn:EB.
  2: { right. eexists. eapply hl_lists; eauto. intros [_ H]. apply there_is in H. congruence. }
  assert (TA : list_there d (n_from c)) by (apply there_is; congruence).
  assert (TB : list_there d (n_to c)) by (apply there_is; congruence).
  destruct (update_ns_main (files_of d) (n_from c) (n_to c) t) as [t'|e] eqn:E.
  - left. exists t', text, t, (files_of d). repeat (split; auto). apply files_hold.
  - right. eexists. eapply hl_update; eauto. apply files_hold.
Qed.

Lemma stream_bytes x : flat_map (fun e => match e with Print p => [p] | _ => [] end) (stream x) = bytes x.
Proof. apply stream_pieces. Qed.
Lemma stream_quiet l : flat_map (fun e => match e with Complain x => [x] | _ => [] end) (map (fun b => Print (Byte b)) l) = [].
Proof. induction l; auto. Qed.

Lemma stream_part l x : begins l (stream x) -> exists p, l = stream p /\ begins_text p x.
Proof.
  intro B. apply begins_map in B. destruct B as (l' & -> & B). exists (string_of_list_ascii l'). split; [|apply begins_bytes; exact B].
  unfold stream. rewrite list_ascii_of_string_of_list_ascii. reflexivity.
Qed.

(** ** What can be seen of a run *)

Section Run.
Variables (parse : string -> option tree) (z : bool -> tree -> string) (stdin : string) (c : ns_command) (n : nat -> weather) (d : disk).
Variables (fin : finish) (w : world).
Hypothesis E : ns_tool parse z stdin c n d = (fin, w).

(** The two ways it can go. *)
Lemma ns_cases :
  (exists t', renames parse c d stdin t' /\
     ((fin = Status 0 /\ w_done w = stream (z (n_pretty c) t')) \/
      (disturbed n /\ (fin = UncaughtRefusal \/ fin = Dead) /\ exists p, w_done w = stream p /\ begins_text p (z (n_pretty c) t')) \/
      (disturbed n /\ (exists f, source_file c = Some f) /\ fin = Status 2 /\ w_done w = [Complain Message]))) \/
  (exists fin0, hopeless parse c d stdin fin0 /\
     ((fin = fin0 /\ w_done w = match fin with Status _ => [Complain Message] | _ => [] end) \/
      (disturbed n /\ (fin = UncaughtRefusal \/ fin = Dead) /\ (w_done w = [] \/ w_done w = [Complain Message])) \/
      (disturbed n /\ (exists f, source_file c = Some f) /\ fin = Status 2 /\ w_done w = [Complain Message]))).
Proof.
  destruct (ns_run parse z stdin c n d fin w E) as [_ F]. destruct (hopeful parse c d stdin) as [(t' & R)|(fin0 & H)].
  - left. exists t'. split; [exact R|]. rewrite (renames_plan parse z c d stdin t' R) in F. cbn [fst snd] in F.
    inversion F; subst; auto.
    + right. left. split; [assumption|]. split; [assumption|]. apply stream_part. assumption.
    + right. right. eauto 6.
  - right. exists fin0. split; [exact H|]. destruct (hopeless_plan parse z c d stdin fin0 H) as [P1 P2]. rewrite P1, P2 in F.
    inversion F as [X Y|fin' l D C B X Y|f D S X Y].
    + left. split; reflexivity.
    + right. left. split; [assumption|]. split; [assumption|]. destruct B as (q & B).
      destruct fin0; destruct (w_done w) as [|a l']; auto; try discriminate. simpl in B. injection B as <- B. destruct l'; [auto|discriminate].
    + right. right. eauto 6.
Qed.

Lemma ns_untouched : untouched d (now w).
Proof.
  intro f. unfold now. destruct (ns_run parse z stdin c n d fin w E) as [D _]. rewrite D.
  destruct ns_cases as [(t' & R & [[_ ->]|[(_ & _ & p & -> & _)|(_ & _ & _ & ->)]])|(fin0 & H & [[_ Q]|[(_ & _ & [Q|Q])|(_ & _ & _ & Q)]])];
    try (rewrite Q); try (unfold stream; rewrite printed_disk); try reflexivity.
  destruct fin; reflexivity.
Qed.

Lemma ns_success : fin = Status 0 -> exists t', renames parse c d stdin t' /\ printed w = bytes (z (n_pretty c) t') /\ complained w = [].
Proof.
  intro F. destruct ns_cases as [(t' & R & H)|(fin0 & H & Q)].
  - exists t'. split; [exact R|]. destruct H as [[_ Q]|[(_ & [Q|Q] & _)|(_ & _ & Q & _)]]; try congruence.
    unfold printed, complained. rewrite Q, stream_bytes. split; [reflexivity|apply stream_quiet].
  - exfalso. destruct Q as [[Q _]|[(_ & [Q|Q] & _)|(_ & _ & Q & _)]]; try congruence. apply (hopeless_not_0 _ _ _ _ _ H). congruence.
Qed.

Lemma ns_output : printed w = [] \/ exists t' p, renames parse c d stdin t' /\ printed w = bytes p /\ begins_text p (z (n_pretty c) t').
Proof.
  unfold printed.
  destruct ns_cases as [(t' & R & [[_ Q]|[(_ & _ & p & Q & B)|(_ & _ & _ & Q)]])|(fin0 & H & [[_ Q]|[(_ & _ & [Q|Q])|(_ & _ & _ & Q)]])]; rewrite Q; auto.
  - right. exists t', (z (n_pretty c) t'). rewrite stream_bytes. split; [exact R|]. split; [reflexivity|]. exists "". symmetry. apply app_string_nil.
  - right. exists t', p. rewrite stream_bytes. auto.
  - left. destruct fin; reflexivity.
Qed.

Lemma ns_status : match fin with Status 0 => True | Status 2 => printed w = [] /\ complained w = [Message] /\
                        ((forall text, ~ source c d stdin text) \/ (disturbed n /\ exists f, n_file c = Some f /\ f <> "-"))
                  | Status _ => False
                  | Uncaught e => hopeless parse c d stdin (Uncaught e) /\ printed w = [] /\ complained w = []
                  | UncaughtRefusal => disturbed n \/ (hopeless parse c d stdin UncaughtRefusal /\ printed w = [] /\ complained w = [])
                  | Dead => disturbed n
                  end.
Proof.
  assert (S : forall f, source_file c = Some f -> exists f, n_file c = Some f /\ f <> "-").
  { intros f F. unfold source_file in F. destruct (n_file c) as [g|]; [|discriminate]. destruct (String.eqb_spec g "-"); [discriminate|]. eauto. }
  unfold printed, complained.
  destruct ns_cases as [(t' & R & [[-> Q]|[(D & [-> | ->] & p & Q & B)|(D & (f & F) & -> & Q)]])|(fin0 & H & [[-> Q]|[(D & [-> | ->] & Q)|(D & (f & F) & -> & Q)]])]; auto.
  - rewrite Q. split; [reflexivity|]. split; [reflexivity|]. right. eauto.
  - destruct H as [N|text S' P|text t S' P N|text t files e S' P A B H U]; rewrite Q.
    + split; [reflexivity|]. split; [reflexivity|]. auto.
    + split; [|split; reflexivity]. eapply hl_parse; eauto.
    + right. split; [|split; reflexivity]. eapply hl_lists; eauto.
    + split; [|split; reflexivity]. eapply hl_update; eauto.
  - rewrite Q. split; [reflexivity|]. split; [reflexivity|]. right. eauto.
Qed.
End Run.

Lemma renames_unique parse c d stdin t1 t2 : renames parse c d stdin t1 -> renames parse c d stdin t2 -> t1 = t2.
Proof.
  intros (text & t & files & S & P & A & B & H & E) (text' & t' & files' & S' & P' & A' & B' & H' & E').
  apply source_is in S, S'. assert (text' = text) by congruence. subst text'. assert (t' = t) by congruence. subst t'.
  pose proof (updated_is c d files t H A B) as U. pose proof (updated_is c d files' t H' A' B') as U'. rewrite E in U. rewrite E' in U'. congruence.
Qed.

Lemma renames_not_hopeless parse c d stdin t' fin : renames parse c d stdin t' -> ~ hopeless parse c d stdin fin.
Proof.
  intros R H. pose proof (renames_plan parse (fun _ _ => "") c d stdin t' R) as Q.
  destruct (hopeless_plan parse (fun _ _ => "") c d stdin fin H) as [P _]. rewrite Q in P. cbn in P. exact (hopeless_not_0 _ _ _ _ _ H (eq_sym P)).
Qed.

Lemma clear_undisturbed : ~ disturbed clear.
Proof. intros (i & H). apply H. reflexivity. Qed.

Lemma ns_clear parse z stdin c d fin w : ns_tool parse z stdin c clear d = (fin, w) ->
  (forall t', renames parse c d stdin t' -> fin = Status 0 /\ printed w = bytes (z (n_pretty c) t')) /\
  (forall fin0, hopeless parse c d stdin fin0 -> fin = fin0 /\ printed w = []).
Proof.
  intro E. pose proof clear_undisturbed as N. split.
  - intros t' R. destruct (ns_run _ _ _ _ _ _ _ _ E) as [_ F]. rewrite (renames_plan parse z c d stdin t' R) in F. cbn [fst snd] in F.
    inversion F as [X Y|? ? D|? D]; try contradiction. split; [reflexivity|]. unfold printed. rewrite <- Y. apply stream_bytes.
  - intros fin0 H. destruct (ns_run _ _ _ _ _ _ _ _ E) as [_ F]. destruct (hopeless_plan parse z c d stdin fin0 H) as [P1 P2]. rewrite P1, P2 in F.
    inversion F as [X Y|? ? D|? D]; try contradiction. split; [reflexivity|]. unfold printed. rewrite <- Y. destruct fin; reflexivity.
Qed.

(** ** A run depends only on the files it consults *)

Definition agree (c : ns_command) (d d' : disk) : Prop := forall f, consulted c f -> d' f = d f.

Lemma namespace_list_alike id_ n d d' k s x w s' : (id_ <> "stix1.2" -> id_ <> "stix1.2.1" -> d' id_ = d id_) ->
  p_namespace_list id_ n (World d [] k) s = (x, w, s') ->
  p_namespace_list id_ n (World d' [] k) s = (x, World d' (w_done w) (w_clock w), s').
Proof.
  unfold p_namespace_list. destruct (String.eqb_spec id_ "stix1.2") as [_|N1]; [intros _ H; injection H as <- <- <-; reflexivity|].
  destruct (String.eqb_spec id_ "stix1.2.1") as [_|N2]; [intros _ H; injection H as <- <- <-; reflexivity|]. intro A. specialize (A N1 N2).
  rewrite !p_bind_run. unfold read_file. rewrite !p_bind_run. unfold access. cbn [w_clock]. destruct (n k).
  - unfold now. cbn [w_disk w_done fold_left app]. rewrite A. destruct (d id_); cbn; intro H; injection H as <- <- <-; reflexivity.
  - intro H. injection H as <- <- <-. reflexivity.
  - intro H. injection H as <- <- <-. reflexivity.
Qed.

Lemma each_alike {A} (f : A -> effect) n s d' l : forall w x w' s', p_each (fun b => does (f b)) l n w s = (x, w', s') ->
  p_each (fun b => does (f b)) l n (World d' (w_done w) (w_clock w)) s = (x, World d' (w_done w') (w_clock w'), s').
Proof.
  induction l as [|y l IH]; intros w x w' s'; simpl.
  - intro H. injection H as <- <- <-. reflexivity.
  - rewrite !p_bind_run. unfold does at 1 3, access at 1 2. cbn [w_clock w_disk w_done]. destruct (n (w_clock w)).
    + intro H. exact (IH _ _ _ _ H).
    + intro H. injection H as <- <- <-. reflexivity.
    + intro H. injection H as <- <- <-. reflexivity.
Qed.

Lemma script_alike parse z c text n d d' k s x w s' : agree c d d' -> p_ns_script parse z c text n (World d [] k) s = (x, w, s') ->
  p_ns_script parse z c text n (World d' [] k) s = (x, World d' (w_done w) (w_clock w), s').
Proof.
  intros G. unfold p_ns_script. destruct (parse text) as [t|]; [|intro H; injection H as <- <- <-; reflexivity].
  assert (GA : n_from c <> "stix1.2" -> n_from c <> "stix1.2.1" -> d' (n_from c) = d (n_from c)) by (intros; apply G; right; auto).
  assert (GB : n_to c <> "stix1.2" -> n_to c <> "stix1.2.1" -> d' (n_to c) = d (n_to c)) by (intros; apply G; right; auto).
  rewrite !p_bind_run. unfold p_ns_update. rewrite !p_bind_run.
  destruct (namespace_list_run (n_from c) n d k s) as (x1 & k1 & E1 & _). rewrite E1, (namespace_list_alike _ _ _ _ _ _ _ _ _ GA E1). cbn [w_done w_clock].
  destruct x1 as [A|e| |]; try (intro H; injection H as <- <- <-; reflexivity). rewrite !p_bind_run.
  destruct (namespace_list_run (n_to c) n d k1 s) as (x2 & k2 & E2 & _). rewrite E2, (namespace_list_alike _ _ _ _ _ _ _ _ _ GB E2). cbn [w_done w_clock].
  destruct x2 as [B|e| |]; try (intro H; injection H as <- <- <-; reflexivity).
  destruct (update_from_lists A B t) as [t'|e]; [|intro H; injection H as <- <- <-; reflexivity]. unfold p_ret at 1 3. rewrite !p_bind_run.
  destruct (p_each _ _ n (World d [] k2) s) as [[y w2] s2] eqn:Ey. apply (each_alike (fun b => Print (Byte b)) n s d') in Ey. cbn [w_done w_clock] in Ey. rewrite Ey.
  destruct y; intro H; injection H as <- <- <-; reflexivity.
Qed.

Lemma ns_alike parse z stdin c n d d' fin w : agree c d d' -> ns_tool parse z stdin c n d = (fin, w) ->
  ns_tool parse z stdin c n d' = (fin, World d' (w_done w) (w_clock w)).
Proof.
  intros G. unfold ns_tool, p_ns_main. set (s := St [] 0 0).
  assert (R : forall text k, let '(x, w, s') := p_ns_script parse z c text n (World d [] k) s in
                p_ns_script parse z c text n (World d' [] k) s = (x, World d' (w_done w) (w_clock w), s')).
  { intros text k. destruct (p_ns_script parse z c text n (World d [] k) s) as [[x w1] s1] eqn:Q. eapply script_alike; eauto. }
  destruct (source_file c) as [f|] eqn:F.
  - assert (Gf : d' f = d f).
    { apply G. left. unfold source_file in F. destruct (n_file c) as [g|]; [|discriminate]. destruct (String.eqb_spec g "-"); [discriminate|]. injection F as <-. auto. }
    rewrite !p_bind_run. unfold p_open, access at 1 2. cbn [w_clock]. destruct (n 0).
    + unfold now. cbn [w_disk w_done fold_left app]. rewrite Gf. destruct (d f) as [text|] eqn:Ef.
      * rewrite !p_bind_run. unfold read_file. rewrite !p_bind_run. unfold access. cbn [w_clock]. destruct (n 1).
        -- unfold now. cbn [w_disk w_done fold_left app]. rewrite Gf, Ef. unfold p_ret. specialize (R text 2).
           destruct (p_ns_script parse z c text n (World d [] 2) s) as [[x w1] s1]. rewrite R. intro H. injection H as <- <-. reflexivity.
        -- intro H. injection H as <- <-. reflexivity.
        -- intro H. injection H as <- <-. reflexivity.
      * rewrite !p_bind_run. unfold p_complain, does, access. cbn [w_clock]. destruct (n 1); intro H; injection H as <- <-; reflexivity.
    + rewrite !p_bind_run. unfold p_complain, does, access. cbn [w_clock]. destruct (n 1); intro H; injection H as <- <-; reflexivity.
    + intro H. injection H as <- <-. reflexivity.
  - rewrite !p_bind_run. unfold access. cbn [w_clock]. destruct (n 0).
    + cbn [w_disk w_done app]. specialize (R stdin 1).
      destruct (p_ns_script parse z c stdin n (World d [] 1) s) as [[x w1] s1]. rewrite R. intro H. injection H as <- <-. reflexivity.
    + intro H. injection H as <- <-. reflexivity.
    + intro H. injection H as <- <-. reflexivity.
Qed.

(** ** Every beginning can be all that is printed *)

Definition list_steps (id_ : string) : nat := if String.eqb id_ "stix1.2" then 0 else if String.eqb id_ "stix1.2.1" then 0 else 1.

Lemma namespace_list_until id_ d k j s l : list_of d id_ = Some l -> (j + list_steps id_ <= k)%nat ->
  p_namespace_list id_ (until k) (World d [] j) s = (Done l, World d [] (j + list_steps id_), s).
Proof.
  unfold list_of, list_steps, p_namespace_list. destruct (String.eqb id_ "stix1.2"); [intros H _; injection H as <-; rewrite Nat.add_0_r; reflexivity|].
  destruct (String.eqb id_ "stix1.2.1"); [intros H _; injection H as <-; rewrite Nat.add_0_r; reflexivity|]. intros H L.
  rewrite p_bind_run. unfold read_file. rewrite p_bind_run. unfold access. cbn [w_clock]. rewrite until_fine by lia.
  unfold now. cbn [w_disk w_done fold_left app]. destruct (d id_); [|discriminate]. simpl in H. injection H as <-. cbn. rewrite Nat.add_1_r. reflexivity.
Qed.

Lemma script_until parse z c text t t' d j s p q : parse text = Some t -> updated c d t = Done t' -> z (n_pretty c) t' = (p ++ q)%string -> q <> "" ->
  let k := (j + list_steps (n_from c) + list_steps (n_to c) + List.length (list_ascii_of_string p))%nat in
  exists w, p_ns_script parse z c text (until k) (World d [] j) s = (Killed, w, s) /\ w_done w = stream p.
Proof.
  intros P U Z Nq k. unfold p_ns_script. rewrite P. unfold updated in U. destruct (list_of d (n_from c)) as [A|] eqn:EA; [|discriminate].
  destruct (list_of d (n_to c)) as [B|] eqn:EB; [|discriminate]. rewrite p_bind_run. unfold p_ns_update.
  rewrite p_bind_run, (namespace_list_until _ d k j s A EA) by (unfold k; lia).
  rewrite p_bind_run, (namespace_list_until _ d k _ s B EB) by (unfold k; lia).
  destruct (update_from_lists A B t) as [t1|e]; [|discriminate]. injection U as <-. unfold p_ret at 1. rewrite p_bind_run, Z, list_ascii_app.
  destruct (each_until (fun b => Print (Byte b)) s (list_ascii_of_string p) (list_ascii_of_string q)
             (World d [] (j + list_steps (n_from c) + list_steps (n_to c)))) as (w & D & Dn & R & _).
  cbn [w_clock w_disk w_done app] in *. fold k in R. rewrite R. destruct (list_ascii_of_string q) eqn:Q; [destruct q; [contradiction|discriminate]|].
  exists w. split; [reflexivity|exact Dn].
Qed.

Lemma ns_any_beginning parse z c d stdin t' p : renames parse c d stdin t' -> begins_text p (z (n_pretty c) t') -> p <> z (n_pretty c) t' ->
  exists n w, ns_tool parse z stdin c n d = (Dead, w) /\ printed w = bytes p.
Proof.
  intros (text & t & files & S & P & A & B & H & E) (q & Q) Ne. apply source_is in S. pose proof (updated_is c d files t H A B) as U. rewrite E in U.
  assert (Nq : q <> "") by (intros ->; rewrite app_string_nil in Q; congruence).
  unfold source_of in S. unfold ns_tool, p_ns_main. set (s := St [] 0 0). destruct (source_file c) as [f|].
  - destruct (script_until parse z c text t t' d 2 s p q P U Q Nq) as (w & R & D). revert R. set (k := (2 + _ + _ + _)%nat). intro R. exists (until k), w.
    rewrite p_bind_run. unfold p_open, access at 1. cbn [w_clock]. rewrite until_fine by (unfold k; lia).
    unfold now. cbn [w_disk w_done fold_left app]. rewrite S. rewrite p_bind_run. unfold read_file. rewrite p_bind_run. unfold access. cbn [w_clock].
    rewrite until_fine by (unfold k; lia). unfold now. cbn [w_disk w_done fold_left app]. rewrite S. unfold p_ret at 1. rewrite R.
    split; [reflexivity|]. unfold printed. rewrite D. apply stream_bytes.
  - injection S as <-. destruct (script_until parse z c stdin t t' d 1 s p q P U Q Nq) as (w & R & D). revert R. set (k := (1 + _ + _ + _)%nat). intro R. exists (until k), w.
    rewrite p_bind_run. unfold access. cbn [w_clock]. rewrite until_fine by (unfold k; lia). cbn [w_disk w_done app]. rewrite R.
    split; [reflexivity|]. unfold printed. rewrite D. apply stream_bytes.
Qed.
