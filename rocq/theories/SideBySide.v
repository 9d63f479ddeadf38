(** * Proofs: several runs at the same time. *)

From Coq Require Import String Ascii List Bool Arith Lia.
From Verif Require Import Str Xml XPath Utils Base Tables UpdateNs Cybox Stix Ramrod Cli Spec SpecCli Disk SpecDisk Disks DiskNs SpecDiskNs Jobs SpecJobs.
Import ListNotations.
Local Open Scope string_scope.
Local Open Scope list_scope.

(** ** The trees of accesses are the programs *)

Fixpoint meaning {R} (a : act R) (n : nat -> weather) (w : world) : option R * world :=
  match a with
  | Stop r => (Some r, w)
  | Call l ok no =>
      match n (w_clock w) with
      | Fine => meaning (ok (now w)) n (World (w_disk w) (w_done w ++ l) (S (w_clock w)))
      | Refused => meaning no n (World (w_disk w) (w_done w) (S (w_clock w)))
      | Struck => (None, World (w_disk w) (w_done w) (S (w_clock w)))
      end
  end.

Lemma meaning_after {R S} (a : act R) (k : R -> act S) n : forall w,
  meaning (after a k) n w = match meaning a n w with (Some r, w') => meaning (k r) n w' | (None, w') => (None, w') end.
Proof.
  induction a as [r|l ok IHok no IHno]; intro w; [reflexivity|]. cbn [after meaning].
  destruct (n (w_clock w)); [apply IHok|apply IHno|reflexivity].
Qed.

Definition agrees {A} (p : proc A) (j : job A) : Prop := forall n w s,
  let '(x, w', s') := p n w s in
  meaning (j s) n w = (match x with Killed => None | _ => Some (x, s') end, w').

Lemma ag_ret {A} (x : A) : agrees (p_ret x) (j_ret x).
Proof. intros n w s. reflexivity. Qed.
Lemma ag_raise {A} e : agrees (@p_raise A e) (j_raise e).
Proof. intros n w s. reflexivity. Qed.
Lemma ag_refused {A} : agrees (fun _ w s => (@RefusedError A, w, s)) j_refused.
Proof. intros n w s. reflexivity. Qed.
Lemma ag_run {A} (m : M A) : agrees (p_run m) (j_run m).
Proof. intros n w s. unfold p_run, j_run. destruct (m s) as [[x|e] s']; reflexivity. Qed.
Lemma ag_access {A} (r : outcome A) l v : r <> Killed -> agrees (access r l v) (j_access r l v).
Proof.
  intros N n w s. unfold access, j_access. cbn [meaning]. destruct (n (w_clock w)); cbn [meaning]; [reflexivity| |reflexivity].
  destruct r; [reflexivity..|congruence].
Qed.
Lemma ag_bind {A B} (p : proc A) (k : A -> proc B) (j : job A) (h : A -> job B) : agrees p j -> (forall x, agrees (k x) (h x)) ->
  agrees (p_bind p k) (j_bind j h).
Proof.
  intros H K n w s. unfold p_bind, j_bind. rewrite meaning_after. specialize (H n w s). destruct (p n w s) as [[x w'] s'].
  rewrite H. destruct x; [apply K|reflexivity..].
Qed.
Lemma ag_each {A} (f : A -> proc unit) (g : A -> job unit) l : (forall x, agrees (f x) (g x)) -> agrees (p_each f l) (j_each g l).
Proof. intro H. induction l as [|x l IH]; [apply ag_ret|]. cbn. apply ag_bind; auto. Qed.

Local Hint Resolve ag_ret ag_raise ag_refused ag_run : ag.

Lemma ag_does e : agrees (does e) (j_does e).
Proof. apply ag_access. discriminate. Qed.
Lemma ag_close : agrees close_file j_close.
Proof. apply ag_access. discriminate. Qed.
Lemma ag_exists f : agrees (path_exists f) (j_exists f).
Proof. apply ag_access. discriminate. Qed.
Lemma ag_read f : agrees (read_file f) (j_read f).
Proof. apply ag_bind; [apply ag_access; discriminate|]. intros [x|]; auto with ag. Qed.
Local Hint Resolve ag_does ag_close ag_exists ag_read : ag.

Ltac ag := repeat first [solve [auto with ag] | apply ag_bind; [|intro] | apply ag_each; intro].

Lemma ag_write z root f : agrees (p_write_xml z root f) (j_write_xml z root f).
Proof. unfold p_write_xml, j_write_xml. ag. destruct f as [[|a f]|]; ag. Qed.
Lemma ag_removed l : agrees (p_write_removed l) (j_write_removed l).
Proof. destruct l; unfold p_write_removed, j_write_removed, p_say, j_say; ag. Qed.
Lemma ag_remapped l : agrees (p_write_remapped l) (j_write_remapped l).
Proof. destruct l; unfold p_write_remapped, j_write_remapped, p_say, j_say; ag. Qed.
Lemma ag_update_error a b : agrees (p_print_update_error a b) (j_print_update_error a b).
Proof.
  unfold p_print_update_error, j_print_update_error, p_complain, j_complain, p_say, j_say. apply ag_bind; auto with ag. intros _.
  apply ag_bind; [destruct a as [[|i l]|]; ag|]. intros _. destruct b as [[|kv d]|]; ag.
Qed.
Lemma ag_invalid a b c : agrees (p_print_invalid_version_error a b c) (j_print_invalid_version_error a b c).
Proof.
  unfold p_print_invalid_version_error, j_print_invalid_version_error, p_complain, j_complain.
  assert (X : forall f x, agrees (p_complain_if f x) (j_complain_if f x)).
  { intros f [[|ch v]|]; unfold p_complain_if, j_complain_if, p_complain, j_complain; ag. }
  apply ag_bind; auto with ag. intros _. apply ag_bind; [destruct a as [i|]; ag; destruct (kids (snd x)); ag|]. intros _. ag; apply X.
Qed.
Local Hint Resolve ag_write ag_removed ag_remapped ag_update_error ag_invalid : ag.

Lemma ag_handler e : agrees (p_main_handler e) (j_main_handler e).
Proof. destruct e; unfold p_main_handler, j_main_handler, p_print_unknown_version_error, p_complain, j_complain; ag. Qed.
Lemma ag_body parse z o c : agrees (p_main_body parse z o c) (j_main_body parse z o c).
Proof. unfold p_main_body, j_main_body, p_validate_args, j_validate_args. ag. destruct x; ag. Qed.
Lemma ag_main parse z o c : agrees (p_main parse z o c) (j_main parse z o c).
Proof.
  intros n w s. unfold p_main, j_main. rewrite meaning_after. pose proof (ag_body parse z o c n w s) as H.
  destruct (p_main_body parse z o c n w s) as [[x w'] s']. rewrite H. destruct x as [u|e| |]; [reflexivity| |reflexivity..]. apply ag_handler.
Qed.

Lemma ag_list id_ : agrees (p_namespace_list id_) (j_namespace_list id_).
Proof. unfold p_namespace_list, j_namespace_list. destruct (String.eqb id_ "stix1.2"); [ag|]. destruct (String.eqb id_ "stix1.2.1"); ag. Qed.
Lemma ag_script parse z c text : agrees (p_ns_script parse z c text) (j_ns_script parse z c text).
Proof.
  unfold p_ns_script, j_ns_script. destruct (parse text) as [t|]; [|ag]. apply ag_bind; [|intro; ag].
  unfold p_ns_update, j_ns_update. apply ag_bind; [apply ag_list|]. intro l1. apply ag_bind; [apply ag_list|]. intro l2. destruct (update_from_lists l1 l2 t); ag.
Qed.
Lemma ag_ns parse z stdin c : agrees (p_ns_main parse z stdin c) (j_ns_main parse z stdin c).
Proof.
  unfold p_ns_main, j_ns_main, p_complain, j_complain. destruct (source_file c) as [f|].
  - apply ag_bind; [apply ag_exists|]. intros []; ag. intros. apply ag_script.
  - apply ag_bind; [apply ag_access; discriminate|]. intro. apply ag_script.
Qed.

Definition solely (a : act finish) (n : nat -> weather) (w : world) : finish * world :=
  match meaning a n w with (Some f, w') => (f, w') | (None, w') => (Dead, w') end.

Lemma agrees_ends (p : proc finish) (j : job finish) n w s : agrees p j ->
  solely (after (j s) ends) n w = let '(x, w', _) := p n w s in (ended x, w').
Proof.
  intro H. unfold solely. rewrite meaning_after. specialize (H n w s). destruct (p n w s) as [[x w'] s']. rewrite H. destruct x; reflexivity.
Qed.

Lemma alone_is c n d : alone c n d = solely (p_left (started c)) n (World d [] 0).
Proof.
  destruct c as [parse z o c s|parse z stdin c]; cbn [started alone start_tool start_ns p_left].
  - unfold tool. rewrite (agrees_ends (p_main parse z o c) (j_main parse z o c)) by apply ag_main. reflexivity.
  - unfold ns_tool. rewrite (agrees_ends (p_ns_main parse z stdin c) (j_ns_main parse z stdin c)) by apply ag_ns. reflexivity.
Qed.

(** ** What a process looks at and touches *)

Definition touches (e : effect) (f : string) : Prop :=
  match e with Create g => g = f | Append g _ => g = f | _ => False end.

Inductive within {X} (R W : string -> Prop) : act X -> Prop :=
| wi_stop r : within R W (Stop r)
| wi_call l ok no : (forall e f, In e l -> touches e f -> W f) -> (forall d d', (forall f, R f -> d f = d' f) -> ok d = ok d') ->
    (forall d, within R W (ok d)) -> within R W no -> within R W (Call l ok no).

Lemma within_after {X Y} R W (a : act X) (k : X -> act Y) : within R W a -> (forall x, within R W (k x)) -> within R W (after a k).
Proof.
  intros H K. induction H as [r|l ok no A B C IHC D IHD]; [apply K|]. cbn [after]. constructor; auto.
  intros d d' E. rewrite (B d d' E). reflexivity.
Qed.

Section Tools.
Variables R W : string -> Prop.
Definition keeps {A} (j : job A) : Prop := forall s, within R W (j s).

Lemma ke_ret {A} (x : A) : keeps (j_ret x).
Proof. intro s. constructor. Qed.
Lemma ke_raise {A} e : keeps (@j_raise A e).
Proof. intro s. constructor. Qed.
Lemma ke_refused {A} : keeps (@j_refused A).
Proof. intro s. constructor. Qed.
Lemma ke_run {A} (m : M A) : keeps (j_run m).
Proof. intro s. unfold j_run. destruct (m s) as [[x|e] s']; constructor. Qed.
Lemma ke_bind {A B} (j : job A) (k : A -> job B) : keeps j -> (forall x, keeps (k x)) -> keeps (j_bind j k).
Proof. intros H K s. apply within_after; [apply H|]. intros [[x|e| |] s']; try constructor. apply K. Qed.
Lemma ke_each {A} (f : A -> job unit) l : (forall x, keeps (f x)) -> keeps (j_each f l).
Proof. intro H. induction l as [|x l IH]; [apply ke_ret|]. apply ke_bind; auto. Qed.
Lemma ke_access {A} (r : outcome A) l v : (forall e f, In e l -> touches e f -> W f) -> (forall d d', (forall f, R f -> d f = d' f) -> v d = v d') ->
  keeps (j_access r l v).
Proof. intros H V s. constructor; auto; [|intro; constructor|constructor]. intros d d' E. rewrite (V d d' E). reflexivity. Qed.
Lemma ke_does e : (forall f, touches e f -> W f) -> keeps (j_does e).
Proof. intro H. apply ke_access; auto. intros e' f [<-|[]]. apply H. Qed.
Lemma ke_speak e : (forall f, ~ touches e f) -> keeps (j_does e).
Proof. intro H. apply ke_does. intros f Hf. destruct (H f Hf). Qed.
Lemma ke_print p : keeps (j_does (Print p)).
Proof. apply ke_speak. intros f []. Qed.
Lemma ke_complain l : keeps (j_complain l).
Proof. apply ke_speak. intros f []. Qed.
Lemma ke_close : keeps j_close.
Proof. apply ke_access; auto. intros e f []. Qed.
Lemma ke_exists f : R f -> keeps (j_exists f).
Proof. intro H. apply ke_access; [intros e g []|]. intros d d' E. rewrite (E f H). reflexivity. Qed.
Lemma ke_read f : R f -> keeps (j_read f).
Proof.
  intro H. apply ke_bind; [apply ke_access; [intros e g []|intros d d' E; exact (E f H)]|]. intros [x|]; [apply ke_ret|apply ke_refused].
Qed.
End Tools.

Local Hint Resolve ke_ret ke_raise ke_refused ke_run ke_print ke_complain ke_close : ke.
Ltac ke := repeat first [solve [auto with ke] | apply ke_bind; [|intro] | apply ke_each; intro].

Lemma ke_update_error R W a b : keeps R W (j_print_update_error a b).
Proof.
  unfold j_print_update_error, j_say. apply ke_bind; [apply ke_complain|]. intros _.
  apply ke_bind; [destruct a as [[|i l]|]; ke|]. intros _. destruct b as [[|kv d]|]; ke.
Qed.
Lemma ke_invalid R W a b c : keeps R W (j_print_invalid_version_error a b c).
Proof.
  assert (X : forall f x, keeps R W (j_complain_if f x)) by (intros f [[|ch v]|]; unfold j_complain_if; ke).
  unfold j_print_invalid_version_error. apply ke_bind; [apply ke_complain|]. intros _.
  apply ke_bind; [|intros _; apply ke_bind; [apply X|intros _; apply X]].
  destruct a as [i|]; [|ke]. apply ke_bind; [apply ke_run|]. intro x. destruct (kids (snd x)); ke.
Qed.

Lemma ke_main parse z o c s : within (fun f => c_infile c = f) (fun f => given (c_outfile c) = Some f) (j_main parse z o c s).
Proof.
  set (R := fun f => _). set (W := fun f => given _ = _).
  apply within_after.
  - change (keeps R W (j_main_body parse z o c)) in s || revert s.
    change (keeps R W (j_main_body parse z o c)). unfold j_main_body, j_validate_args.
    apply ke_bind; [apply ke_bind; [apply ke_exists; reflexivity|intros []; ke]|]. intros _.
    apply ke_bind; [apply ke_read; reflexivity|]. intro text. cbv zeta. apply ke_bind; [ke|]. intro u.
    apply ke_bind.
    { unfold j_write_xml. apply ke_bind; [ke|]. intro x. cbv zeta. destruct (c_outfile c) as [[|a f]|] eqn:E; [ke| |ke].
      assert (Q : forall g, String a f = g -> W g) by (intros g <-; unfold W; rewrite ?E; reflexivity).
      apply ke_bind; [apply ke_does; exact Q|]. intros _. apply ke_bind; [apply ke_each; intro b; apply ke_does; exact Q|]. intros _. ke. }
    intros _. apply ke_bind.
    + unfold j_write_removed, j_say. destruct (coll_items (r_removed u)); ke.
    + intros _. unfold j_write_remapped, j_say. destruct (coll_dict (r_remapped u)); ke.
  - intros [[u|e| |] s1]; try constructor. revert s1. change (keeps R W (j_main_handler e)).
    destruct e; unfold j_main_handler; try apply ke_ret; apply ke_bind; auto using ke_update_error, ke_invalid with ke.
Qed.

Lemma ke_ns parse z stdin c s : within (consulted c) (fun _ => False) (j_ns_main parse z stdin c s).
Proof.
  revert s. change (keeps (consulted c) (fun _ => False) (j_ns_main parse z stdin c)). unfold j_ns_main.
  assert (L : forall id_, n_from c = id_ \/ n_to c = id_ -> keeps (consulted c) (fun _ => False) (j_namespace_list id_)).
  { intros id_ H. unfold j_namespace_list. destruct (String.eqb_spec id_ "stix1.2"); [ke|]. destruct (String.eqb_spec id_ "stix1.2.1"); [ke|].
    apply ke_bind; [apply ke_read; right; auto|]. intro. ke. }
  assert (S : forall text, keeps (consulted c) (fun _ => False) (j_ns_script parse z c text)).
  { intro text. unfold j_ns_script. destruct (parse text) as [t|]; [|ke]. apply ke_bind; [|intro; ke].
    unfold j_ns_update. apply ke_bind; [apply L; auto|]. intro l1. apply ke_bind; [apply L; auto|]. intro l2. destruct (update_from_lists l1 l2 t); ke. }
  destruct (source_file c) as [f|] eqn:F.
  - assert (Q : consulted c f).
    { unfold source_file in F. destruct (n_file c) as [g|] eqn:G; [|discriminate]. destruct (String.eqb_spec g "-"); [discriminate|]. injection F as <-. left. auto. }
    apply ke_bind; [apply ke_exists; exact Q|]. intros []; [|ke]. apply ke_bind; [apply ke_read; exact Q|exact S].
  - apply ke_bind; [apply ke_access; [intros e g []|reflexivity]|exact S].
Qed.

Lemma started_within c : within (reads c) (writes c) (p_left (started c)).
Proof.
  destruct c as [parse z o c s|parse z stdin c]; cbn [started start_tool start_ns p_left]; (apply within_after; [|intro; constructor]).
  - apply ke_main.
  - apply ke_ns.
Qed.

Lemma started_done c : p_done (started c) = [].
Proof. destruct c; reflexivity. Qed.

(** ** One process by itself, access by access *)

Definition solo_step (d : disk) (p : process) (n : weather) : process :=
  match p_left p with
  | Stop _ => p
  | Call l ok no =>
      match n with
      | Fine => Process (ok (fold_left apply (p_done p) d)) (p_done p ++ l)
      | Refused => Process no (p_done p)
      | Struck => Process (Stop Dead) (p_done p)
      end
  end.
Definition solo (d : disk) (ws : list weather) (p : process) : process := fold_left (solo_step d) ws p.

Lemma solo_stop d ws f l : solo d ws (Process (Stop f) l) = Process (Stop f) l.
Proof. induction ws; auto. Qed.

Lemma solo_finished d n : forall ws a done k f done', (forall j, (j < List.length ws)%nat -> n (k + j)%nat = nth j ws Struck) ->
  solo d ws (Process a done) = Process (Stop f) done' -> exists k', solely a n (World d done k) = (f, World d done' k').
Proof.
  unfold solely. induction ws as [|x ws IH]; intros a done k f done' H E.
  - cbn in E. injection E as -> ->. exists k. reflexivity.
  - destruct a as [r|l ok no].
    + rewrite (solo_stop d (x :: ws)) in E. injection E as -> ->. exists k. reflexivity.
    + cbn [solo fold_left] in E. unfold solo_step at 2 in E. cbn [p_left p_done] in E. cbn [meaning w_clock w_disk w_done].
      pose proof (H 0%nat ltac:(cbn; lia)) as H0. rewrite Nat.add_0_r in H0. cbn [nth] in H0. rewrite H0.
      assert (H' : forall j, (j < List.length ws)%nat -> n (S k + j)%nat = nth j ws Struck).
      { intros j Hj. specialize (H (S j) ltac:(cbn; lia)). cbn [nth] in H. rewrite <- H. f_equal. lia. }
      destruct x.
      * apply (IH _ _ (S k) f done' H' E).
      * apply (IH _ _ (S k) f done' H' E).
      * fold (solo d ws (Process (Stop Dead) done)) in E. rewrite solo_stop in E. injection E as <- <-. exists (S k). reflexivity.
Qed.

Lemma solo_unfinished d n : forall ws a done k done' l ok no, (forall j, (j <= List.length ws)%nat -> n (k + j)%nat = nth j ws Struck) ->
  solo d ws (Process a done) = Process (Call l ok no) done' -> exists k', solely a n (World d done k) = (Dead, World d done' k').
Proof.
  unfold solely. induction ws as [|x ws IH]; intros a done k done' l ok no H E.
  - cbn in E. injection E as -> ->. cbn [meaning w_clock w_disk w_done]. pose proof (H 0%nat ltac:(cbn; lia)) as H0. rewrite Nat.add_0_r in H0. rewrite H0. cbn. eauto.
  - destruct a as [r|l0 ok0 no0]; [rewrite (solo_stop d (x :: ws)) in E; discriminate|].
    cbn [solo fold_left] in E. unfold solo_step at 2 in E. cbn [p_left p_done] in E. cbn [meaning w_clock w_disk w_done].
    pose proof (H 0%nat ltac:(cbn; lia)) as H0. rewrite Nat.add_0_r in H0. cbn [nth] in H0. rewrite H0.
    assert (H' : forall j, (j <= List.length ws)%nat -> n (S k + j)%nat = nth j ws Struck).
    { intros j Hj. specialize (H (S j) ltac:(cbn; lia)). cbn [nth] in H. rewrite <- H. f_equal. lia. }
    destruct x.
    + apply (IH _ _ (S k) done' l ok no H' E).
    + apply (IH _ _ (S k) done' l ok no H' E).
    + fold (solo d ws (Process (Stop Dead) done)) in E. rewrite solo_stop in E. discriminate.
Qed.

(** ** Among others *)

Lemma touch_other e d f : ~ touches e f -> apply d e f = d f.
Proof.
  intro H. destruct e as [g|g c|p|l]; cbn in *; auto; unfold store; destruct (String.eqb_spec f g) as [E|E]; auto; exfalso; apply H; auto.
Qed.
Lemma touch_others l : forall d f, (forall e, In e l -> ~ touches e f) -> fold_left apply l d f = d f.
Proof.
  induction l as [|e l IH]; intros d f H; [reflexivity|]. cbn [fold_left]. rewrite IH by (intros; apply H; right; auto).
  apply touch_other. apply H. left. auto.
Qed.

Lemma nth_put {A} (x : A) : forall l i j, nth_error (put i x l) j = if Nat.eqb i j then match nth_error l j with Some _ => Some x | None => None end else nth_error l j.
Proof.
  induction l as [|y l IH]; intros i j.
  - destruct i; destruct j; cbn; auto; destruct (Nat.eqb i j); reflexivity.
  - destruct i as [|i]; destruct j as [|j]; cbn; auto. 
Qed.

Lemma put_length {A} (x : A) : forall l i, List.length (put i x l) = List.length l.
Proof. induction l as [|y l IH]; intros [|i]; cbn; auto. Qed.

Section Machine.
Variables (d : disk) (cs : list call) (A : weather -> Prop).

(** Call [i] in machine [m]: as alone so far, with files as alone. *)
Record as_alone (i : nat) (m : machine) : Prop := {
  aa_run : forall c, nth_error cs i = Some c -> exists p ws, nth_error (m_procs m) i = Some p /\ p = solo d ws (started c) /\ Forall A ws /\
    (forall f, reads c f \/ writes c f -> m_disk m f = fold_left apply (p_done p) d f)
}.

Definition in_bounds (m : machine) : Prop :=
  List.length (m_procs m) = List.length cs /\
  forall j c p, nth_error cs j = Some c -> nth_error (m_procs m) j = Some p -> within (reads c) (writes c) (p_left p).

Lemma bounds_step i n m : in_bounds m -> in_bounds (advance i n m).
Proof.
  intros [L H]. unfold advance. destruct (nth_error (m_procs m) i) as [[a done]|] eqn:E; [|split; auto]. destruct a as [r|l ok no]; [split; auto|].
  assert (G : forall x dk, (forall c, nth_error cs i = Some c -> within (reads c) (writes c) (p_left x)) -> in_bounds (Machine dk (put i x (m_procs m)))).
  { intros x dk Hx. split; [cbn; rewrite put_length; auto|]. intros j c p Hc Hp. cbn in Hp. rewrite nth_put in Hp.
    destruct (Nat.eqb_spec i j) as [K|K]; [|eauto]. destruct (nth_error (m_procs m) j); [|discriminate]. injection Hp as <-. apply Hx. congruence. }
  destruct n; apply G; intros c Hc; pose proof (H i c _ Hc E) as V; cbn in *; inversion V; subst; auto; constructor.
Qed.

Lemma alone_step i j n m : A n -> unshared cs i -> in_bounds m -> as_alone i m -> as_alone i (advance j n m).
Proof.
  intros An U [L H] [AA]. constructor. intros c Hc. destruct (AA c Hc) as (p & ws & Hp & Ep & Fw & F). unfold advance.
  destruct (nth_error (m_procs m) j) as [[a done]|] eqn:E; [|exists p, ws; auto]. destruct a as [r|l ok no]; [exists p, ws; auto|].
  destruct (Nat.eq_dec j i) as [K|K].
  - rewrite K in *. rewrite Hp in E. injection E as E. rewrite E in *. pose proof (H i c _ Hc Hp) as V. cbn [p_left p_done] in *. inversion V as [|? ? ? V1 V2 V3 V4]; subst.
    assert (Es : forall x, solo_step d (Process (Call l ok no) done) x = solo d (ws ++ [x]) (started c)).
    { intro x. unfold solo. rewrite fold_left_app. cbn [fold_left]. unfold solo in Ep. rewrite <- Ep. reflexivity. }
    assert (Fx : forall x, A x -> Forall A (ws ++ [x])) by (intros x Hx; apply Forall_app; split; auto).
    destruct n; cbn [m_procs m_disk].
    + exists (Process (ok (m_disk m)) (done ++ l)), (ws ++ [Fine]). split; [rewrite nth_put, Nat.eqb_refl, Hp; reflexivity|]. split.
      * rewrite <- Es. unfold solo_step. cbn [p_left p_done]. f_equal. apply V2. intros f Hf. apply F. auto.
      * split; [apply Fx; exact An|]. intros f Hf. cbn [p_done]. rewrite fold_left_app. apply apply_alike. apply F. exact Hf.
    + exists (Process no done), (ws ++ [Refused]). split; [rewrite nth_put, Nat.eqb_refl, Hp; reflexivity|]. split; [rewrite <- Es; reflexivity|]. split; [apply Fx; exact An|exact F].
    + exists (Process (Stop Dead) done), (ws ++ [Struck]). split; [rewrite nth_put, Nat.eqb_refl, Hp; reflexivity|]. split; [rewrite <- Es; reflexivity|]. split; [apply Fx; exact An|exact F].
  - assert (Hj : nth_error (put j p (m_procs m)) i = nth_error (m_procs m) i) by (rewrite nth_put; destruct (Nat.eqb_spec j i); [contradiction|reflexivity]).
    assert (Hq : forall q, nth_error (put j q (m_procs m)) i = Some p) by (intro q; rewrite nth_put; destruct (Nat.eqb_spec j i); [contradiction|exact Hp]).
    destruct n; cbn [m_procs m_disk]; exists p, ws; (split; [apply Hq|split; [exact Ep|split; [exact Fw|]]]); auto.
    intros f Hf. rewrite touch_others; [apply F; exact Hf|]. intros e He T.
    destruct (nth_error cs j) as [c'|] eqn:Ec.
    + pose proof (H j c' _ Ec E) as V. cbn in V. inversion V as [|? ? ? V1 V2 V3 V4]; subst.
      destruct (U c j c' f Hc Ec K (V1 e f He T)) as [N1 N2]. destruct Hf; contradiction.
    + apply nth_error_None in Ec. assert (nth_error (m_procs m) j <> None) by congruence. apply nth_error_Some in H0. lia.
Qed.

Lemma alone_play i schedule : (forall c, In c schedule -> A (snd c)) -> unshared cs i -> in_bounds (play schedule (machine_of d cs)) /\ as_alone i (play schedule (machine_of d cs)).
Proof.
  intros HA U. unfold play.
  assert (S0 : in_bounds (machine_of d cs) /\ as_alone i (machine_of d cs)).
  { split.
    - split; [cbn; apply map_length|]. intros j c p Hc Hp. cbn in Hp. rewrite nth_error_map, Hc in Hp. injection Hp as <-. apply started_within.
    - constructor. intros c Hc. exists (started c), []. cbn. rewrite nth_error_map, Hc. rewrite started_done. repeat split; auto. }
  revert S0. generalize (machine_of d cs) as m. induction schedule as [|[j n] l IH]; intros m [B Q]; [split; auto|]. cbn [fold_left fst snd].
  apply IH; [intros; apply HA; right; auto|]. split; [apply bounds_step; auto|]. apply alone_step; auto. apply (HA (j, n)). left. auto.
Qed.
End Machine.

Lemma side_by_side d cs schedule i c : nth_error cs i = Some c -> unshared cs i ->
  exists p n fin w, nth_error (m_procs (after_all d cs schedule)) i = Some p /\ alone c n d = (fin, w) /\
    p_done p = w_done w /\ w_disk w = d /\ (finished p fin \/ unfinished p /\ fin = Dead) /\
    forall f, reads c f \/ writes c f -> m_disk (after_all d cs schedule) f = now w f.
Proof.
  intros Hc U. destruct (alone_play d cs (fun _ => True) i schedule (fun _ _ => I) U) as [_ [A]]. destruct (A c Hc) as (p & ws & Hp & Ep & _ & F).
  assert (Sc : started c = Process (p_left (started c)) []) by (rewrite <- (started_done c); destruct (started c); reflexivity).
  rewrite Sc in Ep. set (n := fun j => nth j ws Struck).
  exists p, n. rewrite alone_is. destruct p as [[f|l ok no] done] eqn:P.
  - symmetry in Ep. destruct (solo_finished d n ws _ _ 0 f done (fun j _ => eq_refl) Ep) as (k' & E). exists f, (World d done k').
    split; [exact Hp|]. split; [exact E|]. split; [reflexivity|]. split; [reflexivity|]. split; [left; reflexivity|exact F].
  - symmetry in Ep. destruct (solo_unfinished d n ws _ _ 0 done l ok no (fun j _ => eq_refl) Ep) as (k' & E). exists Dead, (World d done k').
    split; [exact Hp|]. split; [exact E|]. split; [reflexivity|]. split; [reflexivity|]. split; [right; split; [intros fin; discriminate|reflexivity]|exact F].
Qed.

Lemma side_by_side_clear d cs schedule i c p fin : nth_error cs i = Some c -> unshared cs i -> all_fine schedule ->
  nth_error (m_procs (after_all d cs schedule)) i = Some p -> finished p fin ->
  exists w, alone c clear d = (fin, w) /\ p_done p = w_done w /\ w_disk w = d /\
    forall f, reads c f \/ writes c f -> m_disk (after_all d cs schedule) f = now w f.
Proof.
  intros Hc U Fi Hp Hf. destruct (alone_play d cs (eq Fine) i schedule (fun x Hx => eq_sym (Fi x Hx)) U) as [_ [A]]. destruct (A c Hc) as (p' & ws & Hp' & Ep & Fw & F).
  unfold after_all in Hp. rewrite Hp in Hp'. injection Hp' as <-.
  assert (Sc : started c = Process (p_left (started c)) []) by (rewrite <- (started_done c); destruct (started c); reflexivity).
  rewrite Sc in Ep. rewrite alone_is. destruct p as [a done]. unfold finished in Hf. cbn [p_left] in Hf. subst a. symmetry in Ep.
  assert (N : forall j, (j < List.length ws)%nat -> clear (0 + j)%nat = nth j ws Struck).
  { intros j Hj. unfold clear. rewrite Forall_forall in Fw. apply Fw. apply nth_In. exact Hj. }
  destruct (solo_finished d clear ws _ _ 0 fin done N Ep) as (k' & E). exists (World d done k'). repeat (split; [auto|]). exact F.
Qed.

(** ** Files that nobody writes *)

Lemma bounds_play d cs schedule : in_bounds cs (after_all d cs schedule).
Proof.
  unfold after_all, play.
  assert (S0 : in_bounds cs (machine_of d cs)).
  { split; [cbn; apply map_length|]. intros j c p Hc Hp. cbn in Hp. rewrite nth_error_map, Hc in Hp. injection Hp as <-. apply started_within. }
  revert S0. generalize (machine_of d cs) as m. induction schedule as [|[j n] l IH]; intros m B; [auto|]. apply IH. apply bounds_step. exact B.
Qed.

Lemma play_snoc schedule x m : play (schedule ++ [x]) m = advance (fst x) (snd x) (play schedule m).
Proof. unfold play. rewrite fold_left_app. reflexivity. Qed.

Lemma nobody d cs schedule f : (forall c, In c cs -> ~ writes c f) -> m_disk (after_all d cs schedule) f = d f.
Proof.
  intro N. induction schedule as [|[j n] l IH] using rev_ind; [reflexivity|]. unfold after_all in *. rewrite play_snoc. cbn [fst snd].
  pose proof (bounds_play d cs l) as [L H]. unfold after_all in L, H. set (m := play l (machine_of d cs)) in *. unfold advance.
  destruct (nth_error (m_procs m) j) as [[a done]|] eqn:E; [|exact IH]. destruct a as [r|ef ok no]; [exact IH|]. destruct n; cbn [m_disk]; [|exact IH..].
  rewrite touch_others; [exact IH|]. intros e He T. destruct (nth_error cs j) as [c|] eqn:Ec.
  - pose proof (H j c _ Ec E) as V. cbn in V. inversion V as [|? ? ? V1 V2 V3 V4]; subst. apply (N c (nth_error_In _ _ Ec)). apply (V1 e f He T).
  - apply nth_error_None in Ec. assert (Q : nth_error (m_procs m) j <> None) by congruence. apply nth_error_Some in Q. lia.
Qed.

(** ** The order does not matter *)

Lemma writes_dec c f : {writes c f} + {~ writes c f}.
Proof.
  destruct c as [parse z o c s|parse z stdin c]; cbn; [|right; auto]. destruct (given (c_outfile c)) as [g|]; [|right; discriminate].
  destruct (string_dec g f) as [->|N]; [left; reflexivity|right; congruence].
Qed.

Lemma writer cs f : (exists i c, nth_error cs i = Some c /\ writes c f) \/ forall c, In c cs -> ~ writes c f.
Proof.
  induction cs as [|c cs IH]; [right; intros c []|]. destruct (writes_dec c f) as [Y|N]; [left; exists 0, c; auto|].
  destruct IH as [(i & c' & H & Y)|H]; [left; exists (S i), c'; auto|]. right. intros c' [<-|H']; auto.
Qed.

Lemma any_order d cs schedule schedule' : (forall i, unshared cs i) -> all_fine schedule -> all_fine schedule' ->
  (forall p, In p (m_procs (after_all d cs schedule)) -> exists fin, finished p fin) ->
  (forall p, In p (m_procs (after_all d cs schedule')) -> exists fin, finished p fin) ->
  m_procs (after_all d cs schedule) = m_procs (after_all d cs schedule') /\ untouched (m_disk (after_all d cs schedule)) (m_disk (after_all d cs schedule')).
Proof.
  intros U F F' A A'. set (m := after_all d cs schedule) in *. set (m' := after_all d cs schedule') in *.
  pose proof (bounds_play d cs schedule) as [L _]. pose proof (bounds_play d cs schedule') as [L' _]. fold m in L. fold m' in L'.
  assert (G : forall i c, nth_error cs i = Some c -> exists p w fin, nth_error (m_procs m) i = Some p /\ nth_error (m_procs m') i = Some p /\ 
    alone c clear d = (fin, w) /\ forall f, writes c f -> m_disk m f = now w f /\ m_disk m' f = now w f).
  { intros i c Hc. assert (Li : (i < List.length cs)%nat) by (apply nth_error_Some; congruence).
    destruct (nth_error (m_procs m) i) as [p|] eqn:Hp; [|apply nth_error_None in Hp; lia].
    destruct (nth_error (m_procs m') i) as [p'|] eqn:Hp'; [|apply nth_error_None in Hp'; lia].
    destruct (A p (nth_error_In _ _ Hp)) as (fin & Hf). destruct (A' p' (nth_error_In _ _ Hp')) as (fin' & Hf').
    destruct (side_by_side_clear d cs schedule i c p fin Hc (U i) F Hp Hf) as (w & E & D & _ & Q).
    destruct (side_by_side_clear d cs schedule' i c p' fin' Hc (U i) F' Hp' Hf') as (w' & E' & D' & _ & Q').
    rewrite E in E'. injection E' as <- <-. exists p, w, fin. split; auto. split.
    { f_equal. destruct p, p'. unfold finished in *. cbn in *. congruence. }
    split; auto. }
  split.
  - 
    assert (X : forall l l' : list process, List.length l = List.length l' -> (forall i, (i < List.length l)%nat -> nth_error l i = nth_error l' i) -> l = l').
    { clear. induction l as [|x l IH]; intros [|y l'] H K; try discriminate; auto. f_equal; [specialize (K 0%nat ltac:(cbn; lia)); cbn in K; congruence|].
      apply IH; [cbn in H; congruence|]. intros i Hi. exact (K (S i) ltac:(cbn; lia)). }
    apply X; [congruence|]. intros i Hi. destruct (nth_error cs i) as [c|] eqn:Hc; [|apply nth_error_None in Hc; lia].
    destruct (G i c Hc) as (p & w & fin & H1 & H2 & _). congruence.
  - intro f. destruct (writer cs f) as [(i & c & Hc & Y)|N].
    + destruct (G i c Hc) as (p & w & fin & _ & _ & _ & Q). destruct (Q f Y) as [Q1 Q2]. congruence.
    + unfold m, m'. rewrite !nobody by auto. reflexivity.
Qed.

(** ** All come to an end *)

Lemma first_S k sigma : first (S k) sigma = first k sigma ++ [sigma k].
Proof. unfold first. rewrite seq_S, map_app. reflexivity. Qed.

Lemma stopped_stays i p fin m sigma k k' : nth_error (m_procs (play (first k sigma) m)) i = Some p -> finished p fin -> (k <= k')%nat ->
  nth_error (m_procs (play (first k' sigma) m)) i = Some p.
Proof.
  intros H Hf L. induction L as [|k' L IH]; [exact H|]. rewrite first_S, play_snoc. unfold advance.
  destruct (sigma k') as [j n]. cbn [fst snd]. destruct (nth_error (m_procs _) j) as [[a done]|] eqn:E; [|exact IH]. destruct a as [r|l ok no]; [exact IH|].
  assert (Q : forall q dk, nth_error (m_procs (Machine dk (put j q (m_procs (play (first k' sigma) m))))) i = Some p).
  { intros q dk. cbn [m_procs]. rewrite nth_put. destruct (Nat.eqb_spec j i) as [K|K]; [|exact IH]. exfalso. rewrite K, IH in E. injection E as E. rewrite E in Hf. discriminate. }
  destruct n; apply Q.
Qed.

Lemma waits i p m sigma k k' : nth_error (m_procs (play (first k sigma) m)) i = Some p -> (k <= k')%nat ->
  (forall j, (k <= j < k')%nat -> fst (sigma j) <> i) -> nth_error (m_procs (play (first k' sigma) m)) i = Some p.
Proof.
  intros H L. induction L as [|k' L IH]; intro N; [exact H|]. rewrite first_S, play_snoc. unfold advance.
  specialize (IH (fun j Hj => N j ltac:(lia))). pose proof (N k' ltac:(lia)) as Nk.
  destruct (sigma k') as [j n]. cbn [fst snd] in *. destruct (nth_error (m_procs _) j) as [[a done]|] eqn:E; [|exact IH]. destruct a as [r|l ok no]; [exact IH|].
  assert (Q : forall q dk, nth_error (m_procs (Machine dk (put j q (m_procs (play (first k' sigma) m))))) i = Some p).
  { intros q dk. cbn [m_procs]. rewrite nth_put. destruct (Nat.eqb_spec j i) as [K|K]; [contradiction|exact IH]. }
  destruct n; apply Q.
Qed.

Lemma next_turn (sigma : nat -> nat * weather) i k : (exists k', (k <= k')%nat /\ fst (sigma k') = i) ->
  exists k', (k <= k')%nat /\ fst (sigma k') = i /\ forall j, (k <= j < k')%nat -> fst (sigma j) <> i.
Proof.
  intros (k' & L & E). revert L E. induction k' as [k' IH] using lt_wf_ind. intros L E.
  destruct (Nat.eq_dec k k') as [->|N]; [exists k'; split; auto; split; auto; intros; lia|].
  assert (D : (exists j, (k <= j < k')%nat /\ fst (sigma j) = i) \/ forall j, (k <= j < k')%nat -> fst (sigma j) <> i).
  { clear -L. induction L as [|k' L IHL]; [right; intros; lia|]. destruct IHL as [(j & H & E)|H]; [left; exists j; split; auto; lia|].
    destruct (Nat.eq_dec (fst (sigma k')) i) as [Y|Y]; [left; exists k'; split; auto; lia|]. right. intros j Hj.
    destruct (Nat.eq_dec j k') as [->|Nj]; auto. apply H. lia. }
  destruct D as [(j & H & Ej)|H]; [apply (IH j); auto; lia|exists k'; auto].
Qed.

Lemma one_ends m sigma i : (forall k, exists k', (k <= k')%nat /\ fst (sigma k') = i) -> forall a k done,
  nth_error (m_procs (play (first k sigma) m)) i = Some (Process a done) ->
  exists k' p fin, (k <= k')%nat /\ nth_error (m_procs (play (first k' sigma) m)) i = Some p /\ finished p fin.
Proof.
  intro Fa. induction a as [r|l ok IHok no IHno]; intros k done H.
  - exists k, (Process (Stop r) done), r. repeat split; auto.
  - destruct (next_turn sigma i k (Fa k)) as (k1 & L & E & W). pose proof (waits i _ m sigma k k1 H L W) as H1.
    assert (St : exists a' done', nth_error (m_procs (play (first (S k1) sigma) m)) i = Some (Process a' done') /\
      (a' = Stop Dead \/ a' = no \/ exists dk, a' = ok dk)).
    { rewrite first_S, play_snoc. unfold advance. destruct (sigma k1) as [j n]. cbn [fst snd] in *. subst j. rewrite H1.
      destruct n; cbn [m_procs]; rewrite nth_put, Nat.eqb_refl, H1; eexists; eexists; (split; [reflexivity|]); eauto. }
    destruct St as (a' & done' & H2 & [->|[->|(dk & ->)]]).
    + exists (S k1), (Process (Stop Dead) done'), Dead. repeat split; auto.
    + destruct (IHno (S k1) done' H2) as (k' & p & fin & L' & Q). exists k', p, fin. split; [lia|exact Q].
    + destruct (IHok dk (S k1) done' H2) as (k' & p & fin & L' & Q). exists k', p, fin. split; [lia|exact Q].
Qed.

Lemma all_end d cs sigma : fair sigma (List.length cs) ->
  exists k, forall k' p, (k <= k')%nat -> In p (m_procs (after_all d cs (first k' sigma))) -> exists fin, finished p fin.
Proof.
  intro Fa.
  assert (G : forall b, (b <= List.length cs)%nat -> exists k, forall i, (i < b)%nat -> exists p fin, nth_error (m_procs (play (first k sigma) (machine_of d cs))) i = Some p /\ finished p fin).
  { induction b as [|b IH]; intro Lb; [exists 0%nat; intros; lia|]. destruct (IH ltac:(lia)) as (k & Hk).
    destruct (nth_error (m_procs (play (first k sigma) (machine_of d cs))) b) as [[a done]|] eqn:E.
    - destruct (one_ends (machine_of d cs) sigma b (fun j => Fa b j ltac:(lia)) a k done E) as (k' & p & fin & L & Hp & Hf).
      exists k'. intros i Hi. destruct (Nat.eq_dec i b) as [->|N]; [eauto|]. destruct (Hk i ltac:(lia)) as (q & fq & Hq & Hfq).
      exists q, fq. split; [eapply stopped_stays; eauto|auto].
    - apply nth_error_None in E. pose proof (bounds_play d cs (first k sigma)) as [L _]. unfold after_all in L. lia. }
  destruct (G _ (le_n _)) as (k & Hk). exists k. intros k' p L Hp. apply In_nth_error in Hp as (i & Hi).
  pose proof (bounds_play d cs (first k' sigma)) as [Ln _].
  assert (Li : (i < List.length cs)%nat) by (rewrite <- Ln; apply nth_error_Some; congruence).
  destruct (Hk i Li) as (q & fq & Hq & Hf). pose proof (stopped_stays i q fq (machine_of d cs) sigma k k' Hq Hf L) as Hq'.
  unfold after_all in Hi. rewrite Hi in Hq'. injection Hq' as ->. eauto.
Qed.

(** ** What C67 says, among others *)

Lemma by_itself c d ws : exists p n fin w,
  nth_error (m_procs (after_all d [c] (map (pair 0) ws))) 0 = Some p /\ alone c n d = (fin, w) /\
  p_done p = w_done w /\ (finished p fin \/ unfinished p /\ fin = Dead) /\ (forall f, m_disk (after_all d [c] (map (pair 0) ws)) f = now w f).
Proof.
  assert (U : unshared [c] 0).
  { intros c1 j c2 f _ H N. destruct j as [|j]; [contradiction|]. cbn in H. destruct j; discriminate. }
  destruct (side_by_side d [c] (map (pair 0) ws) 0 c eq_refl U) as (p & n & fin & w & A & B & C & D & E & F).
  exists p, n, fin, w. repeat (split; [assumption|]). intro f. destruct (writes_dec c f) as [Y|N]; [apply F; auto|].
  rewrite nobody by (intros c' [<-|[]]; exact N).
  unfold now. rewrite D. symmetry. rewrite alone_is in B. pose proof (started_within c) as V. unfold solely in B.
  assert (G : forall (a : act finish) n w, within (reads c) (writes c) a -> (forall e, In e (w_done w) -> ~ touches e f) -> forall e, In e (w_done (snd (meaning a n w))) -> ~ touches e f).
  { clear -N. induction a as [r|l ok IHok no IHno]; intros n w V H; [exact H|]. inversion V as [|? ? ? V1 V2 V3 V4]; subst. cbn [meaning]. destruct (n (w_clock w)).
    - apply IHok; auto. cbn [w_done]. intros e He. apply in_app_iff in He as [He|He]; auto. intro T. apply N. exact (V1 e f He T).
    - apply IHno; auto.
    - exact H. }
  apply touch_others. specialize (G (p_left (started c)) n (World d [] 0) V ltac:(intros e [])).
  destruct (meaning (p_left (started c)) n (World d [] 0)) as [[r|] w']; injection B as _ <-; exact G.
Qed.

Lemma success_among_others d cs schedule i parse z o c s p :
  nth_error cs i = Some (Updating parse z o c s) -> wf_state s -> unshared cs i ->
  nth_error (m_procs (after_all d cs schedule)) i = Some p -> finished p (Status 0) ->
  exists r s1 e removed remapped, updates parse o c d s r s1 e /\ tells_removed s1 r removed /\ tells_remapped s1 r remapped /\
    match given (c_outfile c) with
    | Some f => m_disk (after_all d cs schedule) f = Some (z e) /\ output p = map Text (removed ++ remapped)
    | None => output p = bytes (z e) ++ map Text (removed ++ remapped)
    end.
Proof.
  intros Hc W U Hp Hf. destruct (side_by_side d cs schedule i _ Hc U) as (p' & n & fin & w & A & B & C & D & E & F).
  rewrite Hp in A. injection A as <-. destruct E as [E|[E _]]; [|destruct (E _ Hf)]. unfold finished in *. rewrite Hf in E. injection E as <-.
  cbn [alone] in B. destruct (success parse z o c n d s (Status 0) w W B eq_refl) as (r & s1 & e & re & rm & Up & T1 & T2 & _ & Q).
  exists r, s1, e, re, rm. split; [exact Up|]. split; [exact T1|]. split; [exact T2|].
  assert (X : output p = printed w) by (unfold output, printed; rewrite C; reflexivity). destruct (given (c_outfile c)) as [f|] eqn:G.
  - destruct Q as [Q Q']. split; [|congruence]. rewrite <- Q. apply F. right. exact G.
  - congruence.
Qed.

Lemma output_among_others d cs schedule i parse z o c s f :
  nth_error cs i = Some (Updating parse z o c s) -> wf_state s -> unshared cs i -> given (c_outfile c) = Some f ->
  m_disk (after_all d cs schedule) f = d f \/
  exists r s1 e x, updates parse o c d s r s1 e /\ m_disk (after_all d cs schedule) f = Some x /\ begins_text x (z e).
Proof.
  intros Hc W U G. destruct (side_by_side d cs schedule i _ Hc U) as (p & n & fin & w & A & B & C & D & E & F).
  cbn [alone] in B. rewrite (F f) by (right; exact G). exact (output_file parse z o c n d s fin w W B f G).
Qed.
