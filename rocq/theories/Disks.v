(** * Proofs: what a run of the command line tool does to the outside. *)

From Coq Require Import String Ascii List Bool Arith Lia .
From Verif Require Import Str Xml XPath Utils Base Tables Cybox Stix Ramrod Cli Spec SpecCheck SpecUpdate SpecCli Lib Api Refine Kept Terminal Again Disk SpecDisk.
Import ListNotations.
Local Open Scope string_scope.
Local Open Scope list_scope.

Lemma p_bind_run {A B} (m : proc A) (k : A -> proc B) n w s :
  p_bind m k n w s = match m n w s with
                     | (Done x, w', s') => k x n w' s'
                     | (Raised e, w', s') => (Raised e, w', s')
                     | (RefusedError, w', s') => (RefusedError, w', s')
                     | (Killed, w', s') => (Killed, w', s')
                     end.
Proof. reflexivity. Qed.

(** ** Bad weather only cuts a run short *)

Definition given_up {A} (x : outcome A) : Prop := x = Killed \/ x = RefusedError \/ x = Raised ValueError.

Definition steady {A} (m : proc A) : Prop := forall n w s,
  let '(x, w', s') := m n w s in
  let '(x0, w0, s0) := m clear w s in
  (exists p, w_done w' = w_done w ++ p) /\ (exists q, w_done w0 = w_done w' ++ q) /\
  w_disk w' = w_disk w /\ w_disk w0 = w_disk w /\ ((x, w', s') = (x0, w0, s0) \/ given_up x).

Lemma given_up_as {A B} (x : outcome A) (y : outcome B) : given_up x ->
  (x = Killed -> y = Killed) -> (x = RefusedError -> y = RefusedError) -> (x = Raised ValueError -> y = Raised ValueError) -> given_up y.
Proof. unfold given_up. intuition auto. Qed.

Lemma steady_ret {A} (x : A) : steady (p_ret x).
Proof. intros n w s. simpl. repeat split; auto; exists []; rewrite app_nil_r; reflexivity. Qed.
Lemma steady_raise {A} e : steady (@p_raise A e).
Proof. intros n w s. simpl. repeat split; auto; exists []; rewrite app_nil_r; reflexivity. Qed.
Lemma steady_run {A} (m : M A) : steady (p_run m).
Proof. intros n w s. unfold p_run. destruct (m s) as [[x|e] s']; repeat split; auto; exists []; rewrite app_nil_r; reflexivity. Qed.
Lemma steady_refused {A} : steady (fun _ w s => (@RefusedError A, w, s)).
Proof. intros n w s. simpl. repeat split; auto; exists []; rewrite app_nil_r; reflexivity. Qed.

Lemma steady_access {A} (r : outcome A) l v : given_up r -> steady (access r l v).
Proof.
  intros G n w s. unfold access, clear. destruct (n (w_clock w)); simpl.
  - repeat split; auto; [exists l; reflexivity|exists []; rewrite app_nil_r; reflexivity].
  - repeat split; auto; [exists []; rewrite app_nil_r; reflexivity|exists l; reflexivity].
  - split; [exists []; rewrite app_nil_r; reflexivity|]. split; [exists l; reflexivity|]. repeat split; auto. right. left. reflexivity.
Qed.

Lemma steady_bind {A B} (m : proc A) (k : A -> proc B) : steady m -> (forall x, steady (k x)) -> steady (p_bind m k).
Proof.
  intros Hm Hk n w s. rewrite !p_bind_run. specialize (Hm n w s).
  destruct (m n w s) as [[x w'] s'], (m clear w s) as [[x0 w0] s0].
  destruct Hm as ((p & P) & (q & Q) & D & D0 & [E|G]).
  - injection E as -> -> ->. destruct x0 as [x|e| |].
    + specialize (Hk x n w0 s0). destruct (k x n w0 s0) as [[y w1] s1], (k x clear w0 s0) as [[y0 w2] s2].
      destruct Hk as ((p' & P') & (q' & Q') & D1 & D2 & R). split; [exists (p ++ p'); rewrite P', P, app_assoc; reflexivity|].
      split; [eauto|]. repeat split; congruence || auto.
    + repeat split; eauto.
    + repeat split; eauto.
    + repeat split; eauto.
  - assert (F : let '(y, w1, s1) := match x0 with
              | Done x => k x clear w0 s0 | Raised e => (Raised e, w0, s0) | RefusedError => (RefusedError, w0, s0) | Killed => (Killed, w0, s0) end in
              (exists q, w_done w1 = w_done w' ++ q) /\ w_disk w1 = w_disk w).
    { destruct x0 as [x1|e| |]; try (split; eauto; fail).
      specialize (Hk x1 clear w0 s0). destruct (k x1 clear w0 s0) as [[y w1] s1]. destruct Hk as ((p' & P') & _ & D1 & _).
      split; [exists (q ++ p'); rewrite P', Q, app_assoc; reflexivity|congruence]. }
    destruct (match x0 with Done x => k x clear w0 s0 | Raised e => (Raised e, w0, s0) | RefusedError => (RefusedError, w0, s0) | Killed => (Killed, w0, s0) end)
      as [[y w1] s1]. destruct F as [F1 F2].
    destruct G as [-> | [-> | ->]]; repeat split; eauto; right; unfold given_up; auto.
Qed.

Lemma steady_each {A} (f : A -> proc unit) l : (forall x, steady (f x)) -> steady (p_each f l).
Proof. intro H. induction l as [|x l IH]; simpl; [apply steady_ret|apply steady_bind; auto]. Qed.

Lemma steady_does e : steady (does e).
Proof. apply steady_access. unfold given_up. auto. Qed.

Lemma steady_validate c : steady (p_validate_args c).
Proof.
  intros n w s. unfold p_validate_args. rewrite !p_bind_run. unfold path_exists, access, clear.
  destruct (n (w_clock w)).
  - destruct (now w (c_infile c)); simpl; repeat split; auto; exists []; rewrite !app_nil_r; reflexivity.
  - destruct (now w (c_infile c)); simpl; (split; [exists []; rewrite !app_nil_r; reflexivity|]; split; [exists []; rewrite !app_nil_r; reflexivity|]; repeat split; auto; right; unfold given_up; auto).
  - destruct (now w (c_infile c)); simpl; (split; [exists []; rewrite !app_nil_r; reflexivity|]; split; [exists []; rewrite !app_nil_r; reflexivity|]; repeat split; auto; right; unfold given_up; auto).
Qed.

Create HintDb steady.
Local Hint Resolve steady_ret steady_raise steady_run steady_refused steady_does steady_bind steady_each steady_validate : steady.
Lemma steady_close : steady close_file.
Proof. apply steady_access. unfold given_up. auto. Qed.
Lemma steady_read f : steady (read_file f).
Proof. unfold read_file. apply steady_bind; [apply steady_access; unfold given_up; auto|]. intros [x|]; auto with steady. Qed.
Local Hint Resolve steady_close steady_read : steady.

Ltac steadily :=
  repeat (match goal with
          | |- steady (p_bind _ _) => apply steady_bind
          | |- steady (p_each _ _) => apply steady_each
          | |- steady (match ?x with _ => _ end) => destruct x
          | |- forall _, _ => intro
          | |- _ => solve [auto with steady]
          end).

Lemma steady_write_xml z root f : steady (p_write_xml z root f).
Proof. unfold p_write_xml. apply steady_bind; [auto with steady|]. intro c. cbv zeta. steadily. Qed.
Lemma steady_removed l : steady (p_write_removed l).
Proof. unfold p_write_removed, p_say. steadily. Qed.
Lemma steady_remapped l : steady (p_write_remapped l).
Proof. unfold p_write_remapped, p_say. steadily. Qed.
Lemma steady_handler e : steady (p_main_handler e).
Proof.
  unfold p_main_handler, p_print_update_error, p_print_invalid_version_error, p_print_unknown_version_error, p_complain_if, p_complain, p_say.
  destruct e; steadily.
Qed.
Local Hint Resolve steady_write_xml steady_removed steady_remapped steady_handler : steady.

Lemma steady_body parse z o c : steady (p_main_body parse z o c).
Proof. unfold p_main_body. steadily. Qed.

Definition cut (f : finish) : Prop := f = Dead \/ f = UncaughtRefusal \/ f = Uncaught ValueError.

Lemma run_prefix parse z o c n d s fin w fin0 w0 :
  tool parse z o c n d s = (fin, w) -> tool parse z o c clear d s = (fin0, w0) ->
  w_disk w = d /\ w_disk w0 = d /\ begins (w_done w) (w_done w0) /\ ((fin, w) = (fin0, w0) \/ cut fin).
Proof.
  unfold tool, p_main. pose proof (steady_body parse z o c n (World d [] 0) s) as B. cbn [w_done w_disk] in B.
  destruct (p_main_body parse z o c n (World d [] 0) s) as [[x w1] s1], (p_main_body parse z o c clear (World d [] 0) s) as [[x0 w2] s2].
  destruct B as (_ & (q & Q) & D1 & D2 & [E|G]).
  - injection E as -> -> ->. destruct x0 as [u|e| |].
    + intros E1 E2. injection E1 as <- <-. injection E2 as <- <-. repeat split; auto. exists []. rewrite app_nil_r. reflexivity.
    + pose proof (steady_handler e n w2 s2) as H. destruct (p_main_handler e n w2 s2) as [[y w3] s3], (p_main_handler e clear w2 s2) as [[y0 w4] s4].
      destruct H as (_ & (q' & Q') & D3 & D4 & R). intros E1 E2. injection E1 as <- <-. injection E2 as <- <-.
      split; [congruence|]. split; [congruence|]. split; [exists q'; exact Q'|]. destruct R as [R|R].
      * injection R as -> -> ->. left. reflexivity.
      * right. unfold cut. destruct R as [-> | [-> | ->]]; simpl; auto.
    + intros E1 E2. injection E1 as <- <-. injection E2 as <- <-. repeat split; auto. exists []. rewrite app_nil_r. reflexivity.
    + intros E1 E2. injection E1 as <- <-. injection E2 as <- <-. repeat split; auto. exists []. rewrite app_nil_r. reflexivity.
  - assert (F : let '(y, w4, s4) := match x0 with
                | Done _ => (Done (Status 0), w2, s2) | Raised e => p_main_handler e clear w2 s2
                | RefusedError => (RefusedError, w2, s2) | Killed => (Killed, w2, s2) end in
                (exists q, w_done w4 = w_done w1 ++ q) /\ w_disk w4 = d).
    { destruct x0 as [u|e| |]; try (split; eauto; fail). pose proof (steady_handler e clear w2 s2) as H.
      destruct (p_main_handler e clear w2 s2) as [[y w4] s4]. destruct H as ((p' & P') & _ & D3 & _).
      split; [exists (q ++ p'); rewrite P', Q, app_assoc; reflexivity|congruence]. }
    destruct (match x0 with Done _ => (Done (Status 0), w2, s2) | Raised e => p_main_handler e clear w2 s2
                | RefusedError => (RefusedError, w2, s2) | Killed => (Killed, w2, s2) end) as [[y w4] s4]. destruct F as [F1 F2].
    assert (X : let '(v, w3, s3) := match x with
                | Done _ => (Done (Status 0), w1, s1) | Raised e => p_main_handler e n w1 s1
                | RefusedError => (RefusedError, w1, s1) | Killed => (Killed, w1, s1) end in cut (ended v) /\ w3 = w1).
    { destruct G as [-> | [-> | ->]]; simpl; unfold cut; auto. }
    destruct (match x with
                | Done _ => (Done (Status 0), w1, s1) | Raised e => p_main_handler e n w1 s1
                | RefusedError => (RefusedError, w1, s1) | Killed => (Killed, w1, s1) end) as [[v w3] s3]. destruct X as [X ->].
    intros E1 E2. injection E1 as <- <-. injection E2 as <- <-. split; auto.
Qed.

(** ** In clear weather the tool is the one of Cli.v *)

Definition lifted {A} (x : res A) : outcome A := match x with Ok a => Done a | Err e => Raised e end.

Definition pieces (l : list effect) : list piece := flat_map (fun e => match e with Print p => [p] | _ => [] end) l.
Definition complaints (l : list effect) : list line := flat_map (fun e => match e with Complain l => [l] | _ => [] end) l.
Definition spoken (e : effect) : Prop := match e with Print (Text _) | Complain _ => True | _ => False end.
Definition mutter (lo le : list line) (l : list effect) : Prop := pieces l = map Text lo /\ complaints l = le /\ Forall spoken l.

Lemma mutter_app lo le l lo' le' l' : mutter lo le l -> mutter lo' le' l' -> mutter (lo ++ lo') (le ++ le') (l ++ l').
Proof.
  intros (A & B & C) (A' & B' & C'). unfold mutter, pieces, complaints in *. rewrite !flat_map_app, map_app, A, A', B, B'.
  repeat split; auto. apply Forall_app. auto.
Qed.

Lemma mutter_said lo l : mutter lo [] l -> l = map (fun x => Print (Text x)) lo.
Proof.
  intros (A & B & C). revert lo A B. induction C as [|e l He C IH]; intros lo A B.
  - destruct lo; [reflexivity|discriminate].
  - destruct e as [f|f c|[c|x]|x]; simpl in He; try contradiction; simpl in A, B; [|discriminate].
    destruct lo as [|y lo]; [discriminate|]. simpl in A. injection A as <- A. simpl. rewrite <- (IH lo A B). reflexivity.
Qed.

Definition mirrors {A} (p : proc A) (m : shell A) : Prop := forall w c s x c' s', m c s = (x, c', s') ->
  exists l lo le k, p clear w s = (lifted x, World (w_disk w) (w_done w ++ l) k, s') /\ c' = adds c lo le /\ mutter lo le l.

Lemma world_same w : w = World (w_disk w) (w_done w ++ []) (w_clock w).
Proof. destruct w. simpl. rewrite app_nil_r. reflexivity. Qed.

Lemma mirrors_run {A} (m : M A) : mirrors (p_run m) (t_run m).
Proof.
  intros w c s x c' s' E. unfold t_run in E. unfold p_run. destruct (m s) as [y s1]. injection E as <- <- <-.
  exists [], [], [], (w_clock w). rewrite <- world_same, adds_nothing. split; [destruct y; reflexivity|]. repeat split. constructor.
Qed.
Lemma mirrors_ret {A} (x : A) : mirrors (p_ret x) (t_ret x).
Proof. exact (mirrors_run (ret x)). Qed.
Lemma mirrors_say l : mirrors (p_say l) (say l).
Proof.
  intros w c s x c' s' E. rewrite say_adds in E. injection E as <- <- <-. exists [Print (Text l)], [l], [], (S (w_clock w)).
  repeat split. repeat constructor.
Qed.
Lemma mirrors_complain l : mirrors (p_complain l) (complain l).
Proof.
  intros w c s x c' s' E. rewrite complain_adds in E. injection E as <- <- <-. exists [Complain l], [], [l], (S (w_clock w)).
  repeat split. repeat constructor.
Qed.
Lemma mirrors_bind {A B} (p : proc A) (m : shell A) (f : A -> proc B) (g : A -> shell B) :
  mirrors p m -> (forall x, mirrors (f x) (g x)) -> mirrors (p_bind p f) (t_bind m g).
Proof.
  intros H K w c s x c' s' E. rewrite t_bind_run in E. destruct (m c s) as [[y c1] s1] eqn:E1.
  destruct (H w c s y c1 s1 E1) as (l & lo & le & k & P & C & Mu). rewrite p_bind_run, P. destruct y as [y|e]; cbn [lifted].
  - destruct (K y (World (w_disk w) (w_done w ++ l) k) c1 s1 x c' s' E) as (l' & lo' & le' & k' & P' & C' & Mu').
    exists (l ++ l'), (lo ++ lo'), (le ++ le'), k'. cbn [w_disk w_done] in P'. rewrite P', <- app_assoc. split; [reflexivity|].
    split; [rewrite C', C; apply adds_twice|apply mutter_app; auto].
  - injection E as <- <- <-. exists l, lo, le, k. auto.
Qed.
Lemma mirrors_each {A} (f : A -> proc unit) (g : A -> shell unit) l : (forall x, mirrors (f x) (g x)) -> mirrors (p_each f l) (t_each g l).
Proof. intro H. induction l as [|x l IH]; simpl; [apply mirrors_ret|apply mirrors_bind; auto]. Qed.

Ltac mirrored :=
  repeat (match goal with
          | |- mirrors (p_bind _ _) (t_bind _ _) => apply mirrors_bind
          | |- mirrors (p_each _ _) (t_each _ _) => apply mirrors_each
          | |- mirrors (p_run _) _ => apply mirrors_run
          | |- mirrors (p_ret _) _ => apply mirrors_ret
          | |- mirrors (p_say _) _ => apply mirrors_say
          | |- mirrors (p_complain _) _ => apply mirrors_complain
          | |- mirrors (match ?x with _ => _ end) _ => destruct x
          | |- forall _, _ => intro
          end).

Lemma mirrors_removed l : mirrors (p_write_removed l) (write_removed l).
Proof. unfold p_write_removed, write_removed. mirrored. Qed.
Lemma mirrors_remapped l : mirrors (p_write_remapped l) (write_remapped l).
Proof. unfold p_write_remapped, write_remapped. mirrored. Qed.
Lemma mirrors_update_error a b : mirrors (p_print_update_error a b) (print_update_error a b).
Proof. unfold p_print_update_error, print_update_error. mirrored. Qed.
Lemma mirrors_invalid a b c : mirrors (p_print_invalid_version_error a b c) (print_invalid_version_error a b c).
Proof. unfold p_print_invalid_version_error, print_invalid_version_error, p_complain_if, complain_if. mirrored. Qed.

(** What is written where the document goes. *)
Definition destination (outfn : option string) (text : string) : list effect :=
  match given outfn with
  | Some f => Create f :: map (Append f) (list_ascii_of_string text)
  | None => map (fun b => Print (Byte b)) (list_ascii_of_string text)
  end.

Lemma each_clear {A} (f : A -> effect) l w s :
  exists k, p_each (fun b => does (f b)) l clear w s = (Done tt, World (w_disk w) (w_done w ++ map f l) k, s).
Proof.
  revert w. induction l as [|x l IH]; intro w; simpl.
  - exists (w_clock w). rewrite <- world_same. reflexivity.
  - rewrite p_bind_run. unfold does at 1, access at 1. unfold clear at 1. destruct (IH (World (w_disk w) (w_done w ++ [f x]) (S (w_clock w)))) as (k & E).
    exists k. rewrite E. cbn [w_disk w_done]. rewrite <- app_assoc. reflexivity.
Qed.

Lemma write_clear z root f w s c : deref root s = (Ok c, s) ->
  exists k, p_write_xml z root f clear w s = (Done tt, World (w_disk w) (w_done w ++ destination f (z (erase (snd c)))) k, s).
Proof.
  intro E. unfold p_write_xml. rewrite p_bind_run. unfold p_run at 1. rewrite E. cbv zeta. unfold destination, given.
  set (l := list_ascii_of_string _). destruct f as [[|a f]|]; try apply each_clear.
  rewrite p_bind_run. unfold does at 1, access at 1. unfold clear at 1. rewrite p_bind_run.
  destruct (each_clear (Append (String a f)) l (World (w_disk w) (w_done w ++ [Create (String a f)]) (S (w_clock w))) s) as (k & Q).
  rewrite Q. unfold close_file, access. unfold clear at 1. cbn [w_disk w_done w_clock]. exists (S k). rewrite app_nil_r, <- app_assoc. reflexivity.
Qed.

Lemma document_deref s i e : wf_state s -> document s i e -> exists c, deref i s = (Ok c, s) /\ erase (snd c) = e.
Proof.
  intros [N _] (T & HT & <- & <-). exists ([], T). split; [|reflexivity]. unfold deref.
  rewrite (hfind_in (heap s) T [] T N HT (visits_self [] T)). reflexivity.
Qed.

Lemma updates_run parse o c d s r s1 e : updates parse o c d s r s1 e ->
  exists text, d (c_infile c) = Some text /\
    ramrod_update o (DFile (parse text)) (c_from c) (c_to c) (Some (cli_options o (args_of parse c (Some text)))) (c_force c) s = (Ok r, s1) /\
    document s1 (r_document r) e.
Proof.
  intros (Ex & (opts & Me & U) & D). apply meant_options in Me. subst opts. unfold arguments in *. destruct (d (c_infile c)) as [text|]; [|discriminate].
  exists text. auto.
Qed.

Lemma clear_success parse z o c d s r s1 e : wf_state s -> updates parse o c d s r s1 e ->
  exists removed remapped w, tells_removed s1 r removed /\ tells_remapped s1 r remapped /\
    tool parse z o c clear d s = (Status 0, w) /\ w_disk w = d /\
    w_done w = destination (c_outfile c) (z e) ++ map (fun l => Print (Text l)) (removed ++ remapped) /\
    exists sc, cli_main o (arguments parse c d) s = (Exit 0, sc, s1) /\ delivered (arguments parse c d) (r_document r) sc (removed ++ remapped) /\ stderr sc = [].
Proof.
  intros W U. destruct (updates_run _ _ _ _ _ _ _ _ U) as (text & Ef & E & Doc).
  destruct (parse text) as [t|] eqn:Pt; [|discriminate].
  assert (D : denotes s (DFile (Some t)) t) by reflexivity.
  destruct (ramrod_renumbers _ _ _ _ _ _ _ _ _ _ W D E) as (W' & (call & Rn & _) & C & St).
  destruct (writes_removed s1 r) as (rem & R1 & P1).
  { eapply Forall_impl; [|exact St]. intros i (e' & T & HT & Ei & _). exists [], T, T. split; auto. split; auto. apply visits_self. }
  destruct (writes_remapped s1 r) as (rmp & R2 & P2).
  { intros old l i Hk Hi. destruct (Rn old l i Hk Hi) as (_ & b & x & (T & HT & Hx & Exi) & Ix).
    exists (new_id_func (cli_options o (args_of parse c (Some text))) (call i) old). split.
    - exists (head x). subst i. split; [exact (get_hdr_in s1 T b x W' HT Hx)|exact Ix].
    - exists b, x. split; auto. exists T. auto. }
  destruct (document_deref s1 _ e W' Doc) as (cx & Dr & <-).
  assert (Cl : exists sc, cli_main o (arguments parse c d) s = (Exit 0, sc, s1) /\ delivered (arguments parse c d) (r_document r) sc (rem ++ rmp) /\ stderr sc = []).
  { unfold arguments. rewrite Ef. set (a := args_of parse c (Some text)) in *.
    destruct (writes_xml a (r_document r) s1) as (c0 & Ew & Dl). exists (adds c0 (rem ++ rmp) []). split; [|apply Dl].
    unfold cli_main, main_body. rewrite t_bind_run. unfold validate_args. cbn [a_exists args_of a t_run ret].
    rewrite t_bind_run. cbn [a_infile a_from a_to a_force args_of a]. rewrite Pt. fold a. rewrite (t_run_run _ _ _ _ _ E), t_bind_run.
    change (c_outfile c) with (a_outfile a). rewrite Ew, t_bind_run. change (coll_items (r_removed r)) with (removed_nodes r).
    rewrite P1, C, P2, adds_twice. reflexivity. }
  exists rem, rmp. unfold tool, p_main, p_main_body. rewrite p_bind_run. unfold p_validate_args. rewrite p_bind_run. unfold path_exists, access.
  unfold clear at 1. cbn [w_clock now w_done w_disk fold_left]. rewrite Ef. unfold p_ret at 1.
  rewrite p_bind_run. unfold read_file. rewrite p_bind_run. unfold access. unfold clear at 1. unfold now. cbn [w_clock w_done w_disk fold_left app]. rewrite Ef. unfold p_ret at 1. cbv zeta.
  rewrite p_bind_run. unfold p_run at 1. rewrite Pt, E. rewrite p_bind_run.
  match goal with |- context [p_write_xml _ _ _ _ ?w _] => destruct (write_clear z (r_document r) (c_outfile c) w s1 cx Dr) as (k & Q) end. rewrite Q. clear Q.
  rewrite p_bind_run. change (coll_items (r_removed r)) with (removed_nodes r). cbn [w_disk w_done app].
  match goal with |- context [p_write_removed _ _ ?w _] => destruct (mirrors_removed (removed_nodes r) w blank_screen s1 _ _ _ (P1 _)) as (l1 & lo1 & le1 & k1 & Q1 & S1 & M1) end.
  rewrite Q1. cbn [lifted]. rewrite C.
  match goal with |- context [p_write_remapped _ _ ?w _] => destruct (mirrors_remapped (remapped_ids r) w blank_screen s1 _ _ _ (P2 _)) as (l2 & lo2 & le2 & k2 & Q2 & S2 & M2) end.
  rewrite Q2. cbn [lifted ended w_disk w_done]. unfold adds in S1, S2. simpl in S1, S2. injection S1 as <- <-. injection S2 as <- <-.
  eexists. split; [exact R1|]. split; [exact R2|]. split; [reflexivity|]. cbn [w_disk w_done]. split; [reflexivity|].
  split; [|exact Cl]. rewrite (mutter_said _ _ M1), (mutter_said _ _ M2), map_app, <- app_assoc. reflexivity.
Qed.

(** The first part of [main] in clear weather. *)
Lemma body_started parse z o c d s text x s1 : d (c_infile c) = Some text ->
  update_of o (args_of parse c (Some text)) (cli_options o (args_of parse c (Some text))) s = (Err x, s1) ->
  exists k, p_main_body parse z o c clear (World d [] 0) s = (Raised x, World d [] k, s1).
Proof.
  intros Ef E. unfold update_of in E. cbn [a_infile a_from a_to a_force args_of] in E. unfold p_main_body. rewrite p_bind_run. unfold p_validate_args. rewrite p_bind_run. unfold path_exists, access.
  unfold clear at 1. cbn [w_clock now w_done w_disk fold_left]. rewrite Ef. unfold p_ret at 1.
  rewrite p_bind_run. unfold read_file. rewrite p_bind_run. unfold access. unfold clear at 1. unfold now. cbn [w_clock w_done w_disk fold_left app]. rewrite Ef. unfold p_ret at 1. cbv zeta.
  rewrite p_bind_run. unfold p_run at 1. unfold args_of in *. rewrite E. eexists. reflexivity.
Qed.

Inductive failed (parse : string -> option tree) (o : oracle) (c : command) (d : disk) (s : st) : finish -> list effect -> Prop :=
| fl_missing : d (c_infile c) = None -> failed parse o c d s (Uncaught ValueError) []
| fl_explained text e s1 lo le l : d (c_infile c) = Some text ->
    update_of o (args_of parse c (Some text)) (cli_options o (args_of parse c (Some text))) s = (Err e, s1) ->
    documented e -> explains s1 e lo le -> mutter lo le l -> failed parse o c d s (Status 1) l
| fl_uncaught text e s1 : d (c_infile c) = Some text ->
    update_of o (args_of parse c (Some text)) (cli_options o (args_of parse c (Some text))) s = (Err e, s1) ->
    ~ documented e -> failed parse o c d s (Uncaught e) [].

Lemma updates_or_fails parse z o c d s : wf_state s ->
  (exists r s1 e, updates parse o c d s r s1 e) \/
  exists fin w, tool parse z o c clear d s = (fin, w) /\ w_disk w = d /\ failed parse o c d s fin (w_done w) /\
    exists en lo le s', cli_main o (arguments parse c d) s = (en, Screen lo le None, s') /\ fin = finish_of en /\ mutter lo le (w_done w).
Proof.
  intro W. destruct (d (c_infile c)) as [text|] eqn:Ef.
  2: { right. do 2 eexists. unfold tool, p_main, p_main_body. rewrite p_bind_run. unfold p_validate_args. rewrite p_bind_run. unfold path_exists, access.
       unfold clear at 1. cbn [w_clock now w_done w_disk fold_left]. rewrite Ef. unfold p_raise at 1. cbn [p_main_handler p_ret ended].
       split; [reflexivity|]. split; [reflexivity|]. split; [apply fl_missing; exact Ef|]. unfold arguments. rewrite Ef, cli_missing by reflexivity.
       do 4 eexists. split; [reflexivity|]. split; [reflexivity|]. repeat split. constructor. }
  set (a := args_of parse c (Some text)). destruct (update_of o a (cli_options o a) s) as [[r|x] s1] eqn:U.
  - left. pose proof U as U0. unfold update_of in U0. cbn [a_infile a_from a_to a_force args_of a] in U0.
    destruct (parse text) as [t|] eqn:Pt; [|discriminate].
    destruct (ramrod_root_local _ _ _ _ _ _ _ t _ _ W (eq_refl : denotes s (DFile (Some t)) t) U0) as (e & De & _).
    exists r, s1, e. unfold updates, arguments. rewrite Ef. split; [reflexivity|]. split; [|exact De].
    exists (cli_options o a). split; [apply options_meant|exact U].
  - right. unfold tool, p_main. destruct (body_started parse z o c d s text x s1 Ef U) as (k & B). rewrite B.
    destruct (is_update_failure x) eqn:F.
    + assert (Dc : documented x) by (destruct x; try discriminate; constructor).
      pose proof U as U0. unfold update_of in U0. cbn [a_infile a_from a_to a_force args_of a] in U0.
      destruct (parse text) as [t|] eqn:Pt; [|injection U0 as <- <-; discriminate].
      pose proof (ramrod_reportable o (DFile (Some t)) (c_from c) (c_to c) (Some (cli_options o a)) (c_force c) s t W (eq_refl : denotes s (DFile (Some t)) t) x) as R.
      rewrite U0 in R. specialize (R eq_refl F). destruct (handles s1 x R Dc) as (lo & le & X & H).
      assert (Q : exists l k', p_main_handler x clear (World d [] k) s1 = (Done (Status 1), World d l k', s1) /\ mutter lo le l).
      { specialize (H blank_screen). destruct Dc; cbn [main_handler p_main_handler] in H |- *; rewrite t_bind_run in H; rewrite p_bind_run.
        - destruct (print_update_error disallowed duplicates blank_screen s1) as [[y c1] s2] eqn:P.
          destruct (mirrors_update_error disallowed duplicates (World d [] k) _ _ _ _ _ P) as (l & lo1 & le1 & k1 & P1 & C1 & M1). rewrite P1.
          destruct y as [y|]; cbn [t_ret] in H; [|discriminate]. injection H as H <-. rewrite H in C1. unfold adds in C1. simpl in C1. injection C1 as -> ->.
          exists l, k1. split; auto.
        - destruct (print_unknown_version_error blank_screen s1) as [[y c1] s2] eqn:P.
          destruct (mirrors_complain Message (World d [] k) _ _ _ _ _ P) as (l & lo1 & le1 & k1 & P1 & C1 & M1). unfold p_print_unknown_version_error. rewrite P1.
          destruct y as [y|]; cbn [t_ret] in H; [|discriminate]. injection H as H <-. rewrite H in C1. unfold adds in C1. simpl in C1. injection C1 as -> ->.
          exists l, k1. split; auto.
        - destruct (print_invalid_version_error node expected found blank_screen s1) as [[y c1] s2] eqn:P.
          destruct (mirrors_invalid node expected found (World d [] k) _ _ _ _ _ P) as (l & lo1 & le1 & k1 & P1 & C1 & M1). rewrite P1.
          destruct y as [y|]; cbn [t_ret] in H; [|discriminate]. injection H as H <-. rewrite H in C1. unfold adds in C1. simpl in C1. injection C1 as -> ->.
          exists l, k1. split; auto. }
      destruct Q as (l & k' & Q & Mu). rewrite Q. do 2 eexists. split; [reflexivity|]. split; [reflexivity|]. split; [eapply fl_explained; eauto|].
      unfold arguments. rewrite Ef. fold a. unfold cli_main, main_body. rewrite t_bind_run. unfold validate_args. cbn [a_exists args_of a t_run ret].
      rewrite t_bind_run. cbn [a_infile a_from a_to a_force args_of a]. rewrite Pt. fold a. rewrite (t_run_run _ _ _ _ _ U0), H.
      exists (Exit 1), lo, le, s1. split; [reflexivity|]. split; [reflexivity|exact Mu].
    + assert (Nd : ~ documented x) by (intro Q; destruct Q; discriminate).
      assert (Q : p_main_handler x clear (World d [] k) s1 = (Done (Uncaught x), World d [] k, s1)).
      { destruct x; try reflexivity; exfalso; apply Nd; constructor. }
      rewrite Q. do 2 eexists. split; [reflexivity|]. split; [reflexivity|]. split; [eapply fl_uncaught; eauto|].
      unfold arguments. rewrite Ef. fold a. rewrite (cli_undocumented o a s x s1 eq_refl U Nd).
      do 4 eexists. split; [reflexivity|]. split; [reflexivity|]. repeat split. constructor.
Qed.

Lemma failed_spoken parse o c d s fin l : failed parse o c d s fin l -> Forall spoken l /\ fin <> Status 0.
Proof.
  intro F. destruct F as [H|? ? ? ? ? ? ? ? ? ? M|]; try (split; [constructor|discriminate]). destruct M as (_ & _ & M). split; [auto|discriminate].
Qed.

Lemma failed_not_updates parse o c d s fin l r s1 e : failed parse o c d s fin l -> ~ updates parse o c d s r s1 e.
Proof.
  intros F (Ex & (opts & Me & U) & _). apply meant_options in Me. subst opts. unfold arguments in *.
  destruct F as [H|text x s2 lo le l H U' _ _ _|text x s2 H U' _]; rewrite H in *; [discriminate| |]; rewrite U in U'; discriminate.
Qed.

(** ** The files *)

Lemma spoken_disk l d : Forall spoken l -> fold_left apply l d = d.
Proof.
  intro F. revert d. induction F as [|e l He F IH]; intro d; simpl; [reflexivity|]. destruct e as [?|? ?|[?|?]|?]; simpl in He; try contradiction; apply IH.
Qed.

Lemma printed_disk {A} (f : A -> piece) l d : fold_left apply (map (fun b => Print (f b)) l) d = d.
Proof. revert d. induction l as [|x l IH]; intro d; simpl; auto. Qed.

Lemma app_string_assoc (a b c : string) : ((a ++ b) ++ c = a ++ (b ++ c))%string.
Proof. induction a as [|x a IH]; simpl; [reflexivity|rewrite IH; reflexivity]. Qed.
Lemma app_string_nil (a : string) : (a ++ "" = a)%string.
Proof. induction a as [|x a IH]; simpl; [reflexivity|rewrite IH; reflexivity]. Qed.

Lemma appends f l d x g : d f = Some x ->
  fold_left apply (map (Append f) l) d g = if String.eqb g f then Some (x ++ string_of_list_ascii l)%string else d g.
Proof.
  revert d x. induction l as [|a l IH]; intros d x E; simpl.
  - destruct (String.eqb_spec g f) as [->|N]; [rewrite app_string_nil; exact E|reflexivity].
  - rewrite E. rewrite (IH _ (x ++ String a "")%string).
    + unfold store. destruct (String.eqb g f); [rewrite app_string_assoc|]; reflexivity.
    + unfold store. rewrite String.eqb_refl. reflexivity.
Qed.

Lemma written f l d g : fold_left apply (Create f :: map (Append f) l) d g = if String.eqb g f then Some (string_of_list_ascii l) else d g.
Proof.
  simpl. rewrite (appends f l _ "").
  - unfold store. destruct (String.eqb g f); reflexivity.
  - unfold store. rewrite String.eqb_refl. reflexivity.
Qed.

Lemma begins_app {A} (p a b : list A) : begins p (a ++ b) -> begins p a \/ exists q, p = a ++ q /\ begins q b.
Proof.
  revert p. induction a as [|x a IH]; intros p H; simpl in H.
  - right. exists p. auto.
  - destruct p as [|y p]; [left; exists (x :: a); reflexivity|]. destruct H as (q & H). simpl in H. injection H as <- H.
    destruct (IH p (ex_intro _ q H)) as [(q' & ->)|(q' & -> & B)].
    + left. exists q'. reflexivity.
    + right. exists q'. auto.
Qed.

Lemma begins_map {A B} (f : A -> B) p l : begins p (map f l) -> exists l', p = map f l' /\ begins l' l.
Proof.
  intros (q & E). revert p q E. induction l as [|x l IH]; intros p q E; simpl in E.
  - destruct p; [|discriminate]. exists []. split; [reflexivity|exists []; reflexivity].
  - destruct p as [|y p]; [exists []; split; [reflexivity|exists (x :: l); reflexivity]|]. simpl in E. injection E as <- E.
    destruct (IH p q E) as (l' & -> & q' & ->). exists (x :: l'). split; [reflexivity|exists q'; reflexivity].
Qed.

Lemma begins_forall {A} (P : A -> Prop) p l : begins p l -> Forall P l -> Forall P p.
Proof. intros (q & ->) F. apply Forall_app in F. tauto. Qed.

Lemma begins_bytes l x : begins l (list_ascii_of_string x) -> begins_text (string_of_list_ascii l) x.
Proof.
  intros (q & E). exists (string_of_list_ascii q). rewrite <- (string_of_list_ascii_of_string x), E. clear E.
  induction l as [|a l IH]; simpl; [reflexivity|rewrite IH; reflexivity].
Qed.

(** A part of what a successful run does. *)
Notation said := (map (fun l => Print (Text l))).

Inductive part (f : option string) (text : string) (reports : list line) : list effect -> Prop :=
| pt_stream l : given f = None -> begins l (list_ascii_of_string text) -> part f text reports (map (fun b => Print (Byte b)) l)
| pt_nothing g : given f = Some g -> part f text reports []
| pt_file g l : given f = Some g -> begins l (list_ascii_of_string text) -> part f text reports (Create g :: map (Append g) l)
| pt_reports rs : begins rs reports -> part f text reports (destination f text ++ said rs).

Lemma parts f text reports l : begins l (destination f text ++ said reports) -> part f text reports l.
Proof.
  intro B. apply begins_app in B as [B|(q & -> & B)].
  - unfold destination in B. destruct (given f) as [g|] eqn:G.
    + destruct l as [|e l]; [eapply pt_nothing; eauto|]. destruct B as (q & B). simpl in B. injection B as <- B.
      destruct (begins_map (Append g) l _ (ex_intro _ q B)) as (l' & -> & B'). eapply pt_file; eauto.
    + apply begins_map in B as (l' & -> & B'). eapply pt_stream; eauto.
  - apply begins_map in B as (rs & -> & B'). apply pt_reports. exact B'.
Qed.

Lemma destination_disk f text d h : fold_left apply (destination f text) d h =
  match given f with Some g => if String.eqb h g then Some text else d h | None => d h end.
Proof.
  unfold destination. destruct (given f) as [g|].
  - rewrite written, string_of_list_ascii_of_string. reflexivity.
  - rewrite printed_disk. reflexivity.
Qed.

Lemma part_elsewhere f text reports l d h : part f text reports l -> given f <> Some h -> fold_left apply l d h = d h.
Proof.
  intros P N. destruct P as [l G B|g G|g l G B|rs B].
  - rewrite printed_disk. reflexivity.
  - reflexivity.
  - rewrite written. destruct (String.eqb_spec h g); [congruence|reflexivity].
  - rewrite fold_left_app, printed_disk, destination_disk. destruct (given f) as [g|]; [|reflexivity].
    destruct (String.eqb_spec h g); [congruence|reflexivity].
Qed.

Lemma part_there f text reports l d g : part f text reports l -> given f = Some g ->
  fold_left apply l d g = d g \/ exists p, fold_left apply l d g = Some p /\ begins_text p text.
Proof.
  intros P G. destruct P as [l G' B|g' G'|g' l G' B|rs B].
  - congruence.
  - left. reflexivity.
  - rewrite G in G'. injection G' as <-. rewrite written, String.eqb_refl. right. eexists. split; [reflexivity|]. apply begins_bytes. exact B.
  - rewrite fold_left_app, printed_disk, destination_disk, G, String.eqb_refl. right. exists text. split; [reflexivity|].
    exists "". rewrite app_string_nil. reflexivity.
Qed.

Lemma bytes_no_text l x : ~ In (Text x) (flat_map (fun e => match e with Print p => [p] | _ => [] end) (map (fun b => Print (Byte b)) l)).
Proof. induction l as [|a l IH]; simpl; [auto|]. intros [H|H]; [discriminate|auto]. Qed.

Lemma appends_silent g l : flat_map (fun e => match e with Print p => [p] | _ => [] end) (map (Append g) l) = [].
Proof. induction l; auto. Qed.
Lemma stream_pieces l : flat_map (fun e => match e with Print p => [p] | _ => [] end) (map (fun b => Print (Byte b)) l) = map Byte l.
Proof. induction l as [|a l IH]; simpl; [reflexivity|rewrite IH; reflexivity]. Qed.
Lemma said_pieces l : flat_map (fun e => match e with Print p => [p] | _ => [] end) (said l) = map Text l.
Proof. induction l as [|a l IH]; simpl; [reflexivity|rewrite IH; reflexivity]. Qed.
Lemma destination_pieces f text : flat_map (fun e => match e with Print p => [p] | _ => [] end) (destination f text) =
  match given f with Some _ => [] | None => bytes text end.
Proof. unfold destination. destruct (given f); [apply appends_silent|apply stream_pieces]. Qed.

Lemma no_complaints (l : list effect) : (forall x, ~ In (Complain x) l) -> flat_map (fun e => match e with Complain x => [x] | _ => [] end) l = [].
Proof.
  induction l as [|e l IH]; intro H; simpl; [reflexivity|]. rewrite IH by (intros x Hx; apply (H x); right; exact Hx).
  destruct e; auto. exfalso. eapply H. left. reflexivity.
Qed.

Lemma whole_no_complaint f text rs x : ~ In (Complain x) (destination f text ++ said rs).
Proof.
  intro H. apply in_app_iff in H as [H|H].
  - unfold destination in H. destruct (given f).
    + destruct H as [H|H]; [discriminate|]. apply in_map_iff in H as (? & ? & _). discriminate.
    + apply in_map_iff in H as (? & ? & _). discriminate.
  - apply in_map_iff in H as (? & ? & _). discriminate.
Qed.

(** ** What holds for every run *)

Section Run.
Variables (parse : string -> option tree) (z : tree -> string) (o : oracle) (c : command) (n : nat -> weather) (d : disk) (s : st).
Variables (fin : finish) (w : world).
Hypothesis W : wf_state s.
Hypothesis E : tool parse z o c n d s = (fin, w).

(** Either the update succeeds and a part of what it stands for has been done,
    or it fails and only lines have been written. *)
Lemma run_cases :
  (exists r s1 e removed remapped, updates parse o c d s r s1 e /\ tells_removed s1 r removed /\ tells_remapped s1 r remapped /\
     w_disk w = d /\ part (c_outfile c) (z e) (removed ++ remapped) (w_done w) /\
     (cut fin \/ fin = Status 0 /\ w_done w = destination (c_outfile c) (z e) ++ said (removed ++ remapped))) \/
  (exists fin0 l, failed parse o c d s fin0 l /\ w_disk w = d /\ begins (w_done w) l /\ (cut fin \/ fin = fin0 /\ w_done w = l)).
Proof.
  destruct (updates_or_fails parse z o c d s W) as [(r & s1 & e & U)|(fin0 & w0 & E0 & D0 & F & _)].
  - left. destruct (clear_success parse z o c d s r s1 e W U) as (rem & rmp & w0 & T1 & T2 & E0 & D0 & Dn & _).
    destruct (run_prefix _ _ _ _ _ _ _ _ _ _ _ E E0) as (D & _ & B & R).
    exists r, s1, e, rem, rmp. split; [exact U|]. split; [exact T1|]. split; [exact T2|]. split; [exact D|].
    split; [apply parts; rewrite <- Dn; exact B|]. destruct R as [R|R]; [|auto]. injection R as -> ->. auto.
  - right. destruct (run_prefix _ _ _ _ _ _ _ _ _ _ _ E E0) as (D & _ & B & R).
    exists fin0, (w_done w0). split; [exact F|]. split; [exact D|]. split; [exact B|]. destruct R as [R|R]; [|auto]. injection R as -> ->. auto.
Qed.

Lemma failed_quiet fin0 l : failed parse o c d s fin0 l -> w_disk w = d -> begins (w_done w) l -> now w = d /\ forall b, ~ In (Byte b) (printed w).
Proof.
  intros F D B. apply failed_spoken in F as [F _]. pose proof (begins_forall _ _ _ B F) as G. split.
  - unfold now. rewrite D. apply spoken_disk. exact G.
  - intros b H. unfold printed in H. apply in_flat_map in H as (x & Hx & H). rewrite Forall_forall in G. specialize (G x Hx).
    destruct x as [?|? ?|[?|?]|?]; simpl in G, H; try contradiction; destruct H as [H|[]]; discriminate.
Qed.

Lemma other_files f : given (c_outfile c) <> Some f -> now w f = d f.
Proof.
  intro N. destruct run_cases as [(r & s1 & e & rem & rmp & _ & _ & _ & D & P & _)|(fin0 & l & F & D & B & _)].
  - unfold now. rewrite D. eapply part_elsewhere; eauto.
  - rewrite (proj1 (failed_quiet fin0 l F D B)). reflexivity.
Qed.

Lemma failed_update : (forall r s1 e, ~ updates parse o c d s r s1 e) -> untouched d (now w) /\ fin <> Status 0 /\ forall b, ~ In (Byte b) (printed w).
Proof.
  intro N. destruct run_cases as [(r & s1 & e & rem & rmp & U & _)|(fin0 & l & F & D & B & R)]; [exfalso; eapply N; eauto|].
  destruct (failed_quiet fin0 l F D B) as [Q1 Q2]. split; [intro f; rewrite Q1; reflexivity|]. split; [|exact Q2].
  destruct R as [[-> | [-> | ->]]|[-> _]]; try discriminate. apply failed_spoken in F. tauto.
Qed.

Lemma output_file f : given (c_outfile c) = Some f ->
  now w f = d f \/ exists r s1 e p, updates parse o c d s r s1 e /\ now w f = Some p /\ begins_text p (z e).
Proof.
  intro G. destruct run_cases as [(r & s1 & e & rem & rmp & U & _ & _ & D & P & _)|(fin0 & l & F & D & B & _)].
  - unfold now. rewrite D. destruct (part_there _ _ _ _ d f P G) as [Q|(p & Q & X)]; [auto|]. right. exists r, s1, e, p. auto.
  - rewrite (proj1 (failed_quiet fin0 l F D B)). auto.
Qed.

Lemma success : fin = Status 0 ->
  exists r s1 e removed remapped, updates parse o c d s r s1 e /\ tells_removed s1 r removed /\ tells_remapped s1 r remapped /\
    complained w = [] /\
    match given (c_outfile c) with
    | Some f => now w f = Some (z e) /\ printed w = map Text (removed ++ remapped)
    | None => printed w = bytes (z e) ++ map Text (removed ++ remapped)
    end.
Proof.
  intro S. destruct run_cases as [(r & s1 & e & rem & rmp & U & T1 & T2 & D & _ & R)|(fin0 & l & F & D & B & R)].
  - exists r, s1, e, rem, rmp. split; [exact U|]. split; [exact T1|]. split; [exact T2|].
    destruct R as [[Q|[Q|Q]]|[_ R]]; try congruence. unfold complained, printed, now. rewrite R, D. split; [apply no_complaints, whole_no_complaint|].
    rewrite flat_map_app, said_pieces, destination_pieces. destruct (given (c_outfile c)) as [f|] eqn:G; [|reflexivity].
    split; [|reflexivity]. rewrite fold_left_app, printed_disk, destination_disk, G, String.eqb_refl. reflexivity.
  - exfalso. apply failed_spoken in F as [_ F]. destruct R as [[Q|[Q|Q]]|[Q _]]; congruence.
Qed.

Lemma explained : fin = Status 1 ->
  exists e s1 opts lo, a_exists (arguments parse c d) = true /\ meant o (arguments parse c d) opts /\
    update_of o (arguments parse c d) opts s = (Err e, s1) /\ documented e /\ explains s1 e lo (complained w) /\ printed w = map Text lo.
Proof.
  intro S. destruct run_cases as [(r & s1 & e & rem & rmp & _ & _ & _ & _ & _ & R)|(fin0 & l & F & D & B & R)].
  - destruct R as [[Q|[Q|Q]]|[Q _]]; congruence.
  - destruct R as [[Q|[Q|Q]]|[Q R]]; try congruence. rewrite <- Q, S, <- R in F. clear B R. inversion F as [|text e s1 lo le l' Ef U Dc X Mu|]; subst.
    exists e, s1, (cli_options o (args_of parse c (Some text))), lo. unfold arguments. rewrite Ef. split; [reflexivity|].
    split; [apply options_meant|]. split; [exact U|]. split; [exact Dc|]. destruct Mu as (M1 & M2 & _).
    split; [|exact M1]. change (explains s1 e lo (complaints (w_done w))). rewrite M2. exact X.
Qed.

Lemma reports_last l r s1 e : updates parse o c d s r s1 e -> In (Text l) (printed w) ->
  match given (c_outfile c) with Some f => now w f = Some (z e) | None => begins (bytes (z e)) (printed w) end.
Proof.
  intros U I. destruct run_cases as [(r' & s1' & e' & rem & rmp & U' & _ & _ & D & P & _)|(fin0 & l' & F & D & B & _)].
  - assert (e' = e) as ->.
    { destruct (updates_run _ _ _ _ _ _ _ _ U) as (t1 & A1 & B1 & C1). destruct (updates_run _ _ _ _ _ _ _ _ U') as (t2 & A2 & B2 & C2).
      rewrite A1 in A2. injection A2 as <-. rewrite B1 in B2. injection B2 as <- <-.
      destruct (parse t1) as [t|] eqn:Pt; [|discriminate].
      destruct (ramrod_renumbers _ _ _ _ _ _ _ t _ _ W (eq_refl : denotes s (DFile (Some t)) t) B1) as (W' & _).
      destruct (document_deref s1 _ e W' C1) as (c1 & X1 & <-). destruct (document_deref s1 _ e' W' C2) as (c2 & X2 & <-). congruence. }
    unfold printed, now in *. rewrite D. destruct P as [l0 G B|g G|g l0 G B|rs B].
    + exfalso. eapply bytes_no_text; eauto.
    + destruct I.
    + simpl in I. rewrite appends_silent in I. destruct I.
    + rewrite flat_map_app, destination_pieces. rewrite fold_left_app, printed_disk. destruct (given (c_outfile c)) as [f|] eqn:G.
      * rewrite destination_disk, G, String.eqb_refl. reflexivity.
      * eexists. reflexivity.
  - exfalso. eapply failed_not_updates; eauto.
Qed.

End Run.

(** ** Clear weather, and the tool of Cli.v *)

Lemma shows_lines z s ls : (forall root, ~ In (Document root) ls) -> shows z s ls (map Text ls).
Proof.
  induction ls as [|l ls IH]; intro H; simpl; constructor.
  - intros root ->. apply (H root). left. reflexivity.
  - apply IH. intros root I. apply (H root). right. exact I.
Qed.

Lemma tells_no_document s r a b : tells_removed s r a -> tells_remapped s r b -> forall root, ~ In (Document root) (a ++ b).
Proof.
  intros A B root H. apply in_app_iff in H as [H|H].
  - destruct A as [|tags _ _]; [destruct H|]. destruct H as [H|H]; [discriminate|]. apply in_map_iff in H as (? & ? & _). discriminate.
  - destruct B as [|l _ _]; [destruct H|]. destruct H as [H|H]; [discriminate|]. apply in_map_iff in H as (? & ? & _). discriminate.
Qed.

Lemma explains_no_document s e lo le root : explains s e lo le -> ~ In (Document root) lo.
Proof. intros X H. apply explains_out in X as [-> | ->]; [destruct H|]. destruct H as [H|[]]; discriminate. Qed.

Lemma undisturbed parse z o c d s fin w en sc s' : wf_state s ->
  tool parse z o c clear d s = (fin, w) -> cli_main o (arguments parse c d) s = (en, sc, s') ->
  fin = finish_of en /\ complained w = stderr sc /\ shows z s' (stdout sc) (printed w) /\
  (outfile sc = None -> untouched d (now w)) /\
  (forall f root, outfile sc = Some (f, root) -> exists e, document s' root e /\ forall g, now w g = if String.eqb g f then Some (z e) else d g).
Proof.
  intros W E C. destruct (updates_or_fails parse z o c d s W) as [(r & s1 & e & U)|(fin0 & w0 & E0 & D0 & F & en0 & lo & le & s0 & C0 & Fi & Mu)].
  - destruct (clear_success parse z o c d s r s1 e W U) as (rem & rmp & w0 & T1 & T2 & E0 & D0 & Dn & sc0 & C0 & Dl & Se).
    rewrite E in E0. injection E0 as -> <-. rewrite C in C0. injection C0 as -> <- ->. split; [reflexivity|].
    pose proof (tells_no_document _ _ _ _ T1 T2) as Nd. destruct U as (_ & _ & De). unfold delivered in Dl. cbn [a_outfile arguments args_of] in Dl.
    split; [unfold complained; rewrite Dn, Se; apply no_complaints, whole_no_complaint|].
    unfold printed, untouched, now. rewrite Dn, D0, flat_map_app, said_pieces, destination_pieces.
    assert (Fs : forall g, fold_left apply (destination (c_outfile c) (z e) ++ said (rem ++ rmp)) d g = fold_left apply (destination (c_outfile c) (z e)) d g)
      by (intro g; rewrite fold_left_app, printed_disk; reflexivity).
    destruct (given (c_outfile c)) as [f|] eqn:G; destruct Dl as [Of ->]; rewrite Of.
    + split; [apply shows_lines; exact Nd|]. split; [discriminate|]. intros f' root Q. injection Q as <- <-. exists e. split; [exact De|].
      intro g. rewrite Fs, destination_disk, G. reflexivity.
    + split; [constructor; [exact De|apply shows_lines; exact Nd]|]. split; [|discriminate]. intros _ g. rewrite Fs, destination_disk, G. reflexivity.
  - rewrite E in E0. injection E0 as -> ->. rewrite C in C0. injection C0 as -> -> ->. simpl. destruct Mu as (M1 & M2 & M3).
    split; [exact Fi|]. split; [exact M2|]. split; [|split; [|discriminate]].
    + unfold printed. fold (pieces (w_done w0)). rewrite M1. apply shows_lines. intros root H. pose proof F as F'.
      assert (X : In (Text (Document root)) (pieces (w_done w0))) by (rewrite M1; apply in_map; exact H).
      destruct F' as [|text x s1 lo1 le1 l1 _ _ _ X1 (N1 & _)|]; try (destruct X; fail). rewrite N1 in X. apply in_map_iff in X as (y & Q & Hy). injection Q as ->.
      eapply explains_no_document; eauto.
    + intros _ f. unfold now. rewrite D0, spoken_disk; auto.
Qed.

(** ** Only the input file matters *)

Section Alike.
Variables (f : string) (d' : disk).

Definition alike {A} (p : proc A) : Prop := forall n w s, w_disk w f = d' f ->
  let '(x, w', s') := p n w s in
  w_disk w' = w_disk w /\ p n (World d' (w_done w) (w_clock w)) s = (x, World d' (w_done w') (w_clock w'), s').

Lemma alike_bind {A B} (p : proc A) (k : A -> proc B) : alike p -> (forall x, alike (k x)) -> alike (p_bind p k).
Proof.
  intros H K n w s E. specialize (H n w s E). rewrite !p_bind_run. destruct (p n w s) as [[x w'] s']. destruct H as [D H]. rewrite H.
  destruct x as [x|e| |]; try (split; auto; fail). specialize (K x n w' s'). rewrite D in K. specialize (K E).
  destruct (k x n w' s') as [[y w2] s2]. destruct K as [D2 K]. split; [exact D2|exact K].
Qed.
Lemma alike_pure {A} (g : st -> outcome A * st) : alike (fun _ w s => let '(x, s') := g s in (x, w, s')).
Proof. intros n w s E. destruct (g s). split; auto. Qed.
Lemma alike_ret {A} (x : A) : alike (p_ret x).
Proof. exact (alike_pure (fun s => (Done x, s))). Qed.
Lemma alike_raise {A} e : alike (@p_raise A e).
Proof. exact (alike_pure (fun s => (Raised e, s))). Qed.
Lemma alike_refused {A} : alike (fun _ w s => (@RefusedError A, w, s)).
Proof. exact (alike_pure (fun s => (RefusedError, s))). Qed.
Lemma alike_run {A} (m : M A) : alike (p_run m).
Proof. intros n w s E. unfold p_run. destruct (m s) as [[x|x] s']; split; auto. Qed.

Lemma apply_alike l : forall d1 d2, d1 f = d2 f -> fold_left apply l d1 f = fold_left apply l d2 f.
Proof.
  induction l as [|e l IH]; intros d1 d2 E; simpl; [exact E|]. apply IH. destruct e as [g|g c|p|x]; simpl; auto; unfold store.
  - destruct (String.eqb f g); auto.
  - destruct (String.eqb_spec f g) as [<-|N]; [rewrite E; reflexivity|exact E].
Qed.

Lemma alike_access {A} (r : outcome A) l v : (forall d1 d2 : disk, d1 f = d2 f -> v d1 = v d2) -> alike (access r l v).
Proof.
  intros H n w s E. unfold access. cbn [w_clock]. destruct (n (w_clock w)); split; auto.
  rewrite (H (now (World d' (w_done w) (w_clock w))) (now w)); [reflexivity|]. unfold now. cbn [w_disk w_done]. apply apply_alike. auto.
Qed.
Lemma alike_does e : alike (does e).
Proof. apply alike_access. auto. Qed.
Lemma alike_close : alike close_file.
Proof. apply alike_access. auto. Qed.
Lemma alike_each {A} (g : A -> proc unit) l : (forall x, alike (g x)) -> alike (p_each g l).
Proof. intro H. induction l as [|x l IH]; simpl; [apply alike_ret|apply alike_bind; auto]. Qed.
Lemma alike_exists : alike (path_exists f).
Proof. apply alike_access. intros d1 d2 ->. reflexivity. Qed.
Lemma alike_read : alike (read_file f).
Proof. apply alike_bind; [apply alike_access; auto|]. intros [x|]; [apply alike_ret|apply alike_refused]. Qed.
End Alike.

Ltac alikely :=
  repeat (match goal with
          | |- alike _ _ (p_bind _ _) => apply alike_bind
          | |- alike _ _ (p_each _ _) => apply alike_each
          | |- alike _ _ (match ?x with _ => _ end) => destruct x
          | |- forall _, _ => intro
          | |- alike _ _ (p_ret _) => apply alike_ret
          | |- alike _ _ (p_raise _) => apply alike_raise
          | |- alike _ _ (p_run _) => apply alike_run
          | |- alike _ _ (does _) => apply alike_does
          | |- alike _ _ close_file => apply alike_close
          | |- alike _ _ (path_exists _) => apply alike_exists
          | |- alike _ _ (read_file _) => apply alike_read
          end).

Lemma alike_body parse z o c d' : alike (c_infile c) d' (p_main_body parse z o c).
Proof.
  unfold p_main_body, p_validate_args, p_write_xml, p_write_removed, p_write_remapped, p_say. cbv zeta. alikely.
Qed.

Lemma alike_handler f d' e : alike f d' (p_main_handler e).
Proof.
  unfold p_main_handler, p_print_update_error, p_print_invalid_version_error, p_print_unknown_version_error, p_complain_if, p_complain, p_say.
  destruct e; alikely.
Qed.

Lemma same_input parse z o c n d d' s fin w : d' (c_infile c) = d (c_infile c) ->
  tool parse z o c n d s = (fin, w) -> tool parse z o c n d' s = (fin, World d' (w_done w) (w_clock w)) /\ w_disk w = d.
Proof.
  intros E T. unfold tool, p_main in *. pose proof (alike_body parse z o c d' n (World d [] 0) s (eq_sym E)) as B. cbn [w_done w_clock w_disk] in B.
  destruct (p_main_body parse z o c n (World d [] 0) s) as [[x w1] s1]. destruct B as [D B]. rewrite B.
  destruct x as [u|e| |]; try (injection T as <- <-; split; [reflexivity|exact D]).
  pose proof (alike_handler (c_infile c) d' e n w1 s1) as H. rewrite D in H. specialize (H (eq_sym E)).
  destruct (p_main_handler e n w1 s1) as [[y w2] s2]. destruct H as [D2 H]. rewrite H. injection T as <- <-. split; [reflexivity|congruence].
Qed.

Lemma run_again parse z o c n d s fin w fin1 w1 fin2 w2 : wf_state s -> given (c_outfile c) <> Some (c_infile c) ->
  tool parse z o c n d s = (fin, w) -> tool parse z o c clear d s = (fin1, w1) -> tool parse z o c clear (now w) s = (fin2, w2) ->
  fin2 = fin1 /\ w_done w2 = w_done w1 /\ forall f, now w2 f = now w1 f.
Proof.
  intros W N E E1 E2. pose proof (other_files parse z o c n d s fin w W E (c_infile c) N) as I.
  destruct (same_input parse z o c clear d (now w) s fin1 w1 I E1) as [Q D1]. rewrite Q in E2. injection E2 as <- <-. cbn [w_done].
  split; [reflexivity|]. split; [reflexivity|]. intro f. change (fold_left apply (w_done w1) (now w) f = now w1 f).
  replace (now w1 f) with (fold_left apply (w_done w1) d f) by (unfold now; rewrite D1; reflexivity).
  destruct (run_cases parse z o c clear d s fin1 w1 W E1) as [(r & s1 & e & rem & rmp & U & _ & _ & _ & _ & R)|(fin0 & l & F & _ & B & _)].
  - destruct R as [R|[_ R]].
    { exfalso. destruct (clear_success parse z o c d s r s1 e W U) as (a & b & w0 & _ & _ & E0 & _). rewrite E1 in E0. injection E0 as -> ->.
      destruct R as [R|[R|R]]; discriminate. }
    rewrite R, !fold_left_app, !printed_disk, !destination_disk.
    destruct (given (c_outfile c)) as [g|] eqn:G.
    + destruct (String.eqb_spec f g) as [->|Nf]; [reflexivity|]. eapply other_files; eauto. congruence.
    + eapply other_files; eauto. congruence.
  - pose proof (proj1 (failed_spoken _ _ _ _ _ _ _ F)) as Sp. pose proof (begins_forall _ _ _ B Sp) as Sq. rewrite !spoken_disk by exact Sq.
    assert (Nu : forall r s1 e, ~ updates parse o c d s r s1 e) by (intros r s1 e; eapply failed_not_updates; eauto).
    destruct (failed_update parse z o c n d s fin w W E Nu) as [U _]. apply U.
Qed.

(** ** Every beginning of the document can be left behind *)

Definition until (k : nat) : nat -> weather := fun i => if Nat.ltb i k then Fine else Struck.

Lemma until_fine k i : (i < k)%nat -> until k i = Fine.
Proof. intro H. unfold until. apply Nat.ltb_lt in H. rewrite H. reflexivity. Qed.
Lemma until_struck k : until k k = Struck.
Proof. unfold until. rewrite Nat.ltb_irrefl. reflexivity. Qed.

Lemma each_until {A} (f : A -> effect) s p : forall q w, let k := (w_clock w + List.length p)%nat in
  exists w', w_disk w' = w_disk w /\ w_done w' = w_done w ++ map f p /\
    p_each (fun b => does (f b)) (p ++ q) (until k) w s = match q with [] => (Done tt, w', s) | _ => (Killed, w', s) end /\
    (q = [] -> w_clock w' = k).
Proof.
  induction p as [|x p IH]; intros q w k; simpl in k.
  - destruct q as [|y q]; simpl.
    + exists w. rewrite app_nil_r. repeat split. intros _. unfold k. lia.
    + exists (World (w_disk w) (w_done w) (S (w_clock w))). rewrite p_bind_run. unfold does at 1, access at 1.
      replace k with (w_clock w) by (unfold k; lia). rewrite until_struck. rewrite app_nil_r. repeat split. discriminate.
  - cbn [app p_each map]. rewrite p_bind_run. unfold does at 1, access at 1. rewrite until_fine by (unfold k; lia).
    destruct (IH q (World (w_disk w) (w_done w ++ [f x]) (S (w_clock w)))) as (w' & D & Dn & R & K). cbn [w_clock w_disk w_done] in *.
    replace (S (w_clock w) + List.length p)%nat with k in * by (unfold k; lia).
    exists w'. split; [exact D|]. split; [rewrite Dn, <- app_assoc; reflexivity|]. split; [exact R|exact K].
Qed.

Lemma list_ascii_app a b : list_ascii_of_string (a ++ b)%string = list_ascii_of_string a ++ list_ascii_of_string b.
Proof. induction a as [|x a IH]; simpl; [reflexivity|rewrite IH; reflexivity]. Qed.

Lemma any_beginning parse z o c d s r s1 e f p : wf_state s -> updates parse o c d s r s1 e -> given (c_outfile c) = Some f -> begins_text p (z e) ->
  exists n w, tool parse z o c n d s = (Dead, w) /\ now w f = Some p.
Proof.
  intros W U G (q & Q). destruct (updates_run _ _ _ _ _ _ _ _ U) as (text & Ef & E & Doc).
  destruct (parse text) as [t|] eqn:Pt; [|discriminate].
  destruct (ramrod_renumbers _ _ _ _ _ _ _ t _ _ W (eq_refl : denotes s (DFile (Some t)) t) E) as (W' & _).
  destruct (document_deref s1 _ e W' Doc) as (cx & Dr & Ex).
  set (k := (3 + List.length (list_ascii_of_string p))%nat). exists (until k).
  assert (B : exists w, p_main_body parse z o c (until k) (World d [] 0) s = (Killed, w, s1) /\ w_disk w = d /\ w_done w = Create f :: map (Append f) (list_ascii_of_string p)).
  { unfold p_main_body. rewrite p_bind_run. unfold p_validate_args. rewrite p_bind_run. unfold path_exists, access at 1. cbn [w_clock].
    rewrite until_fine by (unfold k; lia). cbn [now w_done w_disk fold_left]. rewrite Ef. unfold p_ret at 1.
    rewrite p_bind_run. unfold read_file. rewrite p_bind_run. unfold access at 1. cbn [w_clock]. rewrite until_fine by (unfold k; lia).
    unfold now. cbn [w_done w_disk fold_left app]. rewrite Ef. unfold p_ret at 1. cbv zeta.
    rewrite p_bind_run. unfold p_run at 1. rewrite Pt, E. rewrite p_bind_run. unfold p_write_xml. rewrite p_bind_run. unfold p_run at 1. rewrite Dr. cbv zeta.
    rewrite Ex, Q, list_ascii_app. unfold given in G. destruct (c_outfile c) as [[|a g]|]; try discriminate. injection G as <-.
    rewrite p_bind_run. unfold does at 1, access at 1. cbn [w_clock]. rewrite until_fine by (unfold k; lia). rewrite p_bind_run. cbn [w_disk w_done app].
    destruct (each_until (Append (String a g)) s1 (list_ascii_of_string p) (list_ascii_of_string q) (World d [Create (String a g)] 3)) as (w' & D & Dn & R & K).
    cbn [w_clock w_disk w_done] in *. fold k in R, K. rewrite R. destruct (list_ascii_of_string q) as [|b l].
    - unfold close_file, access. rewrite (K eq_refl), until_struck. eexists. split; [reflexivity|]. cbn [w_disk w_done]. split; [exact D|exact Dn].
    - eexists. split; [reflexivity|]. split; [exact D|exact Dn]. }
  destruct B as (w & B & D & Dn). exists w. unfold tool, p_main. rewrite B. split; [reflexivity|].
  unfold now. rewrite D, Dn, written, String.eqb_refl, string_of_list_ascii_of_string. reflexivity.
Qed.
