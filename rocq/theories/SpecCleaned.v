(** * Words for what is left after cleaning.

    No proofs in this file. *)

From Coq Require Import String Ascii List Bool Arith.
From Verif Require Import Str Xml Utils Base Spec SpecDoc SpecPass SpecStep SpecCheck SpecClean SpecUpdate SpecReport.
Import ListNotations.
Local Open Scope string_scope.

(** The calls number [g], ..., [g' - 1] of the id function give pairwise
    different ids, none of which the document [t] already has. *)
Definition fresh_for (f : nat -> string -> string) (g g' : nat) (t : tree) : Prop :=
  (forall k k' a b, g <= k < g' -> g <= k' < g' -> f k a = f k' b -> k = k') /\
  (forall k a anc x, g <= k < g' -> In (anc, x) (visits [] t) -> id_of x <> Some (f k a)).

(** In a document with content [e] no rule finds a node. *)
Definition nothing_untranslatable_left (rules : list rule) (e : tree) : Prop :=
  forall r i, In r rules -> ~ offends r (numbered 0 e) i.

(** In a document with content [e] no two elements of the namespaces have the
    same id. *)
Definition no_id_shared (nss : list string) (e : tree) : Prop :=
  forall name i j, bears nss name (numbered 0 e) i -> bears nss name (numbered 0 e) j -> i = j.

(** Of the elements named [q] the rules take only children whose xsi:type is in
    the namespace [ns]. *)
Definition takes_only (rules : list rule) (q : qname) (ns : string) (T : tree) : Prop :=
  forall anc x k r, In (anc, x) (visits [] T) -> named q x = true -> In k (kids x) ->
    In r rules -> offends r T (tid k) -> type_in ns (x :: anc) k = true.

(** The schema type xs:dateTime has neither child elements nor an attribute id. *)
Definition simple_dates (o : oracle) : Prop :=
  forall e, o_datetime o e = true -> id_of e = None /\
    forall anc y, In (anc, y) (visits [] e) -> anc <> [] -> is_elem y = false /\ id_of y = None.

(** Cleaning the document again finds nothing to do. *)
Definition clean_again_idle (o : oracle) (up : updater) (i : nat) (e : tree) (s : st) : Prop :=
  forall opts, exists r s', clean o up (DElem i) opts s = (Ok r, s') /\
    removed_nodes r = [] /\ remapped_ids r = [] /\ document s' (r_document r) e.

(** The node [x] with ancestors [anc] is still there once everything the rules
    find is taken out: no rule finds it or an ancestor below the root. *)
Definition stays (rules : list rule) (T : tree) (anc : list tree) (x : tree) : Prop :=
  forall w r, In w (removelast (x :: anc)) -> In r rules -> ~ offends r T (tid w).

(** Every element named [q] that stays keeps a child element whose xsi:type is
    not in the namespace [ns]. *)
Definition never_emptied (rules : list rule) (q : qname) (ns : string) (T : tree) : Prop :=
  forall anc x, In (anc, x) (visits [] T) -> anc <> [] -> named q x = true -> stays rules T anc x ->
    exists k, In k (kids x) /\ is_elem k = true /\ type_in ns (x :: anc) k = false /\
      forall r, In r rules -> ~ offends r T (tid k).
