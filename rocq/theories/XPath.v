(** * The XPath subset used by the code (lxml's [node.xpath]).

    Every XPath string of /repo is kept verbatim in the class tables and
    parsed by [xparse] when it is evaluated.  The supported grammar is exactly
    what occurs there: unions of ".", "./step", ".//step[/step]" and
    "//step[/step]" where a step is "*" or "prefix:name", optionally followed
    by one predicate "[@name]", "[@prefix:name]" or "[prefix:name]".
    No proofs in this file. *)

From Coq Require Import String Ascii List Bool Arith.
From Verif Require Import Str Xml.
Import ListNotations.
Local Open Scope string_scope.

(** A possibly prefixed name. *)
Record pname := PN { pn_prefix : option string; pn_local : string }.

Inductive ntest := NAny | NName (n : pname).
Inductive pred := PAttr (n : pname) | PChild (n : pname).
Record step := Step { s_test : ntest; s_pred : option pred }.

Inductive alt :=
| ASelf                                              (* .         *)
| AChild (s : step)                                  (* ./s       *)
| ADesc (abs : bool) (s : step) (s2 : option step).  (* (.)//s/s2 *)

(** ** Parsing *)

Definition parse_pname (s : string) : option pname :=
  match split_char ":" s with
  | [l] => Some (PN None l)
  | [p; l] => Some (PN (Some p) l)
  | _ => None
  end.

Definition parse_pred (s : string) : option pred :=
  match drop_prefix "@" s with
  | Some s' => option_map PAttr (parse_pname s')
  | None => option_map PChild (parse_pname s)
  end.

Definition parse_test (s : string) : option ntest :=
  if String.eqb s "*" then Some NAny else option_map NName (parse_pname s).

Definition parse_step (s : string) : option step :=
  match split_char "[" s with
  | [n] =>
      match parse_test n with Some t => Some (Step t None) | None => None end
  | [n; p] =>
      match split_char "]" p with
      | [p'; EmptyString] =>
          match parse_test n, parse_pred p' with
          | Some t, Some q => Some (Step t (Some q))
          | _, _ => None
          end
      | _ => None
      end
  | _ => None
  end.

Definition parse_desc (abs : bool) (s : string) : option alt :=
  match split_char "/" s with
  | [a] => match parse_step a with Some x => Some (ADesc abs x None) | None => None end
  | [a; b] =>
      match parse_step a, parse_step b with
      | Some x, Some y => Some (ADesc abs x (Some y))
      | _, _ => None
      end
  | _ => None
  end.

Definition parse_alt (s : string) : option alt :=
  if String.eqb s "." then Some ASelf
  else match drop_prefix ".//" s with
       | Some r => parse_desc false r
       | None =>
           match drop_prefix "//" s with
           | Some r => parse_desc true r
           | None =>
               match drop_prefix "./" s with
               | Some r => option_map AChild (parse_step r)
               | None => None
               end
           end
       end.

Fixpoint sequence {A} (l : list (option A)) : option (list A) :=
  match l with
  | [] => Some []
  | Some a :: l' => match sequence l' with Some r => Some (a :: r) | None => None end
  | None :: _ => None
  end.

Definition xparse (s : string) : option (list alt) :=
  sequence (map (fun a => parse_alt (strip a)) (split_char "|" s)).

(** ** Resolution of prefixes against the [namespaces=] argument.
    An unprefixed name is a name in no namespace (XPath 1.0). *)

Definition nsmap_t := dict string.

Inductive rpred := RAttr (q : qname) | RChild (q : qname).
Record rstep := RStep { r_test : option qname; r_pred : option rpred }.
Inductive ralt :=
| RSelf
| RChildAxis (s : rstep)
| RDesc (abs : bool) (s : rstep) (s2 : option rstep).

Definition res_name (ns : nsmap_t) (n : pname) : option qname :=
  match pn_prefix n with
  | None => Some (lq (pn_local n))
  | Some p => match dict_get p ns with
              | Some u => Some (qn u (pn_local n))
              | None => None
              end
  end.

Definition res_pred (ns : nsmap_t) (p : pred) : option rpred :=
  match p with
  | PAttr n => option_map RAttr (res_name ns n)
  | PChild n => option_map RChild (res_name ns n)
  end.

Definition res_step (ns : nsmap_t) (s : step) : option rstep :=
  match (match s_test s with
         | NAny => Some None
         | NName n => option_map Some (res_name ns n)
         end),
        (match s_pred s with
         | None => Some None
         | Some p => option_map Some (res_pred ns p)
         end) with
  | Some t, Some p => Some (RStep t p)
  | _, _ => None
  end.

Definition res_alt (ns : nsmap_t) (a : alt) : option ralt :=
  match a with
  | ASelf => Some RSelf
  | AChild s => option_map RChildAxis (res_step ns s)
  | ADesc b s None =>
      match res_step ns s with Some r => Some (RDesc b r None) | None => None end
  | ADesc b s (Some s2) =>
      match res_step ns s, res_step ns s2 with
      | Some r, Some r2 => Some (RDesc b r (Some r2))
      | _, _ => None
      end
  end.

(** Parse and resolve; [None] stands for lxml's XPathEvalError (syntax error
    or undefined prefix). *)
Definition xcompile (ns : nsmap_t) (x : string) : option (list ralt) :=
  match xparse x with
  | Some l => sequence (map (res_alt ns) l)
  | None => None
  end.

(** ** Evaluation *)

Definition has_tag (q : qname) (t : tree) : bool :=
  is_elem t && qn_eqb (h_tag (head t)) q.

Definition match_step (s : rstep) (t : tree) : bool :=
  is_elem t
  && match r_test s with None => true | Some q => qn_eqb (h_tag (head t)) q end
  && match r_pred s with
     | None => true
     | Some (RAttr q) => has_attr q (head t)
     | Some (RChild q) => existsb (has_tag q) (kids t)
     end.

Definition alt_abs (a : ralt) : bool :=
  match a with RDesc b _ _ => b | _ => false end.

(** Does the node [t] with ancestors [anc] (counted up to and including the
    context node, or the document root for an absolute path) match? *)
Definition match_alt (a : ralt) (anc : list tree) (t : tree) : bool :=
  match a with
  | RSelf => match anc with [] => true | _ => false end
  | RChildAxis s => match anc with [_] => match_step s t | _ => false end
  | RDesc abs s None =>
      (abs || match anc with [] => false | _ => true end) && match_step s t
  | RDesc abs s (Some s2) =>
      match anc with
      | [] => false
      | p :: anc' =>
          (abs || match anc' with [] => false | _ => true end)
          && match_step s p && match_step s2 t
      end
  end.

Definition match_path (l : list ralt) (c : ctx) : bool :=
  existsb (fun a => match_alt a (fst c) (snd c)) l.

(** Nodes of [t] (with context) satisfying [p], in document order. *)
Definition select (p : ctx -> bool) (t : tree) : list ctx :=
  filter p (visits [] t).

Definition select_ids (p : ctx -> bool) (t : tree) : list nat :=
  map (fun c => tid (snd c)) (select p t).

(** [node.xpath(x, namespaces=ns)]: the matching nodes in document order,
    without duplicates.  A union is either all absolute or all relative in
    /repo; a mixed one is rejected here. *)
Definition xpath (i : nat) (x : string) (ns : nsmap_t) : M (list nat) :=
  c <- deref i ;;
  match xcompile ns x with
  | None => raise XPathEvalError
  | Some l =>
      if forallb alt_abs l then ret (select_ids (match_path l) (root_of c))
      else if existsb alt_abs l then raise XPathEvalError
      else ret (select_ids (match_path l) (snd c))
  end.
