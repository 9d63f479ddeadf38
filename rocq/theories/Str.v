(** * Python string operations used by the modelled code.

    Strings are Coq [string]s (lists of 8-bit characters).  Python's unicode
    strings are modelled by their code points below 256 (SIMPLIFICATION: code
    points >= 256 are not representable).  No proofs in this file. *)

From Coq Require Import String Ascii List Bool Arith NArith.
Import ListNotations.
Local Open Scope string_scope.

(** Python truthiness of an optional string: [None] and [''] are false.
    Used e.g. by /repo/ramrod/stix/__init__.py:56 ("from_ or ..."). *)
Definition truthy (o : option string) : bool :=
  match o with
  | Some s => negb (String.eqb s "")
  | None => false
  end.

(** Optional-string equality. *)
Definition ostr_eqb (a b : option string) : bool :=
  match a, b with
  | Some x, Some y => String.eqb x y
  | None, None => true
  | _, _ => false
  end.

(** [x in l] for a tuple/list of strings. *)
Definition mem_str (x : string) (l : list string) : bool :=
  existsb (String.eqb x) l.

(** [str.split(c)] for a one-character separator: never empty, keeps empty
    fields.  Used by /repo/ramrod/utils.py:135 and :172. *)
Fixpoint split_char (c : ascii) (s : string) : list string :=
  match s with
  | EmptyString => [EmptyString]
  | String a s' =>
      if Ascii.eqb a c then EmptyString :: split_char c s'
      else match split_char c s' with
           | [] => [String a EmptyString]
           | w :: ws => String a w :: ws
           end
  end.

(** [str.isspace] for the code points below 256. *)
Definition is_space (a : ascii) : bool :=
  let n := nat_of_ascii a in
  (Nat.leb 9 n && Nat.leb n 13) || (Nat.leb 28 n && Nat.leb n 32)
  || Nat.eqb n 133 || Nat.eqb n 160.

(** [str.split()] with no argument: maximal runs of non-space characters.
    Used by /repo/ramrod/utils.py:250 and :345. *)
Fixpoint split_ws (s : string) : list string :=
  match s with
  | EmptyString => []
  | String a s' =>
      if is_space a then split_ws s'
      else match s' with
           | EmptyString => [String a EmptyString]
           | String b _ =>
               if is_space b then String a EmptyString :: split_ws s'
               else match split_ws s' with
                    | [] => [String a EmptyString]
                    | w :: ws => String a w :: ws
                    end
           end
  end.

(** [sep.join(l)]. *)
Fixpoint join (sep : string) (l : list string) : string :=
  match l with
  | [] => ""
  | [x] => x
  | x :: xs => x ++ sep ++ join sep xs
  end.

(** [s.startswith(p)]; [drop_prefix p s] is [s[len(p):]] in that case. *)
Fixpoint drop_prefix (p s : string) : option string :=
  match p, s with
  | EmptyString, _ => Some s
  | String a p', String b s' => if Ascii.eqb a b then drop_prefix p' s' else None
  | String _ _, EmptyString => None
  end.

Definition starts_with (p s : string) : bool :=
  match drop_prefix p s with Some _ => true | None => false end.

(** [p in s] (substring test). *)
Fixpoint contains (p s : string) : bool :=
  starts_with p s ||
  match s with
  | EmptyString => false
  | String _ s' => contains p s'
  end.

(** [s.replace(old, new)] for a non-empty [old]: leftmost, non-overlapping.
    [skip] counts the characters of a match that are still to be consumed. *)
Fixpoint replace_from (old new : string) (skip : nat) (s : string) : string :=
  match s with
  | EmptyString => EmptyString
  | String a s' =>
      match skip with
      | S k => replace_from old new k s'
      | O => if starts_with old s
             then new ++ replace_from old new (String.length old - 1) s'
             else String a (replace_from old new 0 s')
      end
  end.

Definition replace (old new s : string) : string := replace_from old new 0 s.

(** [str.strip()]: drop leading and trailing whitespace. *)
Fixpoint lstrip (s : string) : string :=
  match s with
  | EmptyString => EmptyString
  | String a s' => if is_space a then lstrip s' else s
  end.

Fixpoint rstrip (s : string) : string :=
  match s with
  | EmptyString => EmptyString
  | String a s' =>
      match rstrip s' with
      | EmptyString => if is_space a then EmptyString else String a EmptyString
      | r => String a r
      end
  end.

Definition strip (s : string) : string := rstrip (lstrip s).

(** The newline character and runs of spaces, for literals that contain them. *)
Definition nl : string := String (ascii_of_nat 10) EmptyString.

Fixpoint spaces (n : nat) : string :=
  match n with
  | O => ""
  | S k => " " ++ spaces k
  end.

(** ** Version numbers (distutils.version.StrictVersion) *)

Definition is_digit (a : ascii) : bool :=
  let n := nat_of_ascii a in Nat.leb 48 n && Nat.leb n 57.

Definition digit_val (a : ascii) : N := N.of_nat (nat_of_ascii a - 48).

(** Longest prefix of decimal digits, its value, and the rest.  [None] when
    there is no digit ("\d+" needs one). *)
Fixpoint digits_acc (acc : N) (s : string) : N * string :=
  match s with
  | String a s' =>
      if is_digit a then digits_acc (acc * 10 + digit_val a)%N s' else (acc, s)
  | EmptyString => (acc, s)
  end.

Definition digits (s : string) : option (N * string) :=
  match s with
  | String a s' => if is_digit a then Some (digits_acc 0 s) else None
  | EmptyString => None
  end.

(** A parsed [StrictVersion]: (major, minor, patch) and an optional
    pre-release tag such as [a1] or [b2]. *)
Record sver := SVer { sv_num : N * N * N; sv_pre : option (ascii * N) }.

(** The end of the regular expression: "$" also matches just before a final
    newline. *)
Definition at_end (s : string) : bool :=
  match s with
  | EmptyString => true
  | _ => String.eqb s nl
  end.

Definition sver_pre (v : N * N * N) (s : string) : option sver :=
  if at_end s then Some (SVer v None)
  else match s with
       | String c s' =>
           if Ascii.eqb c "a" || Ascii.eqb c "b" then
             match digits s' with
             | Some (n, r) => if at_end r then Some (SVer v (Some (c, n))) else None
             | None => None
             end
           else None
       | EmptyString => None
       end.

(** [StrictVersion(s)]: regular expression
    [^(\d+) \. (\d+) (\. (\d+))? ([ab](\d+))?$] (verbose mode, blanks ignored);
    [None] stands for the ValueError it raises on any other string.
    Called from /repo/ramrod/utils.py:268 and :303. *)
Definition strict_version (s : string) : option sver :=
  match digits s with
  | Some (maj, String "." s1) =>
      match digits s1 with
      | Some (mnr, r) =>
          match r with
          | String "." r' =>
              match digits r' with
              | Some (p, r'') => sver_pre (maj, mnr, p) r''
              | None => None
              end
          | _ => sver_pre (maj, mnr, 0%N) r
          end
      | None => None
      end
  | _ => None
  end.

Definition num_compare (a b : N * N * N) : comparison :=
  let '(a1, a2, a3) := a in
  let '(b1, b2, b3) := b in
  match N.compare a1 b1 with
  | Eq => match N.compare a2 b2 with
          | Eq => N.compare a3 b3
          | c => c
          end
  | c => c
  end.

(** [StrictVersion._cmp]: numeric triple first; then "no pre-release" sorts
    after any pre-release; two pre-releases compare as (letter, number). *)
Definition sver_compare (x y : sver) : comparison :=
  match num_compare (sv_num x) (sv_num y) with
  | Eq =>
      match sv_pre x, sv_pre y with
      | None, None => Eq
      | Some _, None => Lt
      | None, Some _ => Gt
      | Some (c, n), Some (d, m) =>
          match Nat.compare (nat_of_ascii c) (nat_of_ascii d) with
          | Eq => N.compare n m
          | r => r
          end
      end
  | c => c
  end.

(** Association lists standing for Python dicts with string keys (insertion
    ordered, one entry per key). *)
Definition dict (A : Type) := list (string * A).

Fixpoint dict_get {A} (k : string) (d : dict A) : option A :=
  match d with
  | [] => None
  | (k', v) :: d' => if String.eqb k k' then Some v else dict_get k d'
  end.

(** [d.get(k, default)]. *)
Definition dict_getd (k : string) (default : string) (d : dict string) : string :=
  match dict_get k d with Some v => v | None => default end.

(** [d[k] = v]. *)
Fixpoint dict_set {A} (k : string) (v : A) (d : dict A) : dict A :=
  match d with
  | [] => [(k, v)]
  | (k', v') :: d' =>
      if String.eqb k k' then (k', v) :: d' else (k', v') :: dict_set k v d'
  end.

(** [d.update(e)]; also [dict(itertools.chain(d.items(), e.items()))]. *)
Definition dict_update {A} (d e : dict A) : dict A :=
  fold_left (fun acc kv => dict_set (fst kv) (snd kv) acc) e d.
