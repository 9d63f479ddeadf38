(** * What an XML parser makes of a text that is pasted into a document.

    No proofs in this file. *)

From Coq Require Import String Ascii List Bool Arith.
From Verif Require Import Str.
Local Open Scope string_scope.

(** Text that means itself when it is pasted into XML: no markup characters,
    no carriage return. *)
Definition plain_text (s : string) : Prop :=
  contains "<" s = false /\ contains "&" s = false /\ contains "]]>" s = false /\
  contains (String (ascii_of_nat 13) "") s = false.

(** What an XML parser reads where [s] stands: the five predefined entities mean
    a character each, the end of a line is a line feed, other characters mean
    themselves. *)
Definition carriage_return : ascii := ascii_of_nat 13.
Definition line_feed : ascii := ascii_of_nat 10.

Inductive read_as : string -> string -> Prop :=
| read_end : read_as "" ""
| read_char c s n : c <> "&"%char -> c <> "<"%char -> c <> carriage_return -> read_as s n ->
    read_as (String c s) (String c n)
| read_return c s n : c <> line_feed -> read_as (String c s) n ->
    read_as (String carriage_return (String c s)) (String line_feed n)
| read_last_return : read_as (String carriage_return "") (String line_feed "")
| read_return_feed s n : read_as (String line_feed s) n -> read_as (String carriage_return (String line_feed s)) n
| read_amp s n : read_as s n -> read_as ("&amp;" ++ s) ("&" ++ n)
| read_lt s n : read_as s n -> read_as ("&lt;" ++ s) ("<" ++ n)
| read_gt s n : read_as s n -> read_as ("&gt;" ++ s) (">" ++ n)
| read_quot s n : read_as s n -> read_as ("&quot;" ++ s) (String (ascii_of_nat 34) n)
| read_apos s n : read_as s n -> read_as ("&apos;" ++ s) ("'" ++ n).

(** Text that starts no tag and refers to no character by its number. *)
Definition without_tags (s : string) : Prop := contains "<" s = false /\ contains "&#" s = false.

(** The name of the identity in a source: its text, read as XML once more.
    Where there is no text it is the word None. *)
Definition source_name (text : option string) (name : string) : Prop :=
  match text with
  | Some s => contains "]]>" s = false /\ read_as s name
  | None => name = "None"
  end.
