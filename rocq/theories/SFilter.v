(* Specification for the attribute filter and URI properties. *)
From Coq Require Import String Ascii List PeanoNat NArith Bool.
From Verif Require Import GoStr SMisc SAttr.
Import ListNotations.
Open Scope string_scope.

(* a word: ASCII bytes that are no white space, at least one *)
Definition word (w : string) : Prop :=
  w <> "" /\ forall c, In c (chars w) -> ascii_byte c = true /\ white c = false.
(* words with one space between them *)
Definition neat (s : string) : Prop :=
  exists w ws, s = join " " (w :: ws) /\ word w /\ Forall word ws.
(* s has p in it *)
Definition occurs (p s : string) : Prop := exists a b, s = a ++ p ++ b.
Definition quote_mark (c : ascii) : Prop := c = """"%char \/ c = "'"%char \/ c = "`"%char.
Definition ends_with (c : ascii) (s : string) : Prop := exists a, s = a ++ String c "".
Definition starts_with (c : ascii) (s : string) : Prop := exists a, s = String c a.

(* a filter that can be an item of an operation text *)
Definition item_filter (f : string) : Prop :=
  neat f /\ ~ occurs "&&" f /\ (forall q, quote_mark q -> ~ ends_with q f).
(* ... and of a list of operations separated by c *)
Definition list_filter (c : ascii) (f : string) : Prop :=
  item_filter f /\ ~ In c (chars f) /\ ~ occurs "add=" f /\ ~ occurs "delete=" f.
(* an attribute name of ASCII bytes *)
Definition ascii_name (a : string) : Prop := attr_name a /\ forall c, In c (chars a) -> ascii_byte c = true.
(* the text of one attribute filter *)
Definition item_text (i : string * string) : string := fst i ++ ":" ++ snd i.
(* two items with the same attribute text and the same filter text *)
Definition same_item (i j : string * string) : bool := String.eqb (fst i) (fst j) && String.eqb (snd i) (snd j).
Definition has_filter (i : string * string) : bool := negb (String.eqb (snd i) "").
