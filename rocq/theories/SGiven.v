(* Specification for C145: what may stand around a value in the text it is read from. *)
From Coq Require Import String Ascii List NArith Bool.
From Verif Require Import GoStr MMisc SMisc.
Import ListNotations.
Open Scope string_scope.

(* no quotation mark, or one of the three *)
Definition marks : list string := [""; """"; "'"; "`"].
(* v holds the words of w, white space before and behind them, any blanks in between *)
Definition spread (v w : string) : Prop :=
  exists l x r, v = l ++ x ++ r /\ all_bytes white l = true /\ all_bytes white r = true /\
    (forall c, first_byte x = Some c -> white c = false) /\ (forall c, last_byte x = Some c -> white c = false) /\
    words x = words w.
(* ... and quotation marks around the value t; together with marks the value has three
   characters or more *)
Definition worn (v t : string) : Prop :=
  exists a b, In a marks /\ In b marks /\ (a = "" /\ b = "" \/ 3 <= String.length (a ++ t ++ b))%nat /\ spread v (a ++ t ++ b).
(* an ASCII text with single spaces between its words, that begins and ends with neither
   white space nor a quotation mark *)
Definition bare (t : string) : Prop :=
  t <> "" /\ is_ascii t = true /\ join " " (words t) = t /\
  (forall c, first_byte t = Some c -> white c = false /\ ~ In (String c "") marks) /\
  (forall c, last_byte t = Some c -> white c = false /\ ~ In (String c "") marks).
