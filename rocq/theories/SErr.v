(* C126, in words: what an error message tells. *)
From Coq Require Import String Ascii List PeanoNat NArith.
From Verif Require Import GoStr GoStrFacts MErr.
Import ListNotations.
Open Scope string_scope.

(* the message shows the text, letter for letter, between apostrophes *)
Definition quotes (m x : string) : Prop := exists a b, m = a ++ "'" ++ x ++ "'" ++ b.
(* the message contains the text *)
Definition mentions (m x : string) : Prop := exists a b, m = a ++ x ++ b.
(* an error tells about x: there is one, and its message quotes x *)
Definition tells (e : option string) (x : string) : Prop := exists m, e = Some m /\ quotes m x.
(* a complaint of package fmt about its own arguments, which no message should have *)
Definition complaint : string := "%!".
(* how a refused push should be reported: candidate, list and keyword, the cause if there
   is one, and no complaint *)
Definition push_report (start candidate middle list_ key cause : string) : string :=
  start ++ candidate ++ middle ++ list_ ++ " [" ++ key ++ "]" ++ cause.
(* the decimal text of a count *)
Definition count (n : nat) : string := itoa (N.of_nat n).
(* A format: a text without percent signs, then verbs, each followed by such a text. *)
Fixpoint format (ps : list (ascii * string)) : string :=
  match ps with [] => "" | (v, t) :: r => String "%" (String v (t ++ format r)) end.
(* What should be written: each verb is replaced by its argument, %T by the name of its
   type.  What should never be needed: complaints about missing and left arguments. *)
Fixpoint filled (ps : list (ascii * string)) (args : list fval) : string :=
  match ps, args with
  | [], [] => ""
  | [], a :: r => "%!(EXTRA " ++ f_type a ++ "=" ++ f_text a ++ fold_right (fun b s => ", " ++ f_type b ++ "=" ++ f_text b ++ s) ")" r
  | (v, t) :: ps, [] => "%!" ++ String v "" ++ "(MISSING)" ++ t ++ filled ps []
  | (v, t) :: ps, a :: args => (if Ascii.eqb v "T" then f_type a else f_text a) ++ t ++ filled ps args
  end.
(* an argument without percent signs *)
Definition plain (a : fval) : Prop := no_byte "%" (f_type a) = true /\ no_byte "%" (f_text a) = true.
