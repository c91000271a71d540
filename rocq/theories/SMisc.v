(* Specification of white space condensation (C43). *)
From Coq Require Import String Ascii List NArith Bool.
From Verif Require Import GoStr.
Import ListNotations.
Open Scope string_scope.

(* the blanks that are condensed: tab, newline, space *)
Definition blank (c : ascii) : bool := (Ascii.eqb c "009" || Ascii.eqb c "010" || Ascii.eqb c " ")%bool.
(* ASCII white space: the blanks, vertical tab, form feed and carriage return *)
Definition white (c : ascii) : bool := (byte_between 9 13 c || Ascii.eqb c " ")%bool.

(* the maximal runs of non-blank bytes *)
Fixpoint words (s : string) : list string :=
  match s with
  | EmptyString => []
  | String c r =>
      if blank c then words r
      else match r with
           | EmptyString => [String c EmptyString]
           | String d _ =>
               if blank d then String c EmptyString :: words r
               else match words r with
                    | w :: ws => String c w :: ws
                    | [] => [String c EmptyString]
                    end
           end
  end.

(* text without its ASCII white space *)
Fixpoint solid (s : string) : string :=
  match s with
  | EmptyString => EmptyString
  | String c r => if white c then solid r else String c (solid r)
  end.
