(* Specification for C128: members of lists and the fields of values. *)
From Coq Require Import String Ascii List PeanoNat NArith ZArith Bool.
From Verif Require Import GoStr MRights MLists MTree MAci MHeap MField.
Import ListNotations.
Open Scope string_scope.

(* every assignment to a field of a rule in this run is of a valid permission or of a
   bind context *)
Fixpoint fair (W : world) (s : rstate) (p : list fcmd) : Prop :=
  match p with
  | [] => True
  | c :: t =>
      match c with
      | FP _ x => r_pvar s x <> None
      | FB _ b => b <> None
      | _ => True
      end /\ match fexec W s c with Some s' => fair W s' t | None => False end
  end.
(* no assignment to a field of an identifier, except of the list's keyword and of
   a dot notation *)
Definition id_fair (lkw : N) (c : idcmd) : Prop :=
  match c with IdKey _ k => k = lkw | IdDot _ d => d <> None | _ => True end.
(* the rule whose field a statement selects *)
Definition selects (c : fcmd) : option nat :=
  match c with FDo _ => None | FP r _ | FB r _ | FGet _ r => Some r end.
