(* Specification for C26-C32. *)
From Coq Require Import String Ascii List PeanoNat NArith Bool.
From Verif Require Import GoStr MKw MAttr MLists SAttr.
Import ListNotations.
Open Scope string_scope.

(* no two members related, the earlier one on the left *)
Definition distinct_by {A} (same : A -> A -> bool) (l : list A) : Prop :=
  ForallOrdPairs (fun x y => same x y = false) l.

(* the longest prefix of good texts *)
Fixpoint good_prefix {A B} (f : A -> option B) (l : list A) : list B :=
  match l with
  | [] => []
  | x :: r => match f x with Some y => y :: good_prefix f r | None => [] end
  end.
(* first occurrences up to [same] *)
Fixpoint firsts_by {A} (same : A -> A -> bool) (l : list A) (seen : list A) : list A :=
  match l with
  | [] => []
  | x :: r => if existsb (fun y => same y x) seen then firsts_by same r seen
              else x :: firsts_by same r (seen ++ [x])
  end.

Definition contains_byte (c : ascii) (s : string) : Prop := In c (chars s).
Definition aliases : list string := ["all"; "anyone"; "self"; "parent"].
