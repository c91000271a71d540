(* Specification for C110-C112: what a program learns of a bind context by calling only
   Kind, Category, IsParen, Len, Index and String. *)
From Coq Require Import String Ascii List PeanoNat NArith ZArith Bool.
From Verif Require Import GoStr MRule MTree MAci MInspect STree.
Import ListNotations.
Open Scope string_scope.

Inductive seen :=
| SeenRule (keyword text : string)
| SeenStack (category : string) (paren : bool) (members : list seen).
(* the walk: a "condition" is read by Category and String, a "stack" by Category,
   IsParen and the members at the positions below Len *)
Inductive walk (text : bctx -> string) : bctx -> seen -> Prop :=
| walk_rule b : bc_kind b = "condition" -> walk text b (SeenRule (bc_category b) (text b))
| walk_stack b ks ms : bc_kind b = "stack" -> bc_len b = List.length ks ->
    (forall i, (i < bc_len b)%nat -> bc_index b i = nth_error ks i) -> Forall2 (walk text) ks ms ->
    walk text b (SeenStack (bc_category b) (bc_isParen b) ms).
(* the boolean value of what was seen, when [v] judges rules by keyword and text *)
Fixpoint verdict (negated : list bool -> bool) (v : string -> string -> bool) (s : seen) : bool :=
  match s with
  | SeenRule k t => v k t
  | SeenStack c _ ms =>
      let l := map (verdict negated v) ms in
      if String.eqb c "and" then forallb (fun b => b) l
      else if String.eqb c "or" then existsb (fun b => b) l
      else if String.eqb c "not" then negated l
      else false
  end.
(* the state the last Paren call of a history asked for *)
Definition paren_of (h : list brscall) : bool :=
  fold_left (fun p c => match c with SParen b => b | _ => p end) h false.
