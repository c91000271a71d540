(* C125, in words: what the variables RulePadding and StackPadding decide. *)
From Coq Require Import String List Bool.
From Verif Require Import GoStr MLists MRule MTree MPad.
Import ListNotations.
Open Scope string_scope.

(* the value of a variable after a program: the last assignment, true without one *)
Fixpoint last_of (f : pev -> option bool) (h : list pev) : option bool :=
  match h with
  | [] => None
  | e :: h => match last_of f h with Some b => Some b | None => f e end
  end.
Definition or_else (o : option bool) (d : bool) : bool := match o with Some b => b | None => d end.
Definition rule_padding (h : list pev) : bool :=
  or_else (last_of (fun e => match e with ERulePadding b => Some b | _ => None end) h) true.
Definition stack_padding (h : list pev) : bool :=
  or_else (last_of (fun e => match e with EStackPadding b => Some b | _ => None end) h) true.
(* the padding of instance n after calls h: decided by its last NoPadding, else as made *)
Definition padding_then (n : nat) (h : list pev) (made : bool) : bool :=
  match last_of (fun e => match e with ENoPadding i b => if Nat.eqb i n then Some b else None | _ => None end) h with
  | Some b => negb b
  | None => made
  end.
(* whether it is in parentheses: the state last given to Paren, no at first *)
Definition parens_then (n : nat) (h : list pev) : bool :=
  or_else (last_of (fun e => match e with EParen i b => if Nat.eqb i n then Some b else None | _ => None end) h) false.
(* a blank, or nothing *)
Definition blank_if (b : bool) : string := if b then " " else "".
Definition in_parens (paren pad : bool) (s : string) : string :=
  if paren then "(" ++ blank_if pad ++ s ++ blank_if pad ++ ")" else s.
(* keyword, operator and value on a line, with blanks around the operator or without *)
Definition line (pad : bool) (kw op v : string) : string := kw ++ blank_if pad ++ op ++ blank_if pad ++ v.
(* the number the next instance gets, and the text instance n shows after a program *)
Definition next (stop : bool) (h : list pev) : nat := List.length (p_objs (prun stop h)).
Definition shows (stop topnot : bool) (notsep : string) (h : list pev) (n : nat) (t : string) : Prop :=
  exists o, nth_error (p_objs (prun stop h)) n = Some o /\ obj_text topnot notsep o = t.
(* the claim for all stacks: one that is made while StackPadding is b, and not touched
   afterwards, has blanks between the texts of its members exactly when b is true *)
Definition follows_stack_padding : Prop :=
  forall stop topnot notsep h xs ms, trs_push stop [] xs = ms -> (2 <= List.length ms)%nat ->
  exists sep, shows stop topnot notsep (h ++ [ETRs xs]) (next stop h) (join sep (map tr_string ms)) /\
              (sep = "" <-> stack_padding h = false).
