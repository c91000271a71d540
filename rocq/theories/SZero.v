(* What C118 and C119 are about, in terms of calls and printed texts. *)
From Coq Require Import String List NArith ZArith Bool.
From Verif Require Import GoStr MRights SRights MTime MAci.
Import ListNotations.
Open Scope string_scope.

(* ---- C118 ---- *)
Definition no_calls {A} (h : list A) : bool := match h with [] => true | _ => false end.
Definition is_shift (c : dow_call) : bool := match c with DShift _ => true | DUnshift _ => false end.

(* ---- C119: an enumeration with constants [const], their names and the text of any
   other number ---- *)
Definition tells {K} (print : N -> string) (const : K -> N) (name : K -> string) (mark : string) : Prop :=
  (forall k, print (const k) = name k) /\
  (forall n, (forall k, n <> const k) -> print n = mark) /\
  (forall k, name k <> mark) /\
  (forall j k, name j = name k -> j = k).
(* rights: the ten rights, none and all *)
Inductive right_or := Nothing | Everything | One (r : right).
Definition ro_const (x : right_or) : N := match x with Nothing => 0 | Everything => 895 | One r => right_const r end.
Definition ro_name (x : right_or) : string := match x with Nothing => "none" | Everything => "all" | One r => right_name r end.
(* operations of attribute filters *)
Inductive operation := OpAdd | OpDelete.
Definition op_const (o : operation) : N := match o with OpAdd => 1 | OpDelete => 2 end.
Definition op_name (o : operation) : string := match o with OpAdd => "add" | OpDelete => "delete" end.
