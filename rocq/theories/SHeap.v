(* What a user expects of variables holding values of this package: definitions
   used to state C85-C88, in terms of statements and of what variables show. *)
From Coq Require Import String List PeanoNat NArith Bool.
From Verif Require Import Shifty MHeap.
Import ListNotations.

Section Own.
Context {T A : Type}.
Variable O : obj T A.
(* the value of a variable after a method, when nothing else refers to its value *)
Definition after (v : option T) (a : A) : option T :=
  match v with
  | None => if o_ptr O a then o_set O None a else None
  | Some _ => if (o_keeps O v a || o_ptr O a)%bool then o_set O v a else v
  end.
(* the effect on variable x of the statements that name x, ignoring all others;
   a copy takes the value of the copied variable *)
Fixpoint values (p : list (@cmd T A)) (e : nat -> option T) : nat -> option T :=
  match p with
  | [] => e
  | CNew x v :: t => values t (upd e x v)
  | CCopy x y :: t => values t (upd e x (e y))
  | CCall x a :: t => values t (upd e x (after (e x) a))
  | CAssign z x a :: t => values t (upd (upd e x (after (e x) a)) z (match o_set O (e x) a with Some c => Some c | None => e x end))
  end.
(* the same for one variable, in a program that makes no copies *)
Fixpoint own (x : nat) (p : list (@cmd T A)) (v : option T) : option T :=
  match p with
  | [] => v
  | CNew y w :: t => own x t (if (x =? y)%nat then w else v)
  | CCopy _ _ :: t => own x t v
  | CCall y a :: t => own x t (if (x =? y)%nat then after v a else v)
  | CAssign z _ a :: t => own x t (if (x =? z)%nat then match o_set O v a with Some c => Some c | None => v end else v)
  end.
(* no statement gives a variable a value that another one holds *)
Definition no_copies (p : list (@cmd T A)) : Prop :=
  forall c, In c p -> match c with CCopy _ _ => False | CAssign z x _ => z = x | _ => True end.
End Own.

(* variables that certainly hold values made since the last Push *)
Definition without (x : nat) (F : list nat) : list nat := filter (fun y => negb (y =? x)%nat) F.
(* rules: no Shift, Unshift or Set on a permission or rule made before the last Push *)
Fixpoint careful (p : list rcmd) (FP FR : list nat) : Prop :=
  match p with
  | [] => True
  | RPerm x _ _ :: t => careful t (x :: FP) FR
  | RPCopy x y :: t => careful t (if existsb (Nat.eqb y) FP then x :: FP else without x FP) FR
  | RShift x _ _ :: t => In x FP /\ careful t FP FR
  | RRule r _ _ :: t => careful t FP (r :: FR)
  | RRCopy r q :: t => careful t FP (if existsb (Nat.eqb q) FR then r :: FR else without r FR)
  | RSetP r _ :: t => In r FR /\ careful t FP FR
  | RSetB r _ :: t => In r FR /\ careful t FP FR
  | RPush _ :: t => careful t [] []
  end.
(* names: no Set on a name made before the last Push *)
Fixpoint ncareful (p : list ncmd) (F : list nat) : Prop :=
  match p with
  | [] => True
  | NDo (CNew x _) :: t => ncareful t (x :: F)
  | NDo (CCopy x y) :: t => ncareful t (if existsb (Nat.eqb y) F then x :: F else without x F)
  | NDo (CCall x _) :: t => In x F /\ ncareful t F
  | NDo (CAssign z x _) :: t => In x F /\ ncareful t (z :: F)
  | NPush _ :: t => ncareful t []
  end.
