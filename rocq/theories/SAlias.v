(* C121: what the four alias names are, and what a program does to them, read off
   its statements alone. *)
From Coq Require Import String Ascii List PeanoNat NArith Bool.
From Verif Require Import GoStr MKw MLists MHeap SLists.
Import ListNotations.
Open Scope string_scope.

Definition stmt := @cmd dname (string * list N).
(* the four names as documented: variable i prints [alias_text i] *)
Definition alias_text (i : nat) : string := "ldap:///" ++ nth i aliases "".
(* a text as a name prints it: with the scheme, once *)
Definition schemed (t : string) : string := if String.prefix "ldap:///" t then t else "ldap:///" ++ t.

(* A view of the program: which alias, if any, each variable is a copy of, and what
   the four aliases print and which keyword each has. *)
Record view := MkV { copy_of : nat -> option nat; prints : nat -> string; keyed : nat -> N }.
(* before the first statement *)
Definition fresh : view := MkV (fun x => if (x <? 4)%nat then Some x else None) alias_text (fun _ => BindUDN).
(* Set of a text on a variable: an empty text changes nothing *)
Definition said (v : view) (x : nat) (t : string) : nat -> string :=
  match copy_of v x with
  | Some i => if (t =? "")%string then prints v else fun j => if (j =? i)%nat then schemed t else prints v j
  | None => prints v
  end.
(* the keyword given with it: groupdn and roledn are taken, all else is userdn *)
Definition keyword_given (kws : list N) : N :=
  match kws with k :: _ => if (k =? BindGDN)%N then BindGDN else if (k =? BindRDN)%N then BindRDN else BindUDN | [] => BindUDN end.
Definition rekeyed (v : view) (x : nat) (t : string) (kws : list N) : nat -> N :=
  match copy_of v x with
  | Some i => if (t =? "")%string then keyed v else fun j => if (j =? i)%nat then keyword_given kws else keyed v j
  | None => keyed v
  end.
Definition see (v : view) (c : stmt) : view :=
  let put x o := fun y => if (y =? x)%nat then o else copy_of v y in
  match c with
  | CNew x _ => MkV (put x None) (prints v) (keyed v)                  (* x := a new name *)
  | CCopy x y => MkV (put x (copy_of v y)) (prints v) (keyed v)        (* x := y *)
  | CCall x (t, kws) => MkV (copy_of v) (said v x t) (rekeyed v x t kws)           (* x.Set(t) *)
  | CAssign z x (t, kws) => MkV (put z (copy_of v x)) (said v x t) (rekeyed v x t kws)   (* z := x.Set(t) *)
  end.
Definition seen (p : list stmt) : view := fold_left see p fresh.

(* a program that gives the four variables no value and calls Set on none of them *)
Definition leaves_alone (p : list stmt) : Prop :=
  forall c, In c p -> match c with
    | CNew x _ => (4 <= x)%nat
    | CCopy x _ => (4 <= x)%nat
    | CCall x _ => (4 <= x)%nat
    | CAssign z x _ => (4 <= z)%nat /\ (4 <= x)%nat
    end.
(* a program that gives the four variables no value and never calls Set, with a text,
   on a copy of what they held *)
Fixpoint careful_from (v : view) (p : list stmt) : Prop :=
  match p with
  | [] => True
  | c :: t =>
      match c with
      | CNew x _ => (4 <= x)%nat
      | CCopy x _ => (4 <= x)%nat
      | CCall x (t, _) => copy_of v x = None \/ t = ""
      | CAssign z x (t, _) => (4 <= z)%nat /\ (copy_of v x = None \/ t = "")
      end /\ careful_from (see v c) t
  end.
(* the statements of a program that also pushes names on a list *)
Definition plain (p : list ncmd) : list stmt :=
  flat_map (fun c => match c with NDo c => [c] | NPush _ => [] end) p.
(* the texts a rule about names may carry (C28), when the aliases print [a] *)
Definition accepted_when (a : nat -> string) (s : string) : Prop :=
  (3 <= String.length s)%nat /\
  (contains_byte "=" s \/ forall i, (i < 4)%nat -> eqfold s (a i) = false).
