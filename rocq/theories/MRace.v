(* Push on one list, called by several goroutines: the push policy looks through the list
   and the value is appended after it has returned.  Definitions only.

   go-stackage's source is not at hand.  As everywhere in the model its Push asks the
   policy first and then appends.  Here other goroutines can move in between and between
   the rounds of the loop that looks through the list.  The append itself is taken as one
   step, which is more than a slice without lock promises; no list of the package asks for
   a lock. *)
From Coq Require Import List PeanoNat Bool.
From Verif Require Import MHeap MLists.
Import ListNotations.

Section Race.
Variable A : Type.
(* the comparison of the loop: a member, the new value *)
Variable same : A -> A -> bool.
(* what else the policy asks of the value *)
Variable good : A -> bool.

(* dn.go:1168-1173, 1234-1239; filter.go:447-452, 803-808; pb.go:331-336; ins.go:131-136:
   Looking x i is before round i of the loop for the value x.
   Appending x is behind the policy, before the append *)
Inductive pplace := Ready | Looking (x : A) (i : nat) | Appending (x : A).
(* a goroutine: what it has still to push, where it is *)
Record pusher := MkPu { queue : list A; pat : pplace }.
Definition rstate : Type := list A * list pusher.

Definition pu_step (l : list A) (g : pusher) : list A * pusher :=
  match pat g with
  | Ready => match queue g with [] => (l, g) | x :: q => (l, MkPu q (Looking x 0)) end
  | Looking x i =>
      match nth_error l i with
      | Some y => if same y x then (l, MkPu (queue g) Ready) else (l, MkPu (queue g) (Looking x (S i)))
      | None => (l, MkPu (queue g) (if good x then Appending x else Ready))
      end
  | Appending x => ((l ++ [x])%list, MkPu (queue g) Ready)
  end.
Definition race_step (st : rstate) (i : nat) : rstate :=
  match nth_error (snd st) i with
  | None => st
  | Some g => let '(l, g') := pu_step (fst st) g in (l, wr (snd st) i g')
  end.
Definition race_run (st : rstate) (q : list nat) : rstate := fold_left race_step q st.
(* a new list; goroutine k is to push the values nth k xss *)
Definition race_start (xss : list (list A)) : rstate := ([], map (fun xs => MkPu xs Ready) xss).
(* the policy as one step *)
Definition policy_of (l : list A) (x : A) : bool := negb (existsb (fun y => same y x) l) && good x.
End Race.
Arguments Ready {A}. Arguments Looking {A}. Arguments Appending {A}. Arguments MkPu {A}. Arguments queue {A}. Arguments pat {A}.
