(* Instruction.Set with labels, called by several goroutines on one variable of type
   Instruction, statement by statement.  Definitions only.

   Arguments of other types than string are left out: they do not touch the label. *)
From Coq Require Import String List PeanoNat Bool.
From Verif Require Import GoStr MHeap.
Import ListNotations.
Open Scope string_scope.

(* Off: in no call.
   Making xs: r.instruction was nil, before r.instruction = newACI() (ins.go:333).
   Taking xs: before r.instruction is read for the call of set (ins.go:335).
   Setting p xs: in the loop of set on the instruction p (ins.go:342-346), the arguments
   left to go through.
   Writing p x xs: the test of setLabel was passed, before r.ACL = x (ins.go:367) *)
Inductive oplace := Off | Making (xs : list string) | Taking (xs : list string)
                  | Setting (p : nat) (xs : list string) | Writing (p : nat) (x : string) (xs : list string).
(* a goroutine: the arguments of its calls of Set still to come, where it is *)
Record setter := MkSe { calls : list (list string); oat : oplace }.
(* the labels of the instructions made so far; the pointer in the variable; the goroutines *)
Record ostate := MkOs { labels : list string; ovar : option nat; setters : list setter }.

Definition label_at (ls : list string) (p : nat) : string := nth p ls "".
(* one statement of one goroutine: ins.go:331-337 Set, 342-346 set, 348-351 assertInstruction,
   363-369 setLabel; ins.go:312-321 newACI without arguments.  A nil pointer at line 335
   would be a panic; it cannot be, as nothing stores nil (see TOnce.v). *)
Definition se_step (ls : list string) (v : option nat) (g : setter) : list string * option nat * setter :=
  match oat g with
  | Off => match calls g with
           | [] => (ls, v, g)
           | xs :: cs => (ls, v, MkSe cs (match v with None => Making xs | Some _ => Taking xs end))
           end
  | Making xs => ((ls ++ [""])%list, Some (List.length ls), MkSe (calls g) (Taking xs))
  | Taking xs => (ls, v, MkSe (calls g) (match v with Some p => Setting p xs | None => Off end))
  | Setting p [] => (ls, v, MkSe (calls g) Off)
  | Setting p (x :: xs) =>
      (ls, v, MkSe (calls g) (if ((0 <? String.length x) && (String.length (label_at ls p) =? 0))%nat then Writing p x xs else Setting p xs))
  | Writing p x xs => (wr ls p x, v, MkSe (calls g) (Setting p xs))
  end.
Definition once_step (st : ostate) (i : nat) : ostate :=
  match nth_error (setters st) i with
  | None => st
  | Some g => let '(ls, v, g') := se_step (labels st) (ovar st) g in MkOs ls v (wr (setters st) i g')
  end.
Definition once_run (st : ostate) (q : list nat) : ostate := fold_left once_step q st.
(* var i Instruction (None), or an instruction made by ACI with the label s (Some s; ACI()
   is Some ""); goroutine k is to call Set with the arguments nth k css *)
Definition once_start (v : option string) (css : list (list (list string))) : ostate :=
  let gs := map (fun cs => MkSe cs Off) css in
  match v with None => MkOs [] None gs | Some s => MkOs [s] (Some 0) gs end.
(* the label the variable shows: ins.go:261-266 ACL *)
Definition label_of (st : ostate) : string := match ovar st with None => "" | Some p => label_at (labels st) p end.
