(* String of one attribute filter operation, called by several goroutines: the method
   takes the presentation policy off, prints, and puts it back.  Definitions only.

   go-stackage's source is not at hand.  From filter.go:856-860: while the policy is
   set, the stack's own String returns what the policy returns.  The policy is the
   method itself (filter.go:861-863), so a stack that still has it when it is printed
   calls the method once more. *)
From Coq Require Import String List PeanoNat Bool.
From Verif Require Import GoStr MFilter MHeap.
Import ListNotations.
Open Scope string_scope.

(* filter.go:845-854, between its statements.  The first number counts the calls
   further out, which wait for this one:
   Clearing: before SetPresentationPolicy(nil) (line 850);
   Reading: before _r.String() (line 851);
   Restoring: the text is made, before SetPresentationPolicy(r.presentationPolicy)
   (line 852) and the return *)
Inductive place := Outside | Clearing (d : nat) | Reading (d : nat) | Restoring (d : nat) (s : string).
(* a goroutine: calls of String it has still to begin, where it is, the texts it got *)
Record goroutine := MkGo { todo : nat; whereat : place; got : list string }.
(* is the policy set; the goroutines *)
Definition pstate : Type := bool * list goroutine.

Section Op.
Variable o : afo.
(* filter.go:851: the text of the stack without policy, and what sprintf makes of it *)
Definition plain : string := join " && " (map af_string (afo_mem o)).
Definition wrapped (s : string) : string := aop_string (afo_op o) ++ "=" ++ s.

(* one statement of one goroutine.  IsZero (filter.go:846-848) and Operation write
   nothing; the nil operation, which has no policy, is left out. *)
Definition go1 (policy : bool) (g : goroutine) : bool * goroutine :=
  match whereat g with
  | Outside =>
      match todo g with
      | O => (policy, g)
      | S n => (policy, MkGo n (Clearing 0) (got g))
      end
  | Clearing d => (false, MkGo (todo g) (Reading d) (got g))
  | Reading d =>
      if policy then (policy, MkGo (todo g) (Clearing (S d)) (got g))
      else (policy, MkGo (todo g) (Restoring d (wrapped plain)) (got g))
  | Restoring d s =>
      match d with
      | O => (true, MkGo (todo g) Outside (got g ++ [s])%list)
      | S d => (true, MkGo (todo g) (Restoring d (wrapped s)) (got g))
      end
  end.
Definition go_step (st : pstate) (i : nat) : pstate :=
  match nth_error (snd st) i with
  | None => st
  | Some g => let '(p, g') := go1 (fst st) g in (p, wr (snd st) i g')
  end.
Definition go_run (st : pstate) (q : list nat) : pstate := fold_left go_step q st.
(* filter.go:909-923 AFO sets the policy; goroutine k is to call String (nth k ns) times *)
Definition go_start (ns : list nat) : pstate := (true, map (fun n => MkGo n Outside []) ns).
End Op.
