(* Model of the constructor of lists of permission-bind rules (/repo/pb.go:346-375)
   with the panics it can raise, which MAci.v leaves out.  Definitions only. *)
From Coq Require Import String List PeanoNat Bool.
From Verif Require Import MLists MAci MView.
Import ListNotations.

(* pb.go:346-375 PBRs: _p.Push(x...) hands the arguments to the stack, which asks the
   policy (pb.go:278-302) for each.  The policy first calls contains (pb.go:316-339),
   which parses a text whenever the list has members; the text is refused in any case.
   None is a panic. *)
Fixpoint PBRs_from (W : world) (l : list pbr) (xs : list plarg) : option (list pbr) :=
  match xs with
  | [] => Some l
  | x :: t =>
      match pbrs_Contains W l x with
      | None => None
      | Some _ =>
          let l' := pbrs_push1 W l x in
          if (w_stop W && (List.length l' =? List.length l)%nat)%bool then Some l' else PBRs_from W l' t
      end
  end.
Definition PBRs_call (W : world) (xs : list plarg) : option (list pbr) := PBRs_from W [] xs.
