(* Specification for C173, C174: one Instruction and several goroutines that call Set and
   String on it. *)
From Coq Require Import String List PeanoNat Bool.
From Verif Require Import GoStr MInsGo.
Import ListNotations.

Definition i_given (css : list (list icall)) (a : iarg) : Prop := exists cs xs, In cs css /\ In (ISet xs) cs /\ In a xs.
Definition i_returned (g : igo) : Prop := itodo g = [] /\ iph g = IIdle.
Definition in_print (g : igo) : Prop := match iph g with ILab _ | ITar _ _ => True | _ => False end.
Definition prefix_of {A} (a b : list A) : Prop := exists c, b = (a ++ c)%list.
(* an instruction after one argument: a label only if there is none yet and it is not empty *)
Definition i_arg (w : ipol) (v : iins) (a : iarg) : iins :=
  match a with
  | IL x => match ilab v, x with EmptyString, String _ _ => MkIi x (itrs v) (ipbs v) | _, _ => v end
  | IT t => MkIi (ilab v) (if takeT w (itrs v) t then itrs v ++ [t] else itrs v)%list (ipbs v)
  | IP p => MkIi (ilab v) (itrs v) (if takeP w (ipbs v) p then ipbs v ++ [p] else ipbs v)%list
  end.
Definition i_args (w : ipol) (v : iins) (xs : list iarg) : iins := fold_left (i_arg w) xs v.
(* what the calls of one goroutine leave and print when nobody else calls Set *)
Fixpoint i_left (w : ipol) (v : iins) (cs : list icall) : iins :=
  match cs with [] => v | ISet xs :: r => i_left w (i_args w v xs) r | IString :: r => i_left w v r end.
Fixpoint i_alone (w : ipol) (v : iins) (cs : list icall) : list iins :=
  match cs with [] => [] | ISet xs :: r => i_alone w (i_args w v xs) r | IString :: r => v :: i_alone w v r end.
Definition i_said (g : igo) : list iins := flat_map (fun r => match r with IText l ts ps => [MkIi l ts ps] | IDone => [] end) (ires_of g).
