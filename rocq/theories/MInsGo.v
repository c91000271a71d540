(* One Instruction and several goroutines that call Set and String on it, part by part.
   Definitions only.

   Simplifications: the variable holds an instruction made by ACI, so that no call writes its
   pointer (the first call of Set is that of C155, C156); rules are their texts, which nobody
   changes meanwhile; a push on one of the two stacks is one step (C146 takes it apart) that
   adds the rule or does nothing, as the policy of the stack says; printing a stack is one
   step; a stack as an argument stands for its members, one after the other (ins.go:371-384);
   arguments of other types do nothing and are left out. *)
From Coq Require Import String List PeanoNat Bool.
From Verif Require Import GoStr MHeap.
Import ListNotations.

(* a label, a target rule, a permission-bind rule *)
Inductive iarg := IL (x : string) | IT (t : string) | IP (p : string).
Inductive icall := ISet (xs : list iarg) | IString.
(* where a goroutine is: in no call; in set (ins.go:342-361) with arguments left; in setLabel
   (ins.go:363-369) after the tests; in String (ins.go:160-170) when the label is read for the
   call of sprintf, when the target rules are printed *)
Inductive iphase := IIdle | ISetting (xs : list iarg) | IWriting (x : string) (xs : list iarg) | ILab (l : string) | ITar (l : string) (ts : list string).
(* what calls return: Set nothing new, String a text of a label, target rules and
   permission-bind rules *)
Inductive ires := IDone | IText (l : string) (ts ps : list string).
Record igo := MkIg { itodo : list icall; iph : iphase; ires_of : list ires }.
(* an instruction (ins.go:68-72) *)
Record iins := MkIi { ilab : string; itrs : list string; ipbs : list string }.
Record istate := MkIs { inow : iins; igos : list igo }.
(* what the policies of the two stacks take (target.go:675-698, pb.go:278-301) *)
Record ipol := MkIp { takeT : list string -> string -> bool; takeP : list string -> string -> bool }.
Definition i_gstep (w : ipol) (v : iins) (g : igo) : iins * igo :=
  let go k := MkIg (itodo g) k (ires_of g) in
  let ret r := MkIg (itodo g) IIdle (ires_of g ++ [r])%list in
  match iph g with
  | IIdle =>
      match itodo g with
      | [] => (v, g)
      | ISet xs :: cs => (v, MkIg cs (ISetting xs) (ires_of g))
      | IString :: cs => (v, MkIg cs (ILab (ilab v)) (ires_of g))
      end
  | ISetting [] => (v, ret IDone)
  | ISetting (IL x :: xs) => (v, go (if (Nat.ltb 0 (String.length x) && Nat.eqb (String.length (ilab v)) 0)%bool then IWriting x xs else ISetting xs))
  | ISetting (IT t :: xs) => (MkIi (ilab v) (if takeT w (itrs v) t then itrs v ++ [t] else itrs v)%list (ipbs v), go (ISetting xs))
  | ISetting (IP p :: xs) => (MkIi (ilab v) (itrs v) (if takeP w (ipbs v) p then ipbs v ++ [p] else ipbs v)%list, go (ISetting xs))
  | IWriting x xs => (MkIi x (itrs v) (ipbs v), go (ISetting xs))
  | ILab l => (v, go (ITar l (itrs v)))
  | ITar l ts => (v, ret (IText l ts (ipbs v)))
  end.
Definition i_step (w : ipol) (st : istate) (i : nat) : istate :=
  match nth_error (igos st) i with
  | None => st
  | Some g => let '(v, g') := i_gstep w (inow st) g in MkIs v (wr (igos st) i g')
  end.
Definition i_sched (w : ipol) (st : istate) (q : list nat) : istate := fold_left (i_step w) q st.
Definition i_start (v : iins) (css : list (list icall)) : istate := MkIs v (map (fun cs => MkIg cs IIdle []) css).
