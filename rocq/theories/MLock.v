(* BindRules.ReadOnly and TargetRules.ReadOnly: the programs of MGraph.v and MInst.v
   with the read-only bit of every stack.  Definitions only.

   Both methods hand their argument to go-stackage (bind.go:950-956, target.go:
   631-637), whose source is not at hand.  Known from the examples: ReadOnly() on a
   new stack sets the bit, and a stack with the bit set refuses Replace
   (bind_test.go:678-697) and Push (target_test.go:479-494).  Assumed: it refuses
   Pop too, and Pop then returns nothing.  Not known, and left open as arbitrary
   values: whether ReadOnly() without an argument clears a bit that is set (toggle),
   and whether the bit also refuses Paren, Fold and NoPadding (settings).  The
   methods of a zero BindRules or TargetRules do nothing. *)
From Coq Require Import String List PeanoNat NArith Bool.
From Verif Require Import GoStr MKw MRule MTree MHeap MAci MGraph MInst.
Import ListNotations.

Definition set_bit (f : nat -> bool) (n : nat) (b : bool) : nat -> bool := fun m => if (m =? n)%nat then b else f m.

Section Lock.
Variable settings : bool.
Variable toggle : bool.

(* the bit after ReadOnly(state...) *)
Definition next_bit (state : option bool) (old : bool) : bool :=
  match state with
  | Some b => b
  | None => if old then negb toggle else true
  end.

(* ---- bind rules ---- *)
(* the bit belongs to the stack on the heap, not to the variable *)
Record bst := MkB { b_g : MGraph.gst; b_ro : nat -> bool }.
Definition b_start : bst := MkB MGraph.g_start (fun _ => false).
Inductive bstmt :=
| BDo (c : MGraph.gstmt)
| BReadOnly (x : nat) (state : option bool).  (* x.ReadOnly(), x.ReadOnly(state) *)

(* the variable whose stack a statement asks to change, and whether the bit refuses it *)
Definition stack_arg (c : MGraph.gstmt) : option nat :=
  match c with
  | MGraph.GPush x _ | MGraph.GPop _ x | MGraph.GReplace x _ _ => Some x
  | MGraph.GParen x _ | MGraph.GFold x _ | MGraph.GNoPadding x _ => if settings then Some x else None
  | _ => None
  end.
Definition refused (s : bst) (c : MGraph.gstmt) : bool :=
  match stack_arg c with
  | Some x => match node_at (b_g s) x with
              | Some (n, NStk _ _ _ _ _) => b_ro s n
              | _ => false
              end
  | None => false
  end.
Definition b_step (s : bst) (c : bstmt) : bst :=
  match c with
  | BDo c =>
      if refused s c then
        match c with
        (* bind.go:888-906: z is the nil BindContext *)
        | MGraph.GPop z _ => MkB (with_var (b_g s) z None) (b_ro s)
        (* bind.go:875-878, 919-932, 961-964, 976-979, 996-999 *)
        | _ => s
        end
      else MkB (MGraph.g_step (b_g s) c) (b_ro s)
  (* bind.go:953-956 *)
  | BReadOnly x state =>
      match node_at (b_g s) x with
      | Some (n, NStk _ _ _ _ _) => MkB (b_g s) (set_bit (b_ro s) n (next_bit state (b_ro s n)))
      | _ => s
      end
  end.
Definition b_run (s : bst) (p : list bstmt) : bst := fold_left b_step p s.

(* ---- target rules and instructions ---- *)
Variable W : world.
Record tst := MkTS { t_g : MInst.gst; t_ro : nat -> bool }.
Definition t_start : tst := MkTS MInst.g_start (fun _ => false).
Inductive tstmt :=
| TDo (c : MInst.gstmt)
| TReadOnly (t : nat) (state : option bool).  (* t.ReadOnly(), t.ReadOnly(state) *)

Definition list_ro (s : tst) (t : nat) : bool :=
  match MInst.g_lv (t_g s) t with Some l => t_ro s l | None => false end.
(* ins.go:348-384 assertInstruction: the pushes into a read-only list are refused,
   and nobody looks *)
Definition t_set1 (s : tst) (n : nat) (x : gset) : tst :=
  match nth_error (g_ins (t_g s)) n with
  | None => s
  | Some c =>
      match x with
      | GTRs _ | GTR _ => if t_ro s (ic_trs c) then s else MkTS (set1 W (t_g s) n x) (t_ro s)
      | _ => MkTS (set1 W (t_g s) n x) (t_ro s)
      end
  end.
Definition t_step (s : tst) (c : tstmt) : tst :=
  match c with
  | TDo c =>
      match c with
      (* target.go:598-601 *)
      | MInst.GPush t _ => if list_ro s t then s else MkTS (MInst.g_step W (t_g s) c) (t_ro s)
      (* target.go:608-612: x is the zero TargetRule *)
      | MInst.GPop x t =>
          if list_ro s t then MkTS (with_rv (t_g s) x None) (t_ro s) else MkTS (MInst.g_step W (t_g s) c) (t_ro s)
      (* target.go:642-660 *)
      | MInst.GNoPad t _ => if (settings && list_ro s t)%bool then s else MkTS (MInst.g_step W (t_g s) c) (t_ro s)
      (* ins.go:331-346 *)
      | MInst.GSet i xs =>
          let s := match g_iv (t_g s) i with None => MkTS (new_ins (t_g s) i) (t_ro s) | Some _ => s end in
          match g_iv (t_g s) i with
          | Some n => fold_left (fun s x => t_set1 s n x) xs s
          | None => s
          end
      | _ => MkTS (MInst.g_step W (t_g s) c) (t_ro s)
      end
  (* target.go:634-637 *)
  | TReadOnly t state =>
      match MInst.g_lv (t_g s) t with
      | Some l => MkTS (t_g s) (set_bit (t_ro s) l (next_bit state (t_ro s l)))
      | None => s
      end
  end.
Definition t_run (s : tst) (p : list tstmt) : tst := fold_left t_step p s.
End Lock.
