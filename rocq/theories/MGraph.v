(* BindRule and BindRules as references: a program of constructor and method calls
   over variables, on a heap of conditions and stacks.  Definitions only.

   A BindRule is a go-stackage Condition and a BindRules a Stack (stackage.go:
   194-206); both are structures around a pointer, so that a stack holds
   references to its members and a value taken from it is the member itself
   (bind_test.go:192-236).  What go-stackage does with an index outside the stack
   or a path that runs past a rule is not known; the model gives the zero value. *)
From Coq Require Import String Ascii List PeanoNat NArith ZArith Bool.
From Verif Require Import GoStr MKw MRule MTree.
Import ListNotations.
Open Scope string_scope.

Inductive node := NRule (c : cond) | NStk (w : word) (paren fold pad : bool) (kids : list nat).
Definition heap := list node.
(* variables hold a reference, or the zero BindRule / BindRules *)
Record gst := MkG { g_heap : heap; g_var : nat -> option nat }.
Definition g_start : gst := MkG [] (fun _ => None).

Definition set_var (f : nat -> option nat) (x : nat) (v : option nat) : nat -> option nat :=
  fun y => if (y =? x)%nat then v else f y.
Fixpoint set_at {A} (l : list A) (i : nat) (a : A) : list A :=
  match l, i with
  | [], _ => []
  | _ :: t, O => a :: t
  | b :: t, S i => b :: set_at t i a
  end.
Definition node_at (s : gst) (x : nat) : option (nat * node) :=
  match g_var s x with
  | Some n => match nth_error (g_heap s) n with Some d => Some (n, d) | None => None end
  | None => None
  end.

(* go-stackage Traverse along indices that exist *)
Fixpoint walk (h : heap) (n : nat) (p : list nat) : option nat :=
  match p with
  | [] => Some n
  | i :: q => match nth_error h n with
              | Some (NStk _ _ _ _ ks) => match nth_error ks i with Some m => walk h m q | None => None end
              | _ => None
              end
  end.
(* bind.go:1035-1061 pushPolicy, on what the reference leads to (as brs_push1) *)
Definition acceptable (d : node) : bool :=
  match d with
  | NRule c => negb (matchBKW (bkw_string (matchBKW (c_kw c))) =? 0)%N
  | NStk _ _ _ _ _ => true
  end.

Inductive gstmt :=
| GRule (x : nat) (c : cond)            (* x := a new BindRule with these fields *)
| GNew (x : nat) (w : word) (pad : bool) (* x := And(), Or() or Not() *)
| GCopy (x y : nat)                     (* x := y *)
| GPush (x y : nat)                     (* x.Push(y) *)
| GPop (z x : nat)                      (* z := x.Pop() *)
| GIndex (z x i : nat)                  (* z := x.Index(i) *)
| GTraverse (z x : nat) (p : list nat)  (* z := x.Traverse(p...) *)
| GReplace (x y i : nat)                (* x.Replace(y, i) *)
| GCall (x : nat) (c : bcall)           (* a method of BindRule that changes it *)
| GParen (x : nat) (b : bool) | GFold (x : nat) (b : bool) | GNoPadding (x : nat) (b : bool). (* of BindRules *)

Definition on_stack (s : gst) (x : nat) (f : nat -> word -> bool -> bool -> bool -> list nat -> gst) : gst :=
  match node_at s x with Some (n, NStk w p b d ks) => f n w p b d ks | _ => s end.
Definition with_node (s : gst) (n : nat) (d : node) : gst := MkG (set_at (g_heap s) n d) (g_var s).
Definition with_var (s : gst) (z : nat) (v : option nat) : gst := MkG (g_heap s) (set_var (g_var s) z v).
Definition fresh (s : gst) (x : nat) (d : node) : gst :=
  MkG (g_heap s ++ [d])%list (set_var (g_var s) x (Some (List.length (g_heap s)))).

Definition g_step (s : gst) (c : gstmt) : gst :=
  match c with
  (* bind.go:126-146 *)
  | GRule x c => fresh s x (NRule c)
  (* bind.go:420-525; arguments are pushed one by one *)
  | GNew x w pad => fresh s x (NStk w false false pad [])
  | GCopy x y => with_var s x (g_var s y)
  (* bind.go:875-878 *)
  | GPush x y =>
      on_stack s x (fun n w p f d ks =>
        match node_at s y with
        | Some (m, e) => if acceptable e then with_node s n (NStk w p f d (ks ++ [m])%list) else s
        | None => s
        end)
  (* bind.go:888-906 *)
  | GPop z x =>
      match node_at s x with
      | Some (n, NStk w p f d ks) =>
          with_var (with_node s n (NStk w p f d (removelast ks))) z (nth_error ks (List.length ks - 1))
      | _ => with_var s z None
      end
  (* bind.go:253-255, 937-948 *)
  | GIndex z x i =>
      match node_at s x with
      | Some (n, NRule _) => with_var s z (Some n)
      | Some (n, NStk w p f d ks) => with_var s z (nth_error ks i)
      | None => with_var s z None
      end
  (* bind.go:246-248, 1004-1020; badBindRules is the zero value *)
  | GTraverse z x p =>
      match node_at s x with
      | Some (n, NRule _) => with_var s z (Some n)
      | Some (n, NStk _ _ _ _ _) => with_var s z (match p with [] => None | _ => walk (g_heap s) n p end)
      | None => with_var s z None
      end
  (* bind.go:919-932.  Whether go-stackage checks the new member is not known: the
     model replaces by what Push would accept and nothing else. *)
  | GReplace x y i =>
      on_stack s x (fun n w p f d ks =>
        match node_at s y with
        | Some (m, e) => if acceptable e then with_node s n (NStk w p f d (set_at ks i m)) else s
        | None => s
        end)
  (* bind.go:295-298, 355-362, 698-755, 768-802 *)
  | GCall x k =>
      match node_at s x with
      | Some (n, NRule c) => match br_step (Some c) k with Some c' => with_node s n (NRule c') | None => s end
      | _ => s
      end
  (* bind.go:961-964, 976-979, 996-999 *)
  | GParen x b => on_stack s x (fun n w p f d ks => with_node s n (NStk w b f d ks))
  | GFold x b => on_stack s x (fun n w p f d ks => with_node s n (NStk w p b d ks))
  | GNoPadding x b => on_stack s x (fun n w p f d ks => with_node s n (NStk w p f (negb b) ks))
  end.
Definition g_run (s : gst) (prog : list gstmt) : gst := fold_left g_step prog s.
