(* Specification for C95-C97: what a reference shows, and which references it leads to. *)
From Coq Require Import String List PeanoNat.
From Verif Require Import MRule MTree MGraph.
Import ListNotations.

(* the finite tree of rules seen from a reference; none exists when a stack is,
   at some depth, a member of itself *)
Inductive shows (h : heap) : nat -> tree -> Prop :=
| SH_rule : forall n c, nth_error h n = Some (NRule c) -> shows h n (Leaf c)
| SH_stack : forall n w p f d ks ts, nth_error h n = Some (NStk w p f d ks) ->
    showss h ks ts -> shows h n (Stk w p f d ts)
with showss (h : heap) : list nat -> list tree -> Prop :=
| SS_nil : showss h [] []
| SS_cons : forall k ks t ts, shows h k t -> showss h ks ts -> showss h (k :: ks) (t :: ts).

(* m is n itself, a member of n, a member of a member, ... *)
Inductive leads (h : heap) : nat -> nat -> Prop :=
| L_here : forall n, leads h n n
| L_down : forall n k m w p f d ks, nth_error h n = Some (NStk w p f d ks) -> In k ks -> leads h k m -> leads h n m.

(* the part of a tree at a path, and the tree with that part exchanged *)
Fixpoint part (t : tree) (q : list nat) : option tree :=
  match q, t with
  | [], _ => Some t
  | i :: r, Stk _ _ _ _ ks => match nth_error ks i with Some k => part k r | None => None end
  | _ :: _, Leaf _ => None
  end.
Fixpoint exchange (t : tree) (q : list nat) (u : tree) : tree :=
  match q, t with
  | [], _ => u
  | i :: r, Stk w p f d ks =>
      Stk w p f d (match nth_error ks i with Some k => set_at ks i (exchange k r u) | None => ks end)
  | _ :: _, Leaf _ => t
  end.
(* two trees with the same stacks in the same places *)
Inductive same_shape : tree -> tree -> Prop :=
| SP_leaf : forall c d, same_shape (Leaf c) (Leaf d)
| SP_stk : forall w p f d ks ls, same_shapes ks ls -> same_shape (Stk w p f d ks) (Stk w p f d ls)
with same_shapes : list tree -> list tree -> Prop :=
| SQ_nil : same_shapes [] []
| SQ_cons : forall k l ks ls, same_shape k l -> same_shapes ks ls -> same_shapes (k :: ks) (l :: ls).

(* the variable shows this tree *)
Definition var_shows (s : gst) (x : nat) (t : tree) : Prop :=
  exists n, g_var s x = Some n /\ shows (g_heap s) n t.
(* x.Push(y) or x.Replace(y, i) does not put a stack into itself *)
Definition safe (s : gst) (c : gstmt) : Prop :=
  match c with
  | GPush x y | GReplace x y _ =>
      forall n m, g_var s x = Some n -> g_var s y = Some m -> ~ leads (g_heap s) m n
  | _ => True
  end.
Fixpoint safe_run (s : gst) (prog : list gstmt) : Prop :=
  match prog with [] => True | c :: r => safe s c /\ safe_run (g_step s c) r end.
