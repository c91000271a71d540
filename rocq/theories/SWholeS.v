(* Specification for C138: goroutines that work on objects of their own. *)
From Coq Require Import List PeanoNat.
From Verif Require Import MAci MWhole SWhole.
Import ListNotations.

(* the variables a statement mentions *)
Definition bvars (b : barg) : list nat := match b with BNil => [] | BRuleVar x | BStackVar x => [x] end.
Definition pvars (a : parg) : list nat := match a with PPerm x => [x] | PBind b => bvars b | PText _ | PAny => [] end.
Definition lvars (a : larg) : list nat := match a with LRule r => [r] | LText _ | LAny => [] end.
Definition tvars (a : targ) : list nat := match a with TVar x => [x] | TAny => [] end.
Definition svars (a : sarg) : list nat := match a with ATRs x | ATR x | APBR x | APBRs x => [x] | AText _ | AAny => [] end.
Definition jvars (a : jarg) : list nat := match a with JVar i => [i] | JText _ | JAny => [] end.
Definition vars (c : stmt) : list nat :=
  match c with
  | XZero x | XPerm x _ _ | XRule x _ | XStack x _ _ | XParen x _ | XFold x _ | XNoPad x _ | XPbrs x
  | XTr x _ | XTrs x | XTNoPad x _ | XParse x _ | XAcis x => [x]
  | XCopy x y | XShift x y _ _ | XCall x y _ | XPush x y | XPop x y | XIndex x y _ | XReplace x y _
  | XPopPbr x y | XIndexPbr x y _ | XTCall x y _ | XTPop x y | XTIndex x y _ | XTRsOf x y | XPBRsOf x y
  | XPopIns x y | XIndexIns x y _ => [x; y]
  | XPbr r p b => r :: p :: bvars b
  | XSetPbr r xs => r :: flat_map pvars xs
  | XPushPbr l xs => l :: flat_map lvars xs
  | XTPush t xs => t :: flat_map tvars xs
  | XSet i xs => i :: flat_map svars xs
  | XPushIns l xs => l :: flat_map jvars xs
  end.

(* a schedule: which goroutine executes which statement, in order of time *)
Definition schedule := list (nat * stmt).
(* the program goroutine i executes *)
Definition program_of (i : nat) (q : schedule) : list stmt := map snd (filter (fun e => (fst e =? i)%nat) q).
(* every goroutine uses its own variables only *)
Definition own_variables (owner : nat -> nat) (q : schedule) : Prop :=
  forall i c, In (i, c) q -> forall x, In x (vars c) -> owner x = i.
(* at the start, variables of different goroutines have no object in common *)
Definition own_objects (owner : nat -> nat) (s : st) : Prop := forall x y, owner x <> owner y -> apart s x y.
(* the objects variables of different goroutines have in common *)
Definition common (owner : nat -> nat) (s : st) (m : nat) : Prop :=
  exists x y n k, owner x <> owner y /\ s_var s x = Some n /\ s_var s y = Some k /\ leads (s_heap s) n m /\ leads (s_heap s) k m.
(* the program changes none of these objects *)
Fixpoint spares (W : world) (s : st) (q : list stmt) (common : nat -> Prop) : Prop :=
  match q with
  | [] => True
  | c :: r => (forall m, In m (touched s c) -> ~ common m) /\ match step W s c with Some s' => spares W s' r common | None => True end
  end.
