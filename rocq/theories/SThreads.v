(* Specification for C140-C142: goroutines that share no object they change.  The words
   are those of SWholeS.v, for any machine whose statements mention variables. *)
From Coq Require Import List PeanoNat Bool String NArith Ascii.
From Verif Require Import MMisc MLists MFilter MRule MHeap MShare MFShare SShare SFShare.
Import ListNotations.

Section Machine.
Context {St Stmt Var Ob : Type}.
Variable step : St -> Stmt -> St.
Variable vars : Stmt -> list Var.                (* the variables a statement mentions *)
Variable changes : St -> Stmt -> Ob -> Prop.     (* the statement, executed here, writes this object *)
Variable leads : St -> Var -> Ob -> Prop.        (* the object is the one the variable holds or one inside it *)
(* which goroutine executes which statement, in order of time *)
Definition schedule := list (nat * Stmt).
Definition runs (s : St) (q : list Stmt) : St := fold_left step q s.
Definition program_of (i : nat) (q : schedule) : list Stmt := map snd (filter (fun e => (fst e =? i)%nat) q).
Definition own_variables (owner : Var -> nat) (q : schedule) : Prop :=
  forall i c, In (i, c) q -> forall x, In x (vars c) -> owner x = i.
(* the objects variables of different goroutines have in common *)
Definition common (owner : Var -> nat) (s : St) (m : Ob) : Prop :=
  exists x y, owner x <> owner y /\ leads s x m /\ leads s y m.
(* the program changes none of these objects *)
Fixpoint spares (s : St) (q : list Stmt) (com : Ob -> Prop) : Prop :=
  match q with
  | [] => True
  | c :: r => (forall m, changes s c m -> ~ com m) /\ spares (step s c) r com
  end.
End Machine.

(* ---- values around a pointer and rules made from them (MShare.v, Values) ---- *)
Inductive vname := VVal (x : nat) | VRul (r : nat).
Section Values.
Context {T A : Type}.
Variable O : obj T A.
Definition v_vars (c : @vcmd T A) : list vname :=
  match c with
  | VDo (CNew x _) => [VVal x]
  | VDo (CCopy x y) => [VVal x; VVal y]
  | VDo (CCall x _) => [VVal x]
  | VDo (CAssign z x _) => [VVal z; VVal x]
  | VMake r x _ => [VRul r; VVal x]
  | VCopy r q => [VRul r; VRul q]
  end.
Definition v_changes (s : @vst T) (c : @vcmd T A) (n : nat) : Prop :=
  match c with
  | VDo (CCall x a) | VDo (CAssign _ x a) => st_var (v_st s) x = Some n /\ o_keeps O (look (v_st s) x) a = true
  | _ => False
  end.
Definition v_leads (s : @vst T) (x : vname) (n : nat) : Prop :=
  match x with
  | VVal x => st_var (v_st s) x = Some n
  | VRul r => exists c, MShare.v_rule s r = Some (c, Some n)
  end.
End Values.

(* ---- lists and the rules that hold them (MShare.v) ---- *)
Inductive lname := VLst (x : nat) | VLRul (r : nat).
Inductive lobj := OLst (n : nat) | ORul (n : nat).
Definition l_vars (c : sstmt) : list lname :=
  match c with
  | SList x _ => [VLst x]
  | SLCopy x y => [VLst x; VLst y]
  | SDo x _ => [VLst x]
  | SMake r x _ | SSet r x => [VLRul r; VLst x]
  | SRCopy r q => [VLRul r; VLRul q]
  | SCall r _ => [VLRul r]
  end.
Definition l_changes (s : sst) (c : sstmt) (o : lobj) : Prop :=
  match c, o with
  | SDo x _, OLst n => s_lvar s x = Some n
  | SSet r _, ORul n => s_rvar s r = Some n
  | SCall r _, ORul n => s_rvar s r = Some n
  | SCall r m, OLst n => is_style m = true /\ holds s r = Some n
  | _, _ => False
  end.
Definition l_leads (s : sst) (x : lname) (o : lobj) : Prop :=
  match x, o with
  | VLst x, OLst n => s_lvar s x = Some n
  | VLst _, ORul _ => False
  | VLRul r, ORul n => s_rvar s r = Some n
  | VLRul r, OLst n => holds s r = Some n
  end.

(* ---- search filters, attribute filters, operations and lists of operations (MFShare.v);
   variables, parts and changed cells as in SFShare.v ---- *)
Definition aarg_vars (a : aarg) : list fvar := match a with RSF x => [VSf x] | _ => [] end.
Definition oparg_vars (a : oparg') : list fvar := match a with QAF a => [VAf a] | _ => [] end.
Definition opsarg_vars (a : opsarg) : list fvar := match a with UOp o => [VOp o] | _ => [] end.
Definition f_vars (c : fstmt) : list fvar :=
  match c with
  | FNew x _ | FSet x _ => [VSf x]
  | FCopy x y => [VSf x; VSf y]
  | FTake x a => [VSf x; VAf a]
  | ANew a xs | ASet a xs => VAf a :: flat_map aarg_vars xs
  | ACopy a b => [VAf a; VAf b]
  | ONew o _ xs | OPush o xs => VOp o :: flat_map oparg_vars xs
  | OCopy o p => [VOp o; VOp p]
  | OPop a o | OIndex a o _ => [VAf a; VOp o]
  | LNew p | LDelim p _ => [VOps p]
  | LCopy p q => [VOps p; VOps q]
  | LPush p xs => VOps p :: flat_map opsarg_vars xs
  | LPop o p | LIndex o p _ => [VOp o; VOps p]
  | REqOp r o => [VRule r; VOp o]
  | REqOps r p => [VRule r; VOps p]
  end.
Definition f_changes (s : fstate) (c : fstmt) (o : cell) : Prop := SFShare.changes s c = Some o.
