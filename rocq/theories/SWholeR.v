(* Specification for C137: the value a variable has at a moment, as the values of the
   other files, and the values of arguments. *)
From Coq Require Import String List PeanoNat Bool NArith.
From Verif Require Import GoStr MMisc MKw MRights MLists MRule MConv MTree MHeap MAci MWhole.
Import ListNotations.

Definition perm_v (s : st) (x : nat) : permission := perm_at (s_heap s) (s_var s x).
Definition rule_at (h : heap) (p : option nat) : rule := match rd h p with Some (NBind c) => Some c | _ => None end.
Definition rule_v (s : st) (x : nat) : rule := rule_at (s_heap s) (s_var s x).
Definition target_v (s : st) (x : nat) : rule := match s_var s x with Some n => tr_at (s_heap s) n | None => None end.
(* a rule as a leaf, or a stack; None for other things and for endless stacks *)
Definition tree_v (s : st) (x : nat) : option tree :=
  match s_var s x with Some n => tree_at (List.length (s_heap s)) (s_heap s) n | None => None end.
(* the members of a stack *)
Definition members (t : tree) : list tree := match t with Stk _ _ _ _ ks => ks | Leaf _ => [] end.
Definition is_stack (t : tree) : Prop := match t with Stk _ _ _ _ _ => True | Leaf _ => False end.
(* what is pushed when the variable is pushed *)
Definition pushed (t : tree) : MTree.barg := match t with Leaf c => PRule (Some c) | Stk _ _ _ _ _ => PStack (Some t) end.
(* a bind context argument; the outer None is an endless stack *)
Definition bind_v (s : st) (b : MWhole.barg) : option (option bctx) :=
  match b with
  | BNil => Some None
  | BRuleVar x | BStackVar x =>
      match s_var s x with
      | Some n => option_map Some (bctx_at (s_heap s) (BRef n))
      | None => Some (Some (match b with BRuleVar _ => BCRule None | _ => BCStack None end))
      end
  end.
Definition pbr_v (s : st) (r : nat) : option pbr :=
  match s_var s r with Some n => option_map Some (pbr_at (s_heap s) n) | None => Some None end.
(* arguments of PermissionBindRule.Set *)
Definition parg_v (s : st) (a : parg) : option pbarg :=
  match a with
  | PText t => Some (PAStr t)
  | PPerm x => Some (PAPerm (perm_v s x))
  | PBind b => option_map (fun c => match c with Some c => PABind c | None => PAOther end) (bind_v s b)
  | PAny => Some PAOther
  end.
(* arguments of PermissionBindRules.Push *)
Definition larg_v (s : st) (a : larg) : option plarg :=
  match a with LText t => Some (PLStr t) | LRule r => option_map PLRule (pbr_v s r) | LAny => Some PLOther end.
(* arguments of TargetRules.Push *)
Definition targ_v (s : st) (a : targ) : trarg := match a with TVar x => TRule (target_v s x) | TAny => TOther end.
(* arguments of Instructions.Push, as texts: what is to be printed, None for what is
   refused; a text that is parsed prints what the parser makes of it *)
Definition jtext (W : world) (s : st) (a : MWhole.jarg) : option (option string) :=
  match a with
  | JText t => match parseInstruction W t with Panics => None | Gives (Some i) => Some (Some (ins_string W (Some i))) | _ => Some None end
  | JVar i => match s_var s i with Some n => option_map Some (itext W (s_heap s) n) | None => Some None end
  | JAny => Some None
  end.
Definition add_text (W : world) (ts : list string) (t : option string) : list string :=
  match t with
  | None => ts
  | Some t => if existsb (fun y => e_eqf (w_env W) y (condenseWHSP t)) ts then ts else (ts ++ [t])%list
  end.
