(* What a user expects of lists of target rules and of instructions: definitions
   used to state C107-C109, in terms of statements and of what variables show. *)
From Coq Require Import String List PeanoNat NArith Bool.
From Verif Require Import GoStr MKw SKw MLists MRule MAci MInst.
Import ListNotations.

(* the rules of a list: known keywords, all different *)
Definition different_keywords (l : list rule) : Prop :=
  NoDup (map tr_keyword l) /\ forall r, In r l -> exists k, tr_keyword r = targetkw_const k.

(* the list an instruction variable owns, the rules in it *)
Definition own_list (s : gst) (i : nat) : option nat :=
  match g_iv s i with
  | Some n => match nth_error (g_ins s) n with Some c => Some (ic_trs c) | None => None end
  | None => None
  end.
Definition mem_of (s : gst) (l : nat) : list nat :=
  match nth_error (g_lists s) l with Some k => t_mem k | None => [] end.
(* the rule x shows is one of the rules in list l *)
Definition rule_in (s : gst) (x l : nat) : Prop := exists n, g_rv s x = Some n /\ In n (mem_of s l).

(* the statement assigns list variable t, calls Push, Pop or NoPadding on the list t
   shows, calls Set on the instruction that owns it, or calls a method of a rule in it *)
Definition concerns_list (s : gst) (c : gstmt) (t : nat) : Prop :=
  match c with
  | GNew _ _ | GCopy _ _ | GIndex _ _ _ | GIns _ | GICopy _ _ => False
  | GCall x _ => exists l, g_lv s t = Some l /\ rule_in s x l
  | GList u | GLCopy u _ | GTRsOf u _ => u = t
  | GPush u _ | GPop _ u | GNoPad u _ => g_lv s u <> None /\ g_lv s u = g_lv s t
  | GSet i _ => own_list s i <> None /\ own_list s i = g_lv s t
  end.
(* the statement assigns instruction variable i, calls Set on the instruction i shows,
   calls Push, Pop or NoPadding on the list it owns (reached by TRs()), or calls a
   method of a rule in that list *)
Definition concerns_ins (s : gst) (c : gstmt) (i : nat) : Prop :=
  match c with
  | GNew _ _ | GCopy _ _ | GIndex _ _ _ | GList _ | GLCopy _ _ | GTRsOf _ _ => False
  | GCall x _ => exists l, own_list s i = Some l /\ rule_in s x l
  | GPush u _ | GPop _ u | GNoPad u _ => g_lv s u <> None /\ g_lv s u = own_list s i
  | GIns j | GICopy j _ => j = i
  | GSet j _ => j = i \/ (g_iv s j <> None /\ g_iv s j = g_iv s i)
  end.
(* SetKeyword is called only on rules that are in no list *)
Definition calm (s : gst) (c : gstmt) : Prop :=
  match c with
  | GCall x (TKeyword _) => forall l, ~ rule_in s x l
  | _ => True
  end.

(* the arguments of Push and Set, as values *)
Definition push_value (s : gst) (a : garg) : trarg :=
  match a with GRule x => TRule (show_rule s x) | GAny => TOther end.
Definition set_value (s : gst) (a : gset) : iarg :=
  match a with
  | GStr x => IStr x
  | GTRs t => ITRs (match show_list s t with Some (_, l) => l | None => [] end)
  | GTR x => ITR (show_rule s x)
  | GPBR r => IPBR r
  | GPBRs l => IPBRs l
  | GOther => IOther
  end.
(* member i replaced *)
Fixpoint put {A} (l : list A) (i : nat) (x : A) : list A :=
  match l, i with
  | [], _ => []
  | _ :: t, 0 => x :: t
  | y :: t, S j => y :: put t j x
  end.
