(* Target rules, lists of target rules and instructions as references: a program
   of constructor and method calls over variables.  Definitions only.

   TargetRule and TargetRules are structures around a go-stackage pointer
   (stackage.go:43-124) and Instruction is one around *instruction (ins.go:17-19,
   68-72), so that copies of a variable, members of a list and the lists of an
   instruction are the same objects.  MRule.v and MAci.v describe the methods as
   functions from the old to the new value; this file uses those functions.
   Simplifications: the value of a rule is its own (MShare.v has rules that share
   value lists), the permission-bind rules of an instruction are values (MHeap.v has
   them as references), Parse is left out. *)
From Coq Require Import String Ascii List PeanoNat NArith ZArith Bool.
From Verif Require Import GoStr MMisc MKw MLists MRule MHeap MAci.
Import ListNotations.
Open Scope string_scope.

(* a list on the heap: whether a blank stands between its members, and the members *)
Record tcell := MkT { t_spaced : bool; t_mem : list nat }.
(* an instruction on the heap: its label, its list of target rules, its
   permission-bind rules *)
Record icell := MkIC { ic_label : string; ic_trs : nat; ic_pbrs : list pbr }.
Record gst := MkG { g_rules : list cond; g_lists : list tcell; g_ins : list icell;
                    g_rv : nat -> option nat; g_lv : nat -> option nat; g_iv : nat -> option nat }.
Definition g_start : gst := MkG [] [] [] (fun _ => None) (fun _ => None) (fun _ => None).

(* an argument of TargetRules.Push: a rule variable or a value of another type *)
Inductive garg := GRule (x : nat) | GAny.
(* an argument of Instruction.Set *)
Inductive gset := GStr (s : string) | GTRs (t : nat) | GTR (x : nat)
                | GPBR (r : pbr) | GPBRs (l : list pbr) | GOther.
Inductive gstmt :=
| GNew (x : nat) (r : rule)               (* x := TR(...), x := v.Eq(), var x TargetRule *)
| GCopy (x y : nat)                       (* x := y, rules *)
| GCall (x : nat) (m : tcall)             (* x = x.SetKeyword(...) and the like *)
| GList (t : nat)                         (* t := TRs() *)
| GLCopy (t u : nat)                      (* t := u, lists *)
| GPush (t : nat) (xs : list garg)        (* t.Push(...) *)
| GPop (x t : nat)                        (* x := t.Pop() *)
| GIndex (x t i : nat)                    (* x := t.Index(i) *)
| GNoPad (t : nat) (state : option bool)  (* t.NoPadding(), t.NoPadding(state) *)
| GIns (i : nat)                          (* var i Instruction *)
| GICopy (i j : nat)                      (* i := j, instructions *)
| GSet (i : nat) (xs : list gset)         (* i.Set(...); i := ACI(...) is GIns i and then this *)
| GTRsOf (t i : nat).                     (* t := i.TRs() *)

Section Inst.
Variable W : world.

Definition rval (s : gst) (n : nat) : rule := rd (g_rules s) (Some n).
Definition rvals (s : gst) (l : list nat) : list rule := map (rval s) l.
(* target.go:675-698 pushPolicy, 524-553 capacity: as trs_push1 of MRule.v *)
Definition gpush1 (s : gst) (l : list nat) (p : option nat) : list nat :=
  match p with
  | Some n => if ((List.length l <? 9)%nat && trs_policy (rvals s l) (rval s n))%bool then (l ++ [n])%list else l
  | None => l
  end.
Definition garg_ref (s : gst) (a : garg) : option nat := match a with GRule x => g_rv s x | GAny => None end.
Definition with_list (s : gst) (l : nat) (c : tcell) : gst :=
  MkG (g_rules s) (wr (g_lists s) l c) (g_ins s) (g_rv s) (g_lv s) (g_iv s).
Definition with_rv (s : gst) (x : nat) (p : option nat) : gst :=
  MkG (g_rules s) (g_lists s) (g_ins s) (upd (g_rv s) x p) (g_lv s) (g_iv s).
Definition with_lv (s : gst) (t : nat) (p : option nat) : gst :=
  MkG (g_rules s) (g_lists s) (g_ins s) (g_rv s) (upd (g_lv s) t p) (g_iv s).
Definition with_iv (s : gst) (i : nat) (p : option nat) : gst :=
  MkG (g_rules s) (g_lists s) (g_ins s) (g_rv s) (g_lv s) (upd (g_iv s) i p).
Definition with_ins (s : gst) (i : nat) (c : icell) : gst :=
  MkG (g_rules s) (g_lists s) (wr (g_ins s) i c) (g_rv s) (g_lv s) (g_iv s).
Definition new_rule (s : gst) (x : nat) (r : rule) : gst :=
  match r with
  | None => with_rv s x None
  | Some c => MkG (g_rules s ++ [c])%list (g_lists s) (g_ins s) (upd (g_rv s) x (Some (List.length (g_rules s)))) (g_lv s) (g_iv s)
  end.
(* target.go:524-553 TRs *)
Definition new_list (s : gst) : gst :=
  MkG (g_rules s) (g_lists s ++ [MkT false []])%list (g_ins s) (g_rv s) (g_lv s) (g_iv s).

(* target.go:320-454: the methods of a rule; a zero rule may become a new one *)
Definition rule_call (s : gst) (x : nat) (m : tcall) : gst :=
  match g_rv s x with
  | None => match tr_step None m with None => s | Some c => new_rule s x (Some c) end
  | Some n =>
      match tr_step (rval s n) m with
      | None => s
      | Some d => MkG (wr (g_rules s) n d) (g_lists s) (g_ins s) (g_rv s) (g_lv s) (g_iv s)
      end
  end.
Definition on_list (s : gst) (t : nat) (f : tcell -> tcell) : gst :=
  match g_lv s t with
  | None => s
  | Some l => match nth_error (g_lists s) l with Some k => with_list s l (f k) | None => s end
  end.
Definition members (s : gst) (t : nat) : list nat :=
  match g_lv s t with
  | None => []
  | Some l => match nth_error (g_lists s) l with Some k => t_mem k | None => [] end
  end.
(* ins.go:371-378 targetPush: one step of the loop *)
Definition gtarget1 (s : gst) (l : list nat) (n : nat) : list nat :=
  if negb (matchTKW (tr_kwname (rval s n)) =? 0)%N then gpush1 s l (Some n) else l.
(* ins.go:348-384 assertInstruction on the instruction at place n.  Simplification:
   the loop of targetPush runs over the members the given list had at its start; if
   it is the instruction's own list every push is refused (C108_own), so that it does
   not grow. *)
Definition set1 (s : gst) (n : nat) (x : gset) : gst :=
  match nth_error (g_ins s) n with
  | None => s
  | Some c =>
      let push (f : list nat -> list nat) :=
        match nth_error (g_lists s) (ic_trs c) with
        | Some k => with_list s (ic_trs c) (MkT (t_spaced k) (f (t_mem k)))
        | None => s
        end in
      match x with
      | GStr a => with_ins s n (MkIC (i_label (setLabel (MkIns (ic_label c) [] []) a)) (ic_trs c) (ic_pbrs c))
      | GTRs t => push (fun l => fold_left (gtarget1 s) (members s t) l)
      | GTR x => push (fun l => gpush1 s l (g_rv s x))
      | GPBR r => with_ins s n (MkIC (ic_label c) (ic_trs c) (pbrs_push1 W (ic_pbrs c) (PLRule r)))
      | GPBRs l => with_ins s n (MkIC (ic_label c) (ic_trs c) (fold_left (fun l r => pbrs_push1 W l (PLRule r)) l (ic_pbrs c)))
      | GOther => s
      end
  end.
(* ins.go:312-321 newACI *)
Definition new_ins (s : gst) (i : nat) : gst :=
  let s := MkG (g_rules s) (g_lists s ++ [MkT false []])%list (g_ins s ++ [MkIC "" (List.length (g_lists s)) []])%list
               (g_rv s) (g_lv s) (g_iv s) in
  with_iv s i (Some (pred (List.length (g_ins s)))).

Definition g_step (s : gst) (c : gstmt) : gst :=
  match c with
  | GNew x r => new_rule s x r
  | GCopy x y => with_rv s x (g_rv s y)
  | GCall x m => rule_call s x m
  | GList t => with_lv (new_list s) t (Some (List.length (g_lists s)))
  | GLCopy t u => with_lv s t (g_lv s u)
  (* target.go:598-601 *)
  | GPush t xs => on_list s t (fun k => MkT (t_spaced k) (push_many (w_stop W) (gpush1 s) (t_mem k) (map (garg_ref s) xs)))
  (* target.go:608-612 *)
  | GPop x t => with_rv (on_list s t (fun k => MkT (t_spaced k) (pop (t_mem k)))) x
                        (nth_error (members s t) (pred (List.length (members s t))))
  (* target.go:625-629 *)
  | GIndex x t i => with_rv s x (nth_error (members s t) i)
  (* target.go:642-660 *)
  | GNoPad t state => on_list s t (fun k =>
      let tight := match state with Some b => b | None => negb (t_spaced k) end in
      MkT (negb tight) (t_mem k))
  | GIns i => with_iv s i None
  | GICopy i j => with_iv s i (g_iv s j)
  (* ins.go:331-346 *)
  | GSet i xs =>
      let s := match g_iv s i with None => new_ins s i | Some _ => s end in
      match g_iv s i with
      | Some n => fold_left (fun s x => set1 s n x) xs s
      | None => s
      end
  (* ins.go:240-246 *)
  | GTRsOf t i =>
      with_lv s t (match g_iv s i with
                   | Some n => match nth_error (g_ins s) n with Some c => Some (ic_trs c) | None => None end
                   | None => None
                   end)
  end.
Definition g_run (s : gst) (p : list gstmt) : gst := fold_left g_step p s.

(* what variables show: a rule, the rules of a list and its spacing, an instruction *)
Definition show_rule (s : gst) (x : nat) : rule := match g_rv s x with Some n => rval s n | None => None end.
Definition show_list (s : gst) (t : nat) : option (bool * list rule) :=
  match g_lv s t with
  | None => None
  | Some l => match nth_error (g_lists s) l with Some k => Some (t_spaced k, rvals s (t_mem k)) | None => None end
  end.
Definition show_cell (s : gst) (c : icell) : option (bool * instr) :=
  match nth_error (g_lists s) (ic_trs c) with
  | Some k => Some (t_spaced k, MkIns (ic_label c) (rvals s (t_mem k)) (ic_pbrs c))
  | None => None
  end.
Definition show_ins (s : gst) (i : nat) : option (bool * instr) :=
  match g_iv s i with
  | None => None
  | Some n => match nth_error (g_ins s) n with Some c => show_cell s c | None => None end
  end.
(* target.go:560-562; the text of a nil list is go-stackage's (w_zero) *)
Definition list_text (s : gst) (t : nat) : string :=
  match show_list s t with Some (b, l) => trs_string b l | None => w_zero W end.
(* ins.go:160-170 String *)
Definition ins_text (s : gst) (i : nat) : string :=
  match show_ins s i with
  | None => badACI
  | Some (b, a) => trs_string b (i_trs a) ++ "(" ++ version ++ "; acl " ++ dq ++ i_label a ++ dq ++ "; "
                   ++ pbrs_string W (i_pbrs a) ++ ")"
  end.
End Inst.
