(* Rules and the value lists they hold, as references: a program of constructor
   and method calls over variables.  Definitions only.

   BindDistinguishedNames, TargetDistinguishedNames, AttributeTypes and
   ObjectIdentifiers are go-stackage Stacks and BindRule, TargetRule are Conditions
   (stackage.go:43-124); both are structures around a pointer.  A rule made from a list holds the list itself, and
   SetQuoteStyle of the rule writes the style into that list (bind.go:768-802,
   target.go:343-387).  The other model files describe the same methods as
   functions from the old to the new value; this file uses those functions. *)
From Coq Require Import String Ascii List PeanoNat NArith ZArith Bool.
From Verif Require Import GoStr MMisc MAttr MKw MLists MRule MMeth MHeap.
Import ListNotations.
Open Scope string_scope.

(* the contents of a list: its category and members (MLists.v); for attribute
   types the flag says that the category is "targetattr" *)
Inductive content :=
| CBindDNs (kw : N) (l : list dmember)
| CTargetDNs (kw : N) (l : list dmember)
| CAttrs (ta : bool) (l : list attype)
| COids (l : olist).
(* a list on the heap: its contents and whether each member is put in quotes (Encap) *)
Record lcell := MkL { l_sliced : bool; l_con : content }.

Definition con_kind (c : content) : lkind :=
  match c with CBindDNs _ _ => LBindDN | CTargetDNs _ _ => LTargetDN | CAttrs _ _ => LAttrs | COids _ => LOids end.
(* what the members print *)
Definition con_texts (c : content) : list string :=
  match c with
  | CBindDNs _ l => map (dmember_string badBDN) l
  | CTargetDNs _ l => map (dmember_string badTDN) l
  | CAttrs _ l => map at_string l
  | COids l => map omember_text (ol_mem l)
  end.
Definition cell_expr (c : lcell) : expr := XList (con_kind (l_con c)) (l_sliced c) (con_texts (l_con c)).

(* the expression of a rule: none, a reference to a list, or another value *)
Inductive rex := RNone | RList (l : nat) | RVal (e : expr).
(* a rule on the heap: whether it is a TargetRule, its fields (the expression field
   of the record is not used) and its expression *)
Record rcell := MkRC { rc_target : bool; rc_cond : cond; rc_ex : rex }.

Record sst := MkS { s_lists : list lcell; s_rules : list rcell;
                    s_lvar : nat -> option nat; s_rvar : nat -> option nat }.
Definition s_start : sst := MkS [] [] (fun _ => None) (fun _ => None).

Definition rex_value (h : list lcell) (e : rex) : option expr :=
  match e with
  | RNone => None
  | RVal e => Some e
  | RList l => match nth_error h l with Some c => Some (cell_expr c) | None => None end
  end.
(* the rule as its methods see it at this moment *)
Definition rule_now (h : list lcell) (c : rcell) : rule := Some (with_ex (rc_cond c) (rex_value h (rc_ex c))).

(* Push and Pop of the four list types; a call that does not fit the type of the
   list is no Go program and changes nothing *)
Inductive lcall := LDn (c : dcall) | LAt (c : acall) | LOid (c : ocall).
(* methods of a rule: of BindRule or of TargetRule (r = r.M(...)) *)
Inductive rcall := RBind (c : bcall) | RTarget (c : tcall).

Inductive sstmt :=
| SList (x : nat) (c : content)          (* x := UDNs(...), TDNs(...), TAs(...), ExtOps(...), ... *)
| SLCopy (x y : nat)                      (* x := y, lists *)
| SDo (x : nat) (c : lcall)               (* x.Push(...), x.Pop() *)
| SMake (r x : nat) (op : N)              (* r := x.Eq() or x.Ne() *)
| SSet (r x : nat)                        (* r.SetExpression(x) *)
| SRCopy (r q : nat)                      (* r := q, rules *)
| SCall (r : nat) (c : rcall).            (* a method of the rule *)

Section Share.
Variable eqf : string -> string -> bool.
Variable dotnot : string -> option string.
Variable rulePadding : bool.

(* dn.go:1118-1139, 1183-1205, 1311-1334; attr.go:711-722; oid.go:316-329 (MLists.v) *)
Definition con_do (c : content) (m : lcall) : content :=
  match c, m with
  | CBindDNs kw l, LDn d => CBindDNs kw (dn_step eqf badBDN true kw l d)
  | CTargetDNs kw l, LDn d => CTargetDNs kw (dn_step eqf badTDN false kw l d)
  | CAttrs ta l, LAt a => CAttrs ta (at_step l a)
  | COids l, LOid o => COids (oid_step eqf dotnot l o)
  | _, _ => c
  end.
(* dn.go:748-807, attr.go:555-573, oid.go:624-641: the rule the method makes (MMeth.v) *)
Definition con_rule (c : content) (op : N) : rule :=
  match c with
  | CBindDNs kw l => bdns_cond rulePadding (Some (kw, l)) op
  | CTargetDNs kw l => tdns_cond rulePadding (Some (kw, l)) op
  | CAttrs ta l => ats_cond rulePadding (Some (ta, l)) op
  | COids l => if (op =? Eq)%N then oids_Eq rulePadding (Some l) else oids_Ne rulePadding (Some l)
  end.
Definition con_target (c : content) : bool := match c with CBindDNs _ _ => false | _ => true end.

Definition with_cell (s : sst) (l : nat) (c : lcell) : sst := MkS (wr (s_lists s) l c) (s_rules s) (s_lvar s) (s_rvar s).
Definition with_rule (s : sst) (n : nat) (c : rcell) : sst := MkS (s_lists s) (wr (s_rules s) n c) (s_lvar s) (s_rvar s).
Definition new_rule (s : sst) (r : nat) (c : rcell) : sst :=
  MkS (s_lists s) (s_rules s ++ [c])%list (s_lvar s) (upd (s_rvar s) r (Some (List.length (s_rules s)))).

Definition rcall_step (m : rcall) (r : rule) : rule :=
  match m with RBind c => br_step r c | RTarget c => tr_step r c end.
Definition rcall_target (m : rcall) : bool := match m with RBind _ => false | RTarget _ => true end.
(* the value given to SetExpression, if that is the method *)
Definition rcall_expr (m : rcall) : option (option expr) :=
  match m with RBind (BExpression e) => Some e | RTarget (TExpression e) => Some e | _ => None end.
Definition rex_of (e : option expr) : rex := match e with None => RNone | Some e => RVal e end.
(* a method of a rule: it works on the rule as it stands and leaves the expression
   in place, except that SetExpression replaces it and SetQuoteStyle may change the
   style of the list held *)
Definition rule_call (s : sst) (r : nat) (m : rcall) : sst :=
  match s_rvar s r with
  | None =>
      match rcall_step m None with
      | None => s
      | Some c => new_rule s r (MkRC (rcall_target m) c (rex_of (c_ex c)))
      end
  | Some n =>
      match nth_error (s_rules s) n with
      | None => s
      | Some c =>
          (* a method of the other type of rule is no Go program *)
          if negb (Bool.eqb (rc_target c) (rcall_target m)) then s else
          match rcall_step m (rule_now (s_lists s) c) with
          | None => s
          | Some d =>
              match rcall_expr m with
              | Some e => with_rule s n (MkRC (rc_target c) d (rex_of e))
              | None =>
                  match rc_ex c, c_ex d with
                  | RList l, Some (XList _ b _) =>
                      match nth_error (s_lists s) l with
                      | Some k => with_rule (with_cell s l (MkL b (l_con k))) n (MkRC (rc_target c) d (RList l))
                      | None => s
                      end
                  | e, _ => with_rule s n (MkRC (rc_target c) d e)
                  end
              end
          end
      end
  end.

Definition s_step (s : sst) (c : sstmt) : sst :=
  match c with
  | SList x c => MkS (s_lists s ++ [MkL false c])%list (s_rules s) (upd (s_lvar s) x (Some (List.length (s_lists s)))) (s_rvar s)
  | SLCopy x y => MkS (s_lists s) (s_rules s) (upd (s_lvar s) x (s_lvar s y)) (s_rvar s)
  | SDo x m =>
      match s_lvar s x with
      | None => s
      | Some l => match nth_error (s_lists s) l with
                  | Some k => with_cell s l (MkL (l_sliced k) (con_do (l_con k) m))
                  | None => s
                  end
      end
  | SMake r x op =>
      match s_lvar s x with
      | None => MkS (s_lists s) (s_rules s) (s_lvar s) (upd (s_rvar s) r None)
      | Some l => match nth_error (s_lists s) l with
                  | Some k => match con_rule (l_con k) op with
                              | Some c => new_rule s r (MkRC (con_target (l_con k)) c (RList l))
                              | None => MkS (s_lists s) (s_rules s) (s_lvar s) (upd (s_rvar s) r None)
                              end
                  | None => s
                  end
      end
  (* bind.go:748-755, target.go:445-454.  Only lists that are not nil are given. *)
  | SSet r x =>
      match s_rvar s r, s_lvar s x with
      | Some n, Some l =>
          match nth_error (s_rules s) n with
          | Some c => with_rule s n (MkRC (rc_target c) (if rc_target c then with_quoted (rc_cond c) true else rc_cond c) (RList l))
          | None => s
          end
      | _, _ => s
      end
  | SRCopy r q => MkS (s_lists s) (s_rules s) (s_lvar s) (upd (s_rvar s) r (s_rvar s q))
  | SCall r m => rule_call s r m
  end.
Definition s_run (s : sst) (p : list sstmt) : sst := fold_left s_step p s.
End Share.

(* what variables show: the rule, its text, the texts of a list *)
Definition rule_of (s : sst) (r : nat) : rule :=
  match s_rvar s r with
  | None => None
  | Some n => match nth_error (s_rules s) n with Some c => rule_now (s_lists s) c | None => None end
  end.
(* bind.go:345-350, target.go:304-315 *)
Definition rule_text (s : sst) (r : nat) : string :=
  match s_rvar s r with
  | None => ""
  | Some n => match nth_error (s_rules s) n with
              | Some c => if rc_target c then tr_string (rule_now (s_lists s) c) else br_string (rule_now (s_lists s) c)
              | None => ""
              end
  end.
Definition list_of (s : sst) (x : nat) : option content :=
  match s_lvar s x with
  | None => None
  | Some l => match nth_error (s_lists s) l with Some k => Some (l_con k) | None => None end
  end.

(* ---- rules on single values ---- *)
(* The Eq, Ne, Lt, Le, Gt, Ge methods give the receiver itself to BR or TR (for
   instance net.go:57 BR(BindIP, Eq, r)), so that the rule holds a copy of the
   structure around the same pointer (bind_test.go:955-956: Expression gives the value
   back); its text is asked for when the rule is printed.  [txt] is the String method. *)
Section Values.
Context {T A : Type}.
Variable O : obj T A.
Variable txt : option T -> string.
Record vst := MkV { v_st : @state T; v_rule : nat -> option (cond * ptr) }.
Inductive vcmd :=
| VDo (c : @cmd T A)                                   (* a statement on values *)
| VMake (r x : nat) (f : option T -> rule)             (* r := x.Eq(), x.Ne(), ... *)
| VCopy (r q : nat).                                   (* r := q, rules *)
Definition vexec (s : vst) (c : vcmd) : vst :=
  match c with
  | VDo c => MkV (exec O (v_st s) c) (v_rule s)
  | VMake r x f =>
      MkV (v_st s) (upd (v_rule s) r (match f (look (v_st s) x) with Some c => Some (c, st_var (v_st s) x) | None => None end))
  | VCopy r q => MkV (v_st s) (upd (v_rule s) r (v_rule s q))
  end.
Definition vrun (s : vst) (p : list vcmd) : vst := fold_left vexec p s.
Definition vstart : vst := MkV start (fun _ => None).
(* the rule a variable shows *)
Definition vlook (s : vst) (r : nat) : rule :=
  match v_rule s r with
  | Some (c, p) => Some (with_ex c (Some (XText (txt (rd (st_heap (v_st s)) p)))))
  | None => None
  end.
End Values.
