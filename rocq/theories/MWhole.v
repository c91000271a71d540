(* Everything an instruction is made of, as references: permissions, bind rules and
   stacks of them, permission-bind rules and lists of them, target rules and lists of
   them, instructions and lists of them, in one heap.  Definitions only.

   All these types are structures around a pointer (stackage.go:43-124, 194-206,
   pb.go:26-33, rights.go:17-40, ins.go:17-19, 68-72): a copy, a member of a list and
   a field are the same object.  The other model files describe the methods as
   functions from the old to the new value; this file uses those functions for what
   is written.  Simplifications: the value inside a bind or target rule is its own
   (MShare.v has rules that share lists of values); comparing texts in Push computes
   the texts of all members and of the argument even where the code stops early, and
   a statement that would have to print a stack that contains itself does not end,
   which is a step without a result, as is a panic of Parse.  Go's types keep a variable
   to one kind of object; here a statement applied to a variable of another kind acts as
   on a zero value, or is a step without a result. *)
From Coq Require Import String Ascii List PeanoNat NArith ZArith Bool.
From Verif Require Import GoStr Shifty MMisc MKw MRights MLists MRule MConv MTree MHeap MAci.
Import ListNotations.
Open Scope string_scope.

(* the bind context a permission-bind rule holds: pb.go:30-33; a zero BindRule, a zero
   BindRules, or something on the heap *)
Inductive bref := BZRule | BZStack | BRef (n : nat).
Inductive node :=
| NPerm (d : bool) (v : N)
| NBind (c : cond)
| NStk (w : word) (paren fold pad : bool) (ks : list nat)
| NPbr (p : option nat) (b : option bref)
| NPbrs (ks : list nat)
| NTr (c : cond)
| NTrs (spaced : bool) (ks : list nat)
| NIns (label : string) (trs pbrs : nat)
| NInss (ks : list nat).
Definition heap := list node.
(* a variable holds a reference or the zero value of its type *)
Record st := MkS { s_heap : heap; s_var : nat -> option nat }.
Definition s_start : st := MkS [] (fun _ => None).

(* ---------------- what a reference stands for ---------------- *)
Fixpoint all {A} (l : list (option A)) : option (list A) :=
  match l with
  | [] => Some []
  | Some a :: t => match all t with Some r => Some (a :: r) | None => None end
  | None :: _ => None
  end.
(* a stack has a finite text when this is not None for some depth f *)
Fixpoint tree_at (f : nat) (h : heap) (n : nat) : option tree :=
  match f with
  | O => None
  | S f =>
      match nth_error h n with
      | Some (NBind c) => Some (Leaf c)
      | Some (NStk w p fo d ks) =>
          match all (map (tree_at f h) ks) with Some ts => Some (Stk w p fo d ts) | None => None end
      | _ => None
      end
  end.
Definition perm_at (h : heap) (p : option nat) : permission :=
  match rd h p with Some (NPerm d v) => PSome d v | _ => PNil end.
(* no chain of members is longer than the heap, unless it is endless (PWhole.tree_deep) *)
Definition bctx_at (h : heap) (b : bref) : option bctx :=
  match b with
  | BZRule => Some (BCRule None)
  | BZStack => Some (BCStack None)
  | BRef n =>
      match nth_error h n with
      | Some (NBind c) => Some (BCRule (Some c))
      | _ => match tree_at (List.length h) h n with Some t => Some (BCStack (Some t)) | None => None end
      end
  end.
Definition pbr_at (h : heap) (n : nat) : option pbrec :=
  match nth_error h n with
  | Some (NPbr p None) => Some (MkPB (perm_at h p) None)
  | Some (NPbr p (Some b)) => match bctx_at h b with Some c => Some (MkPB (perm_at h p) (Some c)) | None => None end
  | _ => None
  end.
Definition pbrs_at (h : heap) (n : nat) : option (list pbr) :=
  match nth_error h n with
  | Some (NPbrs ks) => match all (map (pbr_at h) ks) with Some l => Some (map Some l) | None => None end
  | _ => None
  end.
Definition tr_at (h : heap) (n : nat) : rule := match nth_error h n with Some (NTr c) => Some c | _ => None end.
Definition trs_at (h : heap) (n : nat) : option (bool * list rule) :=
  match nth_error h n with Some (NTrs b ks) => Some (b, map (tr_at h) ks) | _ => None end.
Definition ins_at (h : heap) (n : nat) : option (bool * instr) :=
  match nth_error h n with
  | Some (NIns a t p) =>
      match trs_at h t, pbrs_at h p with
      | Some (b, l), Some q => Some (b, MkIns a l q)
      | _, _ => None
      end
  | _ => None
  end.

Section Whole.
Variable W : world.

(* ---------------- texts ---------------- *)
(* ins.go:160-170 String; the spacing is that of the list of target rules *)
Definition instr_text (x : bool * instr) : string :=
  trs_string (fst x) (i_trs (snd x)) ++ "(" ++ version ++ "; acl " ++ dq ++ i_label (snd x) ++ dq ++ "; "
  ++ pbrs_string W (i_pbrs (snd x)) ++ ")".
Definition itext (h : heap) (n : nat) : option string := option_map instr_text (ins_at h n).
(* String of whatever is at n; None when it is endless *)
Definition text_at (h : heap) (n : nat) : option string :=
  match nth_error h n with
  | Some (NPerm d v) => Some (perm_string (e_shifty (w_env W)) (PSome d v))
  | Some (NBind c) => Some (br_string (Some c))
  | Some (NStk _ _ _ _ _) => option_map (brs_string (w_topnot W) (w_notsep W)) (tree_at (List.length h) h n)
  | Some (NPbr _ _) => option_map (fun r => pbr_string W (Some r)) (pbr_at h n)
  | Some (NPbrs _) => option_map (pbrs_string W) (pbrs_at h n)
  | Some (NTr c) => Some (tr_string (Some c))
  | Some (NTrs _ _) => option_map (fun x => trs_string (fst x) (snd x)) (trs_at h n)
  | Some (NIns _ _ _) => itext h n
  (* ins.go:26-32, 153-155 *)
  | Some (NInss ks) => option_map (join newline) (all (map (itext h) ks))
  | None => None
  end.

(* ---------------- putting values on the heap ---------------- *)
Fixpoint alloc_tree (h : heap) (t : tree) : heap * nat :=
  match t with
  | Leaf c => ((h ++ [NBind c])%list, List.length h)
  | Stk w p f d ts =>
      let '(h', ks) := (fix go (h : heap) (l : list tree) : heap * list nat :=
        match l with
        | [] => (h, [])
        | t :: r => let '(h1, k) := alloc_tree h t in let '(h2, ks) := go h1 r in (h2, k :: ks)
        end) h ts in
      ((h' ++ [NStk w p f d ks])%list, List.length h')
  end.
Definition alloc_bctx (h : heap) (b : bctx) : heap * bref :=
  match b with
  | BCRule None => (h, BZRule)
  | BCStack None => (h, BZStack)
  | BCRule (Some c) => ((h ++ [NBind c])%list, BRef (List.length h))
  | BCStack (Some t) => let '(h', n) := alloc_tree h t in (h', BRef n)
  end.
Definition alloc_perm (h : heap) (p : permission) : heap * option nat :=
  match p with PNil => (h, None) | PSome d v => ((h ++ [NPerm d v])%list, Some (List.length h)) end.
Definition alloc_parts (h : heap) (x : pbrec) : heap * option nat * option bref :=
  let '(h1, p) := alloc_perm h (pb_p x) in
  match pb_b x with
  | None => (h1, p, None)
  | Some b => let '(h2, r) := alloc_bctx h1 b in (h2, p, Some r)
  end.
Definition alloc_pbr (h : heap) (x : pbrec) : heap * nat :=
  let '(h', p, b) := alloc_parts h x in ((h' ++ [NPbr p b])%list, List.length h').
Fixpoint alloc_pbrs (h : heap) (l : list pbr) : heap * list nat :=
  match l with
  | [] => (h, [])
  | Some x :: t => let '(h1, k) := alloc_pbr h x in let '(h2, ks) := alloc_pbrs h1 t in (h2, k :: ks)
  | None :: t => alloc_pbrs h t
  end.
Fixpoint alloc_trs (h : heap) (l : list rule) : heap * list nat :=
  match l with
  | [] => (h, [])
  | Some c :: t => let '(h', ks) := alloc_trs (h ++ [NTr c])%list t in (h', List.length h :: ks)
  | None :: t => alloc_trs h t
  end.
Definition alloc_ins (h : heap) (a : instr) : heap * nat :=
  let '(h1, ts) := alloc_trs h (i_trs a) in
  let '(h2, ps) := alloc_pbrs h1 (i_pbrs a) in
  ((h2 ++ [NTrs false ts; NPbrs ps; NIns (i_label a) (List.length h2) (S (List.length h2))])%list,
   S (S (List.length h2))).

(* ---------------- statements ---------------- *)
(* a bind context argument: nil, a BindRule variable, a BindRules variable *)
Inductive barg := BNil | BRuleVar (x : nat) | BStackVar (x : nat).
Inductive parg := PText (s : string) | PPerm (x : nat) | PBind (b : barg) | PAny.
Inductive larg := LText (s : string) | LRule (r : nat) | LAny.
Inductive targ := TVar (x : nat) | TAny.
Inductive sarg := AText (s : string) | ATRs (t : nat) | ATR (x : nat) | APBR (r : nat) | APBRs (l : nat) | AAny.
Inductive jarg := JText (s : string) | JVar (i : nat) | JAny.
Inductive stmt :=
| XZero (x : nat)                                   (* var x T *)
| XCopy (x y : nat)                                 (* x := y *)
| XPerm (x : nat) (allow : bool) (xs : list rarg)   (* x := Allow(xs), Deny(xs) *)
| XShift (z x : nat) (on : bool) (xs : list rarg)   (* z := x.Shift(xs), x.Unshift(xs) *)
| XRule (x : nat) (c : cond)                        (* x := BR(...), v.Eq() *)
| XCall (z x : nat) (k : bcall)                     (* z := x.SetKeyword(...) and the like *)
| XStack (x : nat) (w : word) (pad : bool)          (* x := And(), Or(), Not() *)
| XPush (x y : nat)                                 (* x.Push(y) *)
| XPop (z x : nat)                                  (* z := x.Pop() *)
| XIndex (z x i : nat)                              (* z := x.Index(i) *)
| XReplace (x y i : nat)                            (* x.Replace(y, i) *)
| XParen (x : nat) (b : bool) | XFold (x : nat) (b : bool) | XNoPad (x : nat) (b : bool)
| XPbr (r p : nat) (b : barg)                       (* r := PBR(p, b) *)
| XSetPbr (r : nat) (xs : list parg)                (* r.Set(xs) *)
| XPbrs (l : nat)                                   (* l := PBRs() *)
| XPushPbr (l : nat) (xs : list larg)               (* l.Push(xs) *)
| XPopPbr (r l : nat) | XIndexPbr (r l i : nat)     (* r := l.Pop(), l.Index(i) *)
| XTr (x : nat) (c : cond)                          (* x := TR(...), v.Eq() *)
| XTCall (z x : nat) (m : tcall)                    (* z := x.SetKeyword(...) and the like *)
| XTrs (t : nat)                                    (* t := TRs() *)
| XTPush (t : nat) (xs : list targ)                 (* t.Push(xs) *)
| XTPop (x t : nat) | XTIndex (x t i : nat)         (* x := t.Pop(), t.Index(i) *)
| XTNoPad (t : nat) (state : option bool)           (* t.NoPadding(), t.NoPadding(state) *)
| XSet (i : nat) (xs : list sarg)                   (* i.Set(xs); i := ACI(xs) is XZero i and then this *)
| XParse (i : nat) (raw : string)                   (* i.Parse(raw) *)
| XTRsOf (t i : nat) | XPBRsOf (l i : nat)          (* t := i.TRs(), l := i.PBRs() *)
| XAcis (l : nat)                                   (* l := ACIs() *)
| XPushIns (l : nat) (xs : list jarg)               (* l.Push(xs) *)
| XPopIns (i l : nat) | XIndexIns (i l k : nat).    (* i := l.Pop(), l.Index(k) *)

Definition with_var (s : st) (x : nat) (v : option nat) : st := MkS (s_heap s) (upd (s_var s) x v).
Definition fresh (s : st) (x : nat) (d : node) : st :=
  MkS (s_heap s ++ [d])%list (upd (s_var s) x (Some (List.length (s_heap s)))).
Definition with_node (s : st) (n : nat) (d : node) : st := MkS (wr (s_heap s) n d) (s_var s).
Definition at_var (s : st) (x : nat) : option (nat * node) :=
  match s_var s x with
  | Some n => match nth_error (s_heap s) n with Some d => Some (n, d) | None => None end
  | None => None
  end.
Definition last_ref (l : list nat) : option nat := nth_error l (pred (List.length l)).

(* ---- bind rules ---- *)
Definition on_stack (s : st) (x : nat) (f : word -> bool -> bool -> bool -> list nat -> node) : st :=
  match at_var s x with Some (n, NStk w p b d ks) => with_node s n (f w p b d ks) | _ => s end.
(* bind.go:1035-1061 pushPolicy, as brs_push1 *)
Definition acceptable (d : node) : bool :=
  match d with
  | NBind c => negb (matchBKW (bkw_string (matchBKW (c_kw c))) =? 0)%N
  | NStk _ _ _ _ _ => true
  | _ => false
  end.
Definition accepted (s : st) (y : nat) : option nat :=
  match at_var s y with Some (m, e) => if acceptable e then Some m else None | None => None end.
(* bind.go:295-298, 355-362, 698-755, 768-802: value receivers, which write through the
   pointer; on a zero BindRule the result is new.  115-124 Init: pointer receiver *)
Definition bind_call (s : st) (z x : nat) (k : bcall) : st :=
  match at_var s x with
  | Some (n, NBind c) =>
      with_var (match br_step (Some c) k with Some c' => with_node s n (NBind c') | None => s end) z (Some n)
  | _ =>
      match br_step None k with
      | None => with_var s z None
      | Some c => fresh (match k with BInit => with_var s x (Some (List.length (s_heap s))) | _ => s end) z (NBind c)
      end
  end.

(* ---- permission-bind rules ---- *)
Definition bval (s : nat -> option nat) (b : barg) : option bref :=
  match b with
  | BNil => None
  | BRuleVar x => Some (match s x with Some n => BRef n | None => BZRule end)
  | BStackVar x => Some (match s x with Some n => BRef n | None => BZStack end)
  end.
(* bind.go:310-318, 1025-1028, as bctx_valid *)
Definition bref_valid (h : heap) (b : bref) : bool :=
  match b with
  | BZRule => br_valid None
  | BZStack => false
  | BRef n => match nth_error h n with
              | Some (NBind c) => br_valid (Some c)
              | Some (NStk _ _ _ _ _) => true
              | _ => false
              end
  end.
(* pb.go:98-123 set: the loop over the arguments, on the two fields *)
Fixpoint pset (v : nat -> option nat) (h : heap) (p : option nat) (b : option bref) (xs : list parg)
  : option (heap * option nat * option bref) :=
  match xs with
  | [] => Some (h, p, b)
  | PText s :: t =>
      match parsePBR W s with
      | Panics => None
      | Gives (Some x) => let '(h', p', b') := alloc_parts h x in pset v h' p' b' t
      | _ => Some (h, p, b)
      end
  | PPerm x :: t => if perm_valid (perm_at h (v x)) then pset v h (v x) b t else Some (h, p, b)
  | PBind a :: t =>
      match bval v a with
      | None => pset v h p b t
      | Some r => if bref_valid h r then pset v h p (Some r) t else Some (h, p, b)
      end
  | PAny :: t => pset v h p b t
  end.
(* pb.go:75-82 IsZero *)
Definition zero_parts (h : heap) (p : option nat) (b : option bref) : bool :=
  perm_is_zero (perm_at h p) && match b with None => true | Some _ => false end.
(* pb.go:87-93 Set *)
Definition set_pbr (s : st) (r : nat) (xs : list parg) : option st :=
  let new :=
    match pset (s_var s) (s_heap s) None None xs with
    | Some (h, p, b) => Some (MkS (h ++ [NPbr p b])%list (upd (s_var s) r (Some (List.length h))))
    | None => None
    end in
  match at_var s r with
  | Some (n, NPbr p b) =>
      if zero_parts (s_heap s) p b then new
      else match pset (s_var s) (s_heap s) p b xs with
           | Some (h, p', b') => Some (MkS (wr h n (NPbr p' b')) (s_var s))
           | None => None
           end
  | _ => new
  end.
(* pb.go:278-302 pushPolicy, 316-339 contains *)
Definition push_pbr (h : heap) (l : list nat) (m : option nat) : option (list nat) :=
  match m with
  | None => Some l
  | Some m =>
      match all (map (pbr_at h) l), pbr_at h m with
      | Some vs, Some v => Some (if pbrs_policy W (map Some vs) (Some v) then (l ++ [m])%list else l)
      | _, _ => None
      end
  end.
(* pb.go:240-259 Push *)
Fixpoint push_pbrs (v : nat -> option nat) (h : heap) (l : list nat) (xs : list larg) : option (heap * list nat) :=
  match xs with
  | [] => Some (h, l)
  | LText s :: t =>
      match parsePBR W s with
      | Panics => None
      | Fails => Some (h, l)
      | Gives None => push_pbrs v h l t
      | Gives (Some x) =>
          let '(h', m) := alloc_pbr h x in
          match push_pbr h' l (Some m) with Some l' => push_pbrs v h' l' t | None => None end
      end
  | LRule r :: t => match push_pbr h l (v r) with Some l' => push_pbrs v h l' t | None => None end
  | LAny :: t => push_pbrs v h l t
  end.

(* ---- target rules ---- *)
(* target.go:675-698 pushPolicy, 524-553 capacity: as trs_push1 *)
Definition push_tr (h : heap) (l : list nat) (m : option nat) : list nat :=
  match m with
  | Some m => if ((List.length l <? 9)%nat && trs_policy (map (tr_at h) l) (tr_at h m))%bool then (l ++ [m])%list else l
  | None => l
  end.
Definition targ_ref (s : st) (a : targ) : option nat := match a with TVar x => s_var s x | TAny => None end.
(* ins.go:371-378 targetPush: one step of the loop *)
Definition target1 (h : heap) (l : list nat) (m : nat) : list nat :=
  if negb (matchTKW (tr_kwname (tr_at h m)) =? 0)%N then push_tr h l (Some m) else l.
(* target.go:320-454 *)
Definition target_call (s : st) (z x : nat) (k : tcall) : st :=
  match at_var s x with
  | Some (n, NTr c) =>
      with_var (match tr_step (Some c) k with Some c' => with_node s n (NTr c') | None => s end) z (Some n)
  | _ =>
      match tr_step None k with
      | None => with_var s z None
      | Some c => fresh (match k with TInit => with_var s x (Some (List.length (s_heap s))) | _ => s end) z (NTr c)
      end
  end.
Definition on_trs (s : st) (t : nat) (f : bool -> list nat -> node) : st :=
  match at_var s t with Some (n, NTrs b ks) => with_node s n (f b ks) | _ => s end.
Definition trs_of (s : st) (t : nat) : list nat := match at_var s t with Some (_, NTrs _ ks) => ks | _ => [] end.
Definition pbrs_of (s : st) (l : nat) : list nat := match at_var s l with Some (_, NPbrs ks) => ks | _ => [] end.
Definition inss_of (s : st) (l : nat) : list nat := match at_var s l with Some (_, NInss ks) => ks | _ => [] end.

(* ---- instructions ---- *)
(* ins.go:363-369 setLabel *)
Definition label_set (old a : string) : string := i_label (setLabel (MkIns old [] []) a).
Fixpoint push_each (h : heap) (l : list nat) (ms : list nat) : option (list nat) :=
  match ms with
  | [] => Some l
  | m :: t => match push_pbr h l (Some m) with Some l' => push_each h l' t | None => None end
  end.
(* ins.go:348-384 assertInstruction on the instruction at n.  Simplification: the loops
   run over the members the given list has at their start *)
Definition set1 (s : st) (n : nat) (x : sarg) : option st :=
  match nth_error (s_heap s) n with
  | Some (NIns a t p) =>
      match x with
      | AText y => Some (with_node s n (NIns (label_set a y) t p))
      | ATRs u =>
          match nth_error (s_heap s) t with
          | Some (NTrs b ks) => Some (with_node s t (NTrs b (fold_left (target1 (s_heap s)) (trs_of s u) ks)))
          | _ => Some s
          end
      | ATR x =>
          match nth_error (s_heap s) t with
          | Some (NTrs b ks) => Some (with_node s t (NTrs b (push_tr (s_heap s) ks (s_var s x))))
          | _ => Some s
          end
      | APBR r =>
          match nth_error (s_heap s) p with
          | Some (NPbrs ks) => match push_pbr (s_heap s) ks (s_var s r) with
                               | Some ks' => Some (with_node s p (NPbrs ks'))
                               | None => None
                               end
          | _ => Some s
          end
      | APBRs l =>
          match nth_error (s_heap s) p with
          | Some (NPbrs ks) => match push_each (s_heap s) ks (pbrs_of s l) with
                               | Some ks' => Some (with_node s p (NPbrs ks'))
                               | None => None
                               end
          | _ => Some s
          end
      | AAny => Some s
      end
  | _ => Some s
  end.
Fixpoint sets (s : st) (n : nat) (xs : list sarg) : option st :=
  match xs with
  | [] => Some s
  | x :: t => match set1 s n x with Some s' => sets s' n t | None => None end
  end.
(* ins.go:312-321 newACI *)
Definition new_ins (s : st) (i : nat) : st :=
  let k := List.length (s_heap s) in
  MkS (s_heap s ++ [NTrs false []; NPbrs []; NIns "" k (S k)])%list (upd (s_var s) i (Some (S (S k)))).
(* ins.go:82-95 pushPolicy, 116-139 contains *)
Definition push_ins (h : heap) (l : list nat) (m : option nat) : option (list nat) :=
  match m with
  | None => Some l
  | Some m =>
      match all (map (itext h) l), itext h m with
      | Some ts, Some t =>
          Some (if existsb (fun y => e_eqf (w_env W) y (condenseWHSP t)) ts then l else (l ++ [m])%list)
      | _, _ => None
      end
  end.
(* ins.go:177-194 Push *)
Fixpoint push_inss (v : nat -> option nat) (h : heap) (l : list nat) (xs : list jarg) : option (heap * list nat) :=
  match xs with
  | [] => Some (h, l)
  | JText s :: t =>
      match parseInstruction W s with
      | Panics => None
      | Gives (Some a) =>
          let '(h', m) := alloc_ins h a in
          match push_ins h' l (Some m) with Some l' => push_inss v h' l' t | None => None end
      | _ => push_inss v h l t
      end
  | JVar i :: t => match push_ins h l (v i) with Some l' => push_inss v h l' t | None => None end
  | JAny :: t => push_inss v h l t
  end.

Definition step (s : st) (c : stmt) : option st :=
  match c with
  | XZero x => Some (with_var s x None)
  | XCopy x y => Some (with_var s x (s_var s y))
  (* rights.go:52-72 *)
  | XPerm x d xs => Some (fresh s x (NPerm d (shift_bits (e_shifty (w_env W)) 0 xs)))
  (* rights.go:251-270 *)
  | XShift z x on xs =>
      match at_var s x with
      | Some (n, NPerm d v) =>
          Some (with_var (with_node s n (NPerm d (if on then shift_bits (e_shifty (w_env W)) v xs
                                                  else unshift_bits (e_shifty (w_env W)) v xs))) z (Some n))
      | _ => Some (with_var s z None)
      end
  (* bind.go:126-146 *)
  | XRule x c => Some (fresh s x (NBind c))
  | XCall z x k => Some (bind_call s z x k)
  (* bind.go:420-525; arguments are pushed one by one *)
  | XStack x w pad => Some (fresh s x (NStk w false false pad []))
  (* bind.go:875-878 *)
  | XPush x y =>
      Some (match accepted s y with
            | Some m => on_stack s x (fun w p f d ks => NStk w p f d (ks ++ [m])%list)
            | None => s
            end)
  (* bind.go:888-906 *)
  | XPop z x =>
      Some (match at_var s x with
            | Some (n, NStk w p f d ks) => with_var (with_node s n (NStk w p f d (removelast ks))) z (last_ref ks)
            | _ => with_var s z None
            end)
  (* bind.go:253-255, 937-948 *)
  | XIndex z x i =>
      Some (with_var s z (match at_var s x with
                          | Some (n, NBind _) => Some n
                          | Some (_, NStk _ _ _ _ ks) => nth_error ks i
                          | _ => None
                          end))
  (* bind.go:919-932, as in MGraph.v *)
  | XReplace x y i =>
      Some (match accepted s y with
            | Some m => on_stack s x (fun w p f d ks => NStk w p f d (wr ks i m))
            | None => s
            end)
  (* bind.go:961-964, 976-979, 996-999 *)
  | XParen x b => Some (on_stack s x (fun w p f d ks => NStk w b f d ks))
  | XFold x b => Some (on_stack s x (fun w p f d ks => NStk w p b d ks))
  | XNoPad x b => Some (on_stack s x (fun w p f d ks => NStk w p f (negb b) ks))
  (* pb.go:49-59 *)
  | XPbr r p b =>
      Some (match bval (s_var s) b with
            | Some q => if perm_valid (perm_at (s_heap s) (s_var s p)) then fresh s r (NPbr (s_var s p) (Some q))
                        else with_var s r None
            | None => with_var s r None
            end)
  | XSetPbr r xs => set_pbr s r xs
  (* pb.go:346-375 *)
  | XPbrs l => Some (fresh s l (NPbrs []))
  | XPushPbr l xs =>
      match at_var s l with
      | Some (n, NPbrs ks) =>
          match push_pbrs (s_var s) (s_heap s) ks xs with
          | Some (h, ks') => Some (MkS (wr h n (NPbrs ks')) (s_var s))
          | None => None
          end
      | _ => Some s
      end
  (* pb.go:266-273 *)
  | XPopPbr r l =>
      Some (match at_var s l with
            | Some (n, NPbrs ks) => with_var (with_node s n (NPbrs (removelast ks))) r (last_ref ks)
            | _ => with_var s r None
            end)
  (* pb.go:212-219 *)
  | XIndexPbr r l i => Some (with_var s r (nth_error (pbrs_of s l) i))
  (* target.go:188-234 *)
  | XTr x c => Some (fresh s x (NTr c))
  | XTCall z x k => Some (target_call s z x k)
  (* target.go:524-553 *)
  | XTrs t => Some (fresh s t (NTrs false []))
  (* target.go:598-601 *)
  | XTPush t xs => Some (on_trs s t (fun b ks => NTrs b (push_many (w_stop W) (push_tr (s_heap s)) ks (map (targ_ref s) xs))))
  (* target.go:608-612 *)
  | XTPop x t =>
      Some (match at_var s t with
            | Some (n, NTrs b ks) => with_var (with_node s n (NTrs b (removelast ks))) x (last_ref ks)
            | _ => with_var s x None
            end)
  (* target.go:625-629 *)
  | XTIndex x t i => Some (with_var s x (nth_error (trs_of s t) i))
  (* target.go:642-660 *)
  | XTNoPad t state =>
      Some (on_trs s t (fun b ks => NTrs (negb (match state with Some q => q | None => negb b end)) ks))
  (* ins.go:331-346 *)
  | XSet i xs =>
      match at_var s i with
      | Some (n, NIns _ _ _) => sets s n xs
      | _ => sets (new_ins s i) (S (S (List.length (s_heap s)))) xs
      end
  (* parse.go:982-1026: the receiver becomes the new instruction *)
  | XParse i raw =>
      match parseInstruction W raw with
      | Panics => None
      | Gives (Some a) => let '(h, n) := alloc_ins (s_heap s) a in Some (MkS h (upd (s_var s) i (Some n)))
      | _ => Some s
      end
  (* ins.go:240-256 *)
  | XTRsOf t i => Some (with_var s t (match at_var s i with Some (_, NIns _ n _) => Some n | _ => None end))
  | XPBRsOf l i => Some (with_var s l (match at_var s i with Some (_, NIns _ _ n) => Some n | _ => None end))
  (* ins.go:26-53 *)
  | XAcis l => Some (fresh s l (NInss []))
  | XPushIns l xs =>
      match at_var s l with
      | Some (n, NInss ks) =>
          match push_inss (s_var s) (s_heap s) ks xs with
          | Some (h, ks') => Some (MkS (wr h n (NInss ks')) (s_var s))
          | None => None
          end
      | _ => Some s
      end
  (* ins.go:199-206 *)
  | XPopIns i l =>
      Some (match at_var s l with
            | Some (n, NInss ks) => with_var (with_node s n (NInss (removelast ks))) i (last_ref ks)
            | _ => with_var s i None
            end)
  (* ins.go:228-235 *)
  | XIndexIns i l k => Some (with_var s i (nth_error (inss_of s l) k))
  end.
Fixpoint run (s : st) (p : list stmt) : option st :=
  match p with [] => Some s | c :: q => match step s c with Some s' => run s' q | None => None end end.

(* String of a variable of each type; the zero values print the texts the other model
   files have, which are not needed here *)
Definition shown (s : st) (x : nat) : option string :=
  match s_var s x with Some n => text_at (s_heap s) n | None => None end.
End Whole.
