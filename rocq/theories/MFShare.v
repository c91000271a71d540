(* Search filters, attribute filters, operations and lists of operations as
   references (/repo/filter.go): SearchFilter and AttributeFilter are structures
   around a pointer, the other two are go-stackage stacks, so a variable holds a
   reference, assignment copies it, and what was pushed is the value itself.
   Definitions only.  What a call computes is taken from MFilter.v; this file adds
   which cell it reads and writes. *)
From Coq Require Import String Ascii List PeanoNat NArith ZArith Bool.
From Verif Require Import GoStr MMisc MLists MAttr MFilter MRule MMeth MHeap.
Import ListNotations.
Open Scope string_scope.

(* the cells: filter.go:18-27 searchFilter, 193-196 atf, and the two kinds of stacks.  An
   AttributeType is a pointer to a text that no method changes, hence a value here. *)
Record heaps := MkH {
  h_sf : list string;
  h_af : list (attype * ptr);
  h_op : list (N * list nat);          (* operation and members *)
  h_ops : list (ascii * list nat) }.   (* delimiter and members *)
Definition no_cells : heaps := MkH [] [] [] [].
Definition add_sf (h : heaps) (c : string) : heaps := MkH (h_sf h ++ [c])%list (h_af h) (h_op h) (h_ops h).
Definition add_af (h : heaps) (c : attype * ptr) : heaps := MkH (h_sf h) (h_af h ++ [c])%list (h_op h) (h_ops h).
Definition add_op (h : heaps) (c : N * list nat) : heaps := MkH (h_sf h) (h_af h) (h_op h ++ [c])%list (h_ops h).
Definition add_ops (h : heaps) (c : ascii * list nat) : heaps := MkH (h_sf h) (h_af h) (h_op h) (h_ops h ++ [c])%list.
Definition set_sf (h : heaps) (n : nat) (c : string) : heaps := MkH (wr (h_sf h) n c) (h_af h) (h_op h) (h_ops h).
Definition set_af (h : heaps) (n : nat) (c : attype * ptr) : heaps := MkH (h_sf h) (wr (h_af h) n c) (h_op h) (h_ops h).
Definition set_op (h : heaps) (n : nat) (c : N * list nat) : heaps := MkH (h_sf h) (h_af h) (wr (h_op h) n c) (h_ops h).
Definition set_ops (h : heaps) (n : nat) (c : ascii * list nat) : heaps := MkH (h_sf h) (h_af h) (h_op h) (wr (h_ops h) n c).

(* the value a reference stands for at this moment *)
Definition sf_at (h : heaps) (p : ptr) : sfilter := rd (h_sf h) p.
Definition af_at (h : heaps) (p : ptr) : afilter :=
  match rd (h_af h) p with None => None | Some (a, q) => Some (a, sf_at h q) end.
Definition op_at (h : heaps) (p : ptr) : option afo :=
  match rd (h_op h) p with None => None | Some (o, l) => Some (MkAFO o (map (fun n => af_at h (Some n)) l)) end.
Definition op_val (h : heaps) (n : nat) : afo := match op_at h (Some n) with Some v => v | None => MkAFO noAOp [] end.
Definition ops_at (h : heaps) (p : ptr) : option afos :=
  match rd (h_ops h) p with None => None | Some (d, l) => Some (MkAFOs d (map (op_val h) l)) end.

(* new cells for a value just made by a constructor or parser.  Cells of values that are
   dropped on the way are left out. *)
Definition new_sf (h : heaps) (v : sfilter) : heaps * ptr :=
  match v with None => (h, None) | Some s => (add_sf h s, Some (List.length (h_sf h))) end.
Definition new_af (h : heaps) (v : afilter) : heaps * ptr :=
  match v with
  | None => (h, None)
  | Some (a, f) => let '(h1, q) := new_sf h f in (add_af h1 (a, q), Some (List.length (h_af h1)))
  end.
Fixpoint new_afs (h : heaps) (l : list afilter) : heaps * list nat :=
  match l with
  | [] => (h, [])
  | v :: t => let '(h1, p) := new_af h v in
              let '(h2, r) := new_afs h1 t in
              (h2, match p with Some n => n :: r | None => r end)
  end.
Definition new_op (h : heaps) (v : afo) : heaps * nat :=
  let '(h1, l) := new_afs h (afo_mem v) in (add_op h1 (afo_op v, l), List.length (h_op h1)).

(* variables, each type in its own space; a rule holds the text it was given (filter.go:
   868-873) or the list of operations itself (586-591) *)
Inductive held := HNone | HText (r : rule) | HOps (n : nat).
Record fstate := MkFS { f_h : heaps; v_sf : nat -> ptr; v_af : nat -> ptr; v_op : nat -> ptr;
                        v_ops : nat -> ptr; v_rule : nat -> held }.
Definition f_start : fstate := MkFS no_cells (fun _ => None) (fun _ => None) (fun _ => None) (fun _ => None) (fun _ => HNone).
Definition with_h (s : fstate) (h : heaps) : fstate := MkFS h (v_sf s) (v_af s) (v_op s) (v_ops s) (v_rule s).
Definition let_sf (s : fstate) (x : nat) (p : ptr) : fstate := MkFS (f_h s) (upd (v_sf s) x p) (v_af s) (v_op s) (v_ops s) (v_rule s).
Definition let_af (s : fstate) (x : nat) (p : ptr) : fstate := MkFS (f_h s) (v_sf s) (upd (v_af s) x p) (v_op s) (v_ops s) (v_rule s).
Definition let_op (s : fstate) (x : nat) (p : ptr) : fstate := MkFS (f_h s) (v_sf s) (v_af s) (upd (v_op s) x p) (v_ops s) (v_rule s).
Definition let_ops (s : fstate) (x : nat) (p : ptr) : fstate := MkFS (f_h s) (v_sf s) (v_af s) (v_op s) (upd (v_ops s) x p) (v_rule s).
Definition let_rule (s : fstate) (x : nat) (p : held) : fstate := MkFS (f_h s) (v_sf s) (v_af s) (v_op s) (v_ops s) (upd (v_rule s) x p).

Inductive aarg := RStr (s : string) | RAT (a : attype) | RSF (x : nat) | ROther.
Inductive oparg' := QStr (s : string) | QOp (n : N) | QAF (a : nat) | QOther.
Inductive opsarg := UStr (s : string) | UOp (o : nat) | UOther.
Inductive fstmt :=
| FNew (x : nat) (s : list string)         (* x := Filter(s...) *)
| FCopy (x y : nat)                        (* x := y *)
| FSet (x : nat) (s : string)              (* x.Set(s) *)
| FTake (x a : nat)                        (* x := a.SearchFilter() *)
| ANew (a : nat) (xs : list aarg)          (* a := AF(xs...) *)
| ACopy (a b : nat)
| ASet (a : nat) (xs : list aarg)          (* a.Set(xs...) *)
| ONew (o : nat) (op : option N) (xs : list oparg')  (* o := AFO(xs...) or op.AFO(xs...) *)
| OCopy (o p : nat)
| OPush (o : nat) (xs : list oparg')       (* o.Push(xs...) *)
| OPop (a o : nat)                         (* a := o.Pop() *)
| OIndex (a o i : nat)                     (* a := o.Index(i) *)
| LNew (p : nat)                           (* p := AFOs() *)
| LCopy (p q : nat)
| LPush (p : nat) (xs : list opsarg)       (* p.Push(xs...) *)
| LPop (o p : nat)                         (* o := p.Pop() *)
| LIndex (o p i : nat)                     (* o := p.Index(i) *)
| LDelim (p : nat) (semi : bool)           (* p.SetDelimiter(...) *)
| REqOp (r o : nat)                        (* r := o.Eq() *)
| REqOps (r p : nat).                      (* r := p.Eq() *)

(* filter.go:278-293 atf.set: one loop step *)
Definition aset1 (sv : nat -> ptr) (st : heaps * (attype * ptr)) (x : aarg) : heaps * (attype * ptr) :=
  let '(h, c) := st in
  match x with
  | RStr s => if isIdentifier s then (h, (AT s, snd c))
              else let '(h1, q) := new_sf h (Filter [s]) in (h1, (fst c, q))
  | RAT a => (h, (a, snd c))
  | RSF y => (h, (fst c, sv y))
  | ROther => (h, c)
  end.
Definition aset (sv : nat -> ptr) (h : heaps) (c : attype * ptr) (xs : list aarg) : heaps * (attype * ptr) :=
  fold_left (aset1 sv) xs (h, c).
(* go-stackage Push of one AttributeFilter under filter.go:652-680 pushPolicy *)
Definition opush_ref (h : heaps) (l : list nat) (p : ptr) : list nat :=
  match p with
  | Some n => if afo_policy (map (fun n => af_at h (Some n)) l) (af_at h (Some n)) then (l ++ [n])%list else l
  | None => l
  end.
(* filter.go:692-723 Push: one loop step *)
Definition opush1 (av : nat -> ptr) (st : heaps * (N * list nat)) (x : oparg') : heaps * (N * list nat) :=
  let '(h, (o, l)) := st in
  match x with
  | QStr s => match parseAttributeFilter s with
              | Some v => let '(h1, p) := new_af h v in (h1, (o, opush_ref h1 l p))
              | None => st
              end
  | QOp n => (h, (aop_label n, l))
  | QAF a => (h, (o, opush_ref h l (av a)))
  | QOther => st
  end.
Definition opush (av : nat -> ptr) (h : heaps) (c : N * list nat) (xs : list oparg') : heaps * (N * list nat) :=
  fold_left (opush1 av) xs (h, c).
(* go-stackage Push of one AttributeFilterOperation under filter.go:621-647 pushPolicy *)
Definition lpush_ref (h : heaps) (l : list nat) (p : ptr) : list nat :=
  match p with
  | Some n => if afos_policy (map (op_val h) l) (op_val h n) then (l ++ [n])%list else l
  | None => l
  end.
(* filter.go:502-522 Push: one loop step *)
Definition lpush1 (ov : nat -> ptr) (st : heaps * (ascii * list nat)) (x : opsarg) : heaps * (ascii * list nat) :=
  let '(h, (d, l)) := st in
  match x with
  | UStr s => match parseAFO s with
              | Some v => if (0 <? List.length (afo_mem v))%nat
                          then let '(h1, n) := new_op h v in (h1, (d, lpush_ref h1 l (Some n))) else st
              | None => st
              end
  | UOp o => (h, (d, lpush_ref h l (ov o)))
  | UOther => st
  end.
Definition lpush (ov : nat -> ptr) (h : heaps) (c : ascii * list nat) (xs : list opsarg) : heaps * (ascii * list nat) :=
  fold_left (lpush1 ov) xs (h, c).
Definition last_ref (l : list nat) : ptr := nth_error (rev l) 0.

Definition f_step (pad : bool) (s : fstate) (c : fstmt) : fstate :=
  let h := f_h s in
  match c with
  (* filter.go:88-94 *)
  | FNew x t => let '(h1, p) := new_sf h (Filter t) in let_sf (with_h s h1) x p
  | FCopy x y => let_sf s x (v_sf s y)
  (* filter.go:140-157: a nil receiver gets a new cell *)
  | FSet x t =>
      match v_sf s x with
      | Some n => match sf_set (sf_at h (Some n)) t with Some c => with_h s (set_sf h n c) | None => s end
      | None => let '(h1, p) := new_sf h (sf_set None t) in let_sf (with_h s h1) x p
      end
  (* filter.go:260-266 *)
  | FTake x a =>
      let_sf s x (if af_isZero (af_at h (v_af s a)) then None
                  else match rd (h_af h) (v_af s a) with Some (_, q) => q | None => None end)
  (* filter.go:219-230 *)
  | ANew a xs => let '(h1, c) := aset (v_sf s) h (None, None) xs in
                 let_af (with_h s (add_af h1 c)) a (Some (List.length (h_af h1)))
  | ACopy a b => let_af s a (v_af s b)
  (* filter.go:237-244: a zero receiver gets a new cell *)
  | ASet a xs =>
      if af_isZero (af_at h (v_af s a))
      then let '(h1, c) := aset (v_sf s) h (None, None) xs in
           let_af (with_h s (add_af h1 c)) a (Some (List.length (h_af h1)))
      else match v_af s a with
           | Some n => match nth_error (h_af h) n with
                       | Some c => let '(h1, c1) := aset (v_sf s) h c xs in with_h s (set_af h1 n c1)
                       | None => s
                       end
           | None => s
           end
  (* filter.go:909-937 *)
  | ONew o op xs =>
      let '(h1, c) := opush (v_af s) h (match op with Some n => aop_label n | None => noAOp end, []) xs in
      let_op (with_h s (add_op h1 c)) o (Some (List.length (h_op h1)))
  | OCopy o p => let_op s o (v_op s p)
  (* filter.go:692-723; a nil stack stays as it is *)
  | OPush o xs =>
      match v_op s o with
      | Some n => match nth_error (h_op h) n with
                  | Some c => let '(h1, c1) := opush (v_af s) h c xs in with_h s (set_op h1 n c1)
                  | None => s
                  end
      | None => s
      end
  (* filter.go:728-735 *)
  | OPop a o =>
      match v_op s o with
      | Some n => match nth_error (h_op h) n with
                  | Some (k, l) => let_af (with_h s (set_op h n (k, removelast l))) a (last_ref l)
                  | None => let_af s a None
                  end
      | None => let_af s a None
      end
  (* filter.go:763-769 *)
  | OIndex a o i =>
      let_af s a (match rd (h_op h) (v_op s o) with Some (_, l) => nth_error l i | None => None end)
  (* filter.go:360-390 *)
  | LNew p => let_ops (with_h s (add_ops h (","%char, []))) p (Some (List.length (h_ops h)))
  | LCopy p q => let_ops s p (v_ops s q)
  (* filter.go:502-522 *)
  | LPush p xs =>
      match v_ops s p with
      | Some n => match nth_error (h_ops h) n with
                  | Some c => let '(h1, c1) := lpush (v_op s) h c xs in with_h s (set_ops h1 n c1)
                  | None => s
                  end
      | None => s
      end
  (* filter.go:527-534 *)
  | LPop o p =>
      match v_ops s p with
      | Some n => match nth_error (h_ops h) n with
                  | Some (k, l) => let_op (with_h s (set_ops h n (k, removelast l))) o (last_ref l)
                  | None => let_op s o None
                  end
      | None => let_op s o None
      end
  (* filter.go:546-553 *)
  | LIndex o p i =>
      let_op s o (match rd (h_ops h) (v_ops s p) with Some (_, l) => nth_error l i | None => None end)
  (* filter.go:464-497 *)
  | LDelim p b =>
      match v_ops s p with
      | Some n => match nth_error (h_ops h) n with
                  | Some (_, l) => with_h s (set_ops h n (if b then ";"%char else ","%char, l))
                  | None => s
                  end
      | None => s
      end
  (* filter.go:868-873, 586-591 *)
  | REqOp r o => let_rule s r (match op_at h (v_op s o) with Some v => HText (afo_Eq pad (Some v)) | None => HNone end)
  | REqOps r p => let_rule s r (match v_ops s p with Some n => HOps n | None => HNone end)
  end.
Definition f_run (pad : bool) (s : fstate) (p : list fstmt) : fstate := fold_left (f_step pad) p s.

(* what the variables show *)
Definition show_sf (s : fstate) (x : nat) : sfilter := sf_at (f_h s) (v_sf s x).
Definition show_af (s : fstate) (x : nat) : afilter := af_at (f_h s) (v_af s x).
Definition show_op (s : fstate) (x : nat) : option afo := op_at (f_h s) (v_op s x).
Definition show_ops (s : fstate) (x : nat) : option afos := ops_at (f_h s) (v_ops s x).
(* a condition asks its expression for the text when it is printed (as in MShare.v) *)
Definition show_rule (pad : bool) (s : fstate) (x : nat) : rule :=
  match v_rule s x with
  | HNone => None
  | HText r => r
  | HOps n => afos_Eq pad (ops_at (f_h s) (Some n))
  end.
