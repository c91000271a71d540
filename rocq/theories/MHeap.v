(* Model of the values that are structures around one pointer, as variables of a
   Go program see them: a variable holds a pointer into a heap, assignment copies
   the pointer, and a method writes through it or makes a new cell.  The other
   model files describe the same methods as functions from the old to the new
   value; this file uses those functions for what is written.  Definitions only. *)
From Coq Require Import String Ascii List PeanoNat NArith ZArith Bool.
From Verif Require Import GoStr Shifty MMisc MAttr MKw MRights MLevels MLists MSec MNet MTime MFilter MUri MRule MConv MTree MAci.
Import ListNotations.
Open Scope string_scope.

(* A type of values around a pointer to cells of type [T], with methods named by
   [A]: [o_set v a] is the value after method a on a variable of value v (None: the
   nil pointer); [o_keeps v a]: the method writes into the cell the receiver points
   to rather than making a new one; [o_ptr a]: pointer receiver, so that a new cell
   replaces the one of the variable, and otherwise is only returned. *)
Record obj (T A : Type) := MkObj { o_set : option T -> A -> option T; o_keeps : option T -> A -> bool; o_ptr : A -> bool }.
Arguments o_set {T A}. Arguments o_keeps {T A}. Arguments o_ptr {T A}. Arguments MkObj {T A}.

Section Heap.
Context {T A : Type}.
Variable O : obj T A.
Definition heap := list T.
Definition ptr := option nat.
Definition rd (h : heap) (p : ptr) : option T := match p with None => None | Some l => nth_error h l end.
Fixpoint wr (h : heap) (l : nat) (c : T) : heap :=
  match h, l with
  | [], _ => []
  | _ :: t, 0%nat => c :: t
  | x :: t, S l' => x :: wr t l' c
  end.
(* a method call: the heap, the receiver's pointer and the returned pointer *)
Definition hcall (h : heap) (p : ptr) (a : A) : heap * ptr * ptr :=
  match o_set O (rd h p) a with
  | None => (h, p, p)
  | Some c =>
      match p with
      | Some l => if o_keeps O (rd h p) a then (wr h l c, p, p)
                  else ((h ++ [c])%list, (if o_ptr O a then Some (List.length h) else p), Some (List.length h))
      | None => ((h ++ [c])%list, (if o_ptr O a then Some (List.length h) else p), Some (List.length h))
      end
  end.
(* statements: x := constructor (of value v), x := y, x.M(a), z := x.M(a) *)
Inductive cmd := CNew (x : nat) (v : option T) | CCopy (x y : nat) | CCall (x : nat) (a : A) | CAssign (z x : nat) (a : A).
Record state := MkSt { st_heap : heap; st_var : nat -> ptr }.
Definition upd {V} (e : nat -> V) (x : nat) (v : V) : nat -> V := fun y => if (y =? x)%nat then v else e y.
Definition alloc (h : heap) (v : option T) : heap * ptr :=
  match v with None => (h, None) | Some c => ((h ++ [c])%list, Some (List.length h)) end.
Definition exec (s : state) (c : cmd) : state :=
  match c with
  | CNew x v => let '(h, p) := alloc (st_heap s) v in MkSt h (upd (st_var s) x p)
  | CCopy x y => MkSt (st_heap s) (upd (st_var s) x (st_var s y))
  | CCall x a => let '(h, p, _) := hcall (st_heap s) (st_var s x) a in MkSt h (upd (st_var s) x p)
  | CAssign z x a => let '(h, p, q) := hcall (st_heap s) (st_var s x) a in MkSt h (upd (upd (st_var s) x p) z q)
  end.
Definition start : state := MkSt [] (fun _ => None).
Definition exec_all (s : state) (p : list cmd) : state := fold_left exec p s.
(* what a variable shows *)
Definition look (s : state) (x : nat) : option T := rd (st_heap s) (st_var s x).
End Heap.

(* ---- the types ---- *)
(* dn.go:322-346 (after 339 the receiver is replaced), 358-382 *)
Definition o_bdn : obj dname (string * list N) :=
  MkObj (fun v a => bdn_set v (fst a) (snd a)) (fun v _ => negb (dn_isZero v)) (fun _ => true).
Definition o_tdn : obj dname (string * list N) :=
  MkObj (fun v a => tdn_set v (fst a) (snd a)) (fun v _ => negb (dn_isZero v)) (fun _ => true).
(* rights.go:251-270 Shift, Unshift: value receivers that write through the pointer *)
Definition perm_of (v : option (bool * N)) : permission := match v with None => PNil | Some (d, n) => PSome d n end.
Definition perm_cell (p : permission) : option (bool * N) := match p with PNil => None | PSome d n => Some (d, n) end.
Definition o_perm (sh : shifty) : obj (bool * N) (bool * list rarg) :=
  MkObj (fun v (a : bool * list rarg) => perm_cell (if fst a then perm_shift sh (perm_of v) (snd a) else perm_unshift sh (perm_of v) (snd a)))
        (fun v _ => match v with None => false | Some _ => true end) (fun _ => false).
(* levels.go:309-316 Shift, 403-408 Unshift: value receivers *)
Definition o_inh (sh : shifty) : obj inh (bool * list larg) :=
  MkObj (fun v (a : bool * list larg) => if fst a then inh_shift sh v (snd a) else inh_unshift sh v (snd a))
        (fun v (a : bool * list larg) => if fst a then negb (inh_isZero v) else match v with None => false | Some _ => true end) (fun _ => false).
(* sec.go:253-260 SecurityStrengthFactor.Set *)
Definition o_ssf : obj (option N) sarg :=
  MkObj ssf_set (fun v _ => match v with None => false | Some _ => true end) (fun _ => true).
(* net.go:124-131, 323-330 *)
Definition o_ip : obj (list string) (list string) :=
  MkObj ipaddr_set (fun v _ => match v with None => false | Some _ => true end) (fun _ => true).
Definition o_fqdn : obj (list string) (list string) :=
  MkObj fqdn_set (fun v _ => match v with None => false | Some _ => true end) (fun _ => true).
(* time.go:534-537: always a new cell *)
Definition o_tod : obj N targ := MkObj tod_set (fun _ _ => false) (fun _ => true).
(* filter.go:140-147 SearchFilter.Set, 237-244 AttributeFilter.Set *)
Definition o_sf : obj string string :=
  MkObj sf_set (fun v _ => match v with None => false | Some _ => true end) (fun _ => true).
Definition o_af : obj atf (list farg) := MkObj af_set (fun v _ => negb (af_isZero v)) (fun _ => true).
(* uri.go:426-434 *)
Definition o_uri : obj uri (list uarg) :=
  MkObj (fun v a => Some (uri_set (match v with Some u => u | None => uri_new end) a))
        (fun v _ => match v with None => false | Some _ => true end) (fun _ => true).
(* ins.go:331-337 *)
Definition o_ins (W : world) : obj instr (list iarg) :=
  MkObj (ins_set W) (fun v _ => match v with None => false | Some _ => true end) (fun _ => true).

(* ---- rules that hold a pointer to a permission ---- *)
(* pb.go:26-33: the cell of a rule holds a Permission, itself a pointer, and a bind
   context (taken as a value here: simplification).  Variables 0.. are permissions
   and rules, each in its own space. *)
Section Rules.
Variable W : world.
Definition sh : shifty := e_shifty (w_env W).
Record rstate := MkR { r_perms : list (bool * N); r_cells : list (ptr * option bctx);
                       r_pvar : nat -> ptr; r_rvar : nat -> ptr; r_list : list ptr }.
(* the rule a pointer stands for at this moment *)
Definition rule_at (s : rstate) (p : ptr) : pbr :=
  match rd (r_cells s) p with
  | None => None
  | Some (q, b) => Some (MkPB (perm_of (rd (r_perms s) q)) b)
  end.
Inductive rcmd :=
  | RPerm (x : nat) (allow : bool) (xs : list rarg)        (* x := Allow(xs) or Deny(xs) *)
  | RPCopy (x y : nat)                                      (* x := y *)
  | RShift (x : nat) (on : bool) (xs : list rarg)          (* x.Shift(xs), x.Unshift(xs) *)
  | RRule (r x : nat) (b : option bctx)                     (* r := PBR(x, b) *)
  | RRCopy (r q : nat)                                      (* r := q *)
  | RSetP (r x : nat)                                       (* r.Set(x) *)
  | RSetB (r : nat) (b : bctx)                              (* r.Set(b) *)
  | RPush (r : nat).                                        (* list.Push(r) *)
(* rights.go:52-72, 251-270; pb.go:49-59 PBR, 87-123 Set, 240-259 Push with 278-302
   pushPolicy (pbrs_policy) *)
Definition set_cell (s : rstate) (r : nat) (f : ptr * option bctx -> ptr * option bctx) : rstate :=
  match r_rvar s r with
  | Some l =>
      if pbr_isZero (rule_at s (Some l)) then
        MkR (r_perms s) (r_cells s ++ [f (None, None)])%list (r_pvar s) (upd (r_rvar s) r (Some (List.length (r_cells s)))) (r_list s)
      else match nth_error (r_cells s) l with
           | Some c => MkR (r_perms s) (wr (r_cells s) l (f c)) (r_pvar s) (r_rvar s) (r_list s)
           | None => s
           end
  | None => MkR (r_perms s) (r_cells s ++ [f (None, None)])%list (r_pvar s) (upd (r_rvar s) r (Some (List.length (r_cells s)))) (r_list s)
  end.
Definition rexec (s : rstate) (c : rcmd) : rstate :=
  match c with
  | RPerm x d xs => MkR (r_perms s ++ [(d, shift_bits sh 0 xs)])%list (r_cells s) (upd (r_pvar s) x (Some (List.length (r_perms s)))) (r_rvar s) (r_list s)
  | RPCopy x y => MkR (r_perms s) (r_cells s) (upd (r_pvar s) x (r_pvar s y)) (r_rvar s) (r_list s)
  | RShift x on xs =>
      let '(h, _, _) := hcall (o_perm sh) (r_perms s) (r_pvar s x) (on, xs) in
      MkR h (r_cells s) (r_pvar s) (r_rvar s) (r_list s)
  | RRule r x b =>
      if pbr_valid (Some (MkPB (perm_of (rd (r_perms s) (r_pvar s x))) b))
      then MkR (r_perms s) (r_cells s ++ [(r_pvar s x, b)])%list (r_pvar s) (upd (r_rvar s) r (Some (List.length (r_cells s)))) (r_list s)
      else MkR (r_perms s) (r_cells s) (r_pvar s) (upd (r_rvar s) r None) (r_list s)
  | RRCopy r q => MkR (r_perms s) (r_cells s) (r_pvar s) (upd (r_rvar s) r (r_rvar s q)) (r_list s)
  | RSetP r x => set_cell s r (fun c => if perm_valid (perm_of (rd (r_perms s) (r_pvar s x))) then (r_pvar s x, snd c) else c)
  | RSetB r b => set_cell s r (fun c => if bctx_valid b then (fst c, Some b) else c)
  | RPush r =>
      if pbrs_policy W (map (rule_at s) (r_list s)) (rule_at s (r_rvar s r))
      then MkR (r_perms s) (r_cells s) (r_pvar s) (r_rvar s) (r_list s ++ [r_rvar s r])%list
      else s
  end.
Definition rstart : rstate := MkR [] [] (fun _ => None) (fun _ => None) [].
Definition rexec_all (s : rstate) (p : list rcmd) : rstate := fold_left rexec p s.
(* what a rule variable and the list show *)
Definition rlook (s : rstate) (r : nat) : pbr := rule_at s (r_rvar s r).
Definition rlist (s : rstate) : list pbr := map (rule_at s) (r_list s).
End Rules.

(* ---- lists of names that hold pointers ---- *)
(* dn.go:1118-1139 Push, 1339-1344 (dn_policy), for values of the list's own type *)
Section Names.
Variable eqf : string -> string -> bool.
Record nstate := MkNS { n_st : @state dname; n_list : list ptr }.
Inductive ncmd := NDo (c : @cmd dname (string * list N)) | NPush (x : nat).
Definition names (s : nstate) : list dmember := map (fun p => MDN (rd (st_heap (n_st s)) p)) (n_list s).
Definition nexec (kw : N) (s : nstate) (c : ncmd) : nstate :=
  match c with
  | NDo c => MkNS (exec o_bdn (n_st s) c) (n_list s)
  | NPush x =>
      match push_cast true kw (DDN (look (n_st s) x)) with
      | Some m => if dn_policy eqf badBDN (names s) m then MkNS (n_st s) (n_list s ++ [st_var (n_st s) x])%list else s
      | None => s
      end
  end.
Definition nstart : nstate := MkNS start [].
Definition nexec_all (kw : N) (s : nstate) (p : list ncmd) : nstate := fold_left (nexec kw) p s.
End Names.
