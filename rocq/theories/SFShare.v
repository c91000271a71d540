(* What a user expects of filters and operations that share their parts: definitions to
   state C113-C115 in terms of statements and of what variables show. *)
From Coq Require Import String Ascii List PeanoNat NArith Bool.
From Verif Require Import GoStr MLists MAttr MFilter MRule MHeap MFShare.
Import ListNotations.
Open Scope string_scope.

(* the cell of a value; the cells a value is made of *)
Inductive cell := CSf (n : nat) | CAf (n : nat) | COp (n : nat) | COps (n : nat).
Definition sf_part (p : ptr) (c : cell) : Prop := exists n, p = Some n /\ c = CSf n.
Definition af_part (h : heaps) (p : ptr) (c : cell) : Prop :=
  exists n, p = Some n /\ (c = CAf n \/ exists a q, nth_error (h_af h) n = Some (a, q) /\ sf_part q c).
Definition op_part (h : heaps) (p : ptr) (c : cell) : Prop :=
  exists n, p = Some n /\ (c = COp n \/ exists o l m, nth_error (h_op h) n = Some (o, l) /\ In m l /\ af_part h (Some m) c).
Definition ops_part (h : heaps) (p : ptr) (c : cell) : Prop :=
  exists n, p = Some n /\ (c = COps n \/ exists d l m, nth_error (h_ops h) n = Some (d, l) /\ In m l /\ op_part h (Some m) c).
(* variables *)
Inductive fvar := VSf (x : nat) | VAf (x : nat) | VOp (x : nat) | VOps (x : nat) | VRule (x : nat).
Definition part (s : fstate) (v : fvar) (c : cell) : Prop :=
  match v with
  | VSf x => sf_part (v_sf s x) c
  | VAf x => af_part (f_h s) (v_af s x) c
  | VOp x => op_part (f_h s) (v_op s x) c
  | VOps x => ops_part (f_h s) (v_ops s x) c
  | VRule x => match v_rule s x with HOps n => ops_part (f_h s) (Some n) c | _ => False end
  end.
(* the variable a statement assigns; Set on a zero value counts *)
Definition assigns (s : fstate) (c : fstmt) : option fvar :=
  match c with
  | FNew x _ | FCopy x _ | FTake x _ => Some (VSf x)
  | FSet x _ => match v_sf s x with None => Some (VSf x) | Some _ => None end
  | ANew a _ | ACopy a _ | OPop a _ | OIndex a _ _ => Some (VAf a)
  | ASet a _ => if af_isZero (show_af s a) then Some (VAf a) else None
  | ONew o _ _ | OCopy o _ | LPop o _ | LIndex o _ _ => Some (VOp o)
  | OPush _ _ => None
  | LNew p | LCopy p _ => Some (VOps p)
  | LPush _ _ | LDelim _ _ => None
  | REqOp r _ | REqOps r _ => Some (VRule r)
  end.
(* the value on which a statement calls Set, Push, Pop or SetDelimiter *)
Definition on (c : nat -> cell) (p : ptr) : option cell := match p with Some n => Some (c n) | None => None end.
Definition changes (s : fstate) (c : fstmt) : option cell :=
  match c with
  | FSet x _ => on CSf (v_sf s x)
  | ASet a _ => if af_isZero (show_af s a) then None else on CAf (v_af s a)
  | OPush o _ | OPop _ o => on COp (v_op s o)
  | LPush p _ | LPop _ p | LDelim p _ => on COps (v_ops s p)
  | _ => None
  end.
(* the statement assigns v, or changes v itself or something v is made of *)
Definition concerns (s : fstate) (c : fstmt) (v : fvar) : Prop :=
  assigns s c = Some v \/ exists w, changes s c = Some w /\ part s v w.

(* arguments as values *)
Definition a_value (s : fstate) (x : aarg) : farg :=
  match x with RStr t => FStr t | RAT a => FAT a | RSF y => FSF (show_sf s y) | ROther => FOther end.
Definition o_value (s : fstate) (x : oparg') : aoarg :=
  match x with QStr t => AOStr t | QOp n => AOOp n | QAF a => AOFilter (show_af s a) | QOther => AOOther end.
Definition l_value (s : fstate) (x : opsarg) : asarg :=
  match x with
  | UStr t => ASStr t
  | UOp o => match show_op s o with Some v => ASOp v | None => ASOther end
  | UOther => ASOther
  end.

(* an operation whose filters are complete and have different texts; a list of operations
   that have filters and different texts *)
Definition good_op (v : afo) : Prop :=
  (forall f, In f (afo_mem v) -> exists a t, f = Some (Some a, Some t) /\ a <> "" /\ t <> "") /\
  NoDup (map af_string (afo_mem v)).
Definition good_ops (v : afos) : Prop :=
  (forall o, In o (afos_mem v) -> afo_mem o <> []) /\ NoDup (map afo_string (afos_mem v)).
(* Set is called only on filters that are in no operation *)
Definition calm (s : fstate) (c : fstmt) : Prop :=
  match c with
  | FSet _ _ | ASet _ _ => forall w n, changes s c = Some w -> ~ op_part (f_h s) (Some n) w
  | _ => True
  end.
(* ... and Push and Pop only on operations that are in no list *)
Definition calm_list (s : fstate) (c : fstmt) : Prop :=
  match c with
  | FSet _ _ | ASet _ _ | OPush _ _ | OPop _ _ => forall w n, changes s c = Some w -> ~ ops_part (f_h s) (Some n) w
  | _ => True
  end.
Fixpoint along (pad : bool) (P : fstate -> fstmt -> Prop) (s : fstate) (p : list fstmt) : Prop :=
  match p with [] => True | c :: t => P s c /\ along pad P (f_step pad s c) t end.
(* the variable shows the same in both states *)
Definition same_view (pad : bool) (s s' : fstate) (v : fvar) : Prop :=
  match v with
  | VSf x => show_sf s' x = show_sf s x
  | VAf x => show_af s' x = show_af s x
  | VOp x => show_op s' x = show_op s x
  | VOps x => show_ops s' x = show_ops s x
  | VRule x => show_rule pad s' x = show_rule pad s x
  end.
