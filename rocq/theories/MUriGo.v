(* One LDAP URI and several goroutines that call Set and String on it, read by read and write
   by write.  Definitions only.

   Simplifications: the pointer of the variable is not nil, as in MUri.v, so that Set
   (uri.go:426-434) replaces nothing; the names, pairs and filters given are values, not
   changed meanwhile; the structure is copied (uri.go:360, the receiver of string is a value)
   and overwritten (uri.go:449, *r = ...) field by field in the order of its declaration
   (uri.go:30-36), an attribute bind type (attr.go:54-57) by its two words; a member is pushed
   to a list of attributes, and the members are printed, in one step. *)
From Coq Require Import String List PeanoNat NArith Bool.
From Verif Require Import GoStr MMisc MKw MSec MAttr MLevels MLists MFilter MUri MHeap.
Import ListNotations.

(* uri.go:30-36: the words of the structure; c_at: which list of attributes *)
Record ucell := MkUC { c_dn : dn; c_scope : N; c_kw : N; c_pair : option pair_t; c_at : nat; c_filter : sfilter }.
(* the structure, the lists of attributes *)
Record vmem := MkVm { v_cell : ucell; v_stk : list (list attype) }.
(* what the words mean *)
Definition view (m : vmem) : uri :=
  let c := v_cell m in
  MkURI (c_dn c) (c_scope c) (MkABTV (c_kw c) (c_pair c)) (nth (c_at c) (v_stk m) []) (c_filter c).
Definition vmem_of (u : uri) : vmem :=
  MkVm (MkUC (u_dn u) (u_scope u) (ab_kw (u_avbt u)) (ab_pair (u_avbt u)) 0 (u_filter u)) [u_attrs u].

Inductive vcall := VSet (xs : list uarg) | VString.
Inductive vop :=
| VDn (d : dn) | VScope (n : N) | VKw (k : N) | VPair (p : option pair_t) | VFilter (f : sfilter)   (* r.dn = ... *)
| VNew (l : list attype)          (* r.attrs = the list of a URI that was read *)
| VRead (j : nat)                 (* a word of the structure is copied *)
| VPush (a : attype)              (* a member is pushed to the list copied *)
| VText.                          (* the copy is printed *)
(* uri.go:439-477 set: the reads and writes of a call *)
Fixpoint vset_ops (xs : list uarg) : list vop :=
  match xs with
  | [] => []
  | UStr s :: t =>
      match parseLDAPURI s [] with
      | Some u => [VDn (u_dn u); VScope (u_scope u); VKw (ab_kw (u_avbt u)); VPair (ab_pair (u_avbt u)); VNew (u_attrs u); VFilter (u_filter u)]
      | None => vset_ops t
      end
  | UDn d :: t => VDn d :: vset_ops t
  | UScope n :: t => VScope n :: vset_ops t
  | UAvbt a :: t => VKw (ab_kw a) :: VPair (ab_pair a) :: vset_ops t
  | UFilter f :: t => VFilter f :: vset_ops t
  | UAttrs l :: t => (VRead 4 :: map VPush l ++ vset_ops t)%list
  | UOther :: t => vset_ops t
  end.
(* uri.go:307-313 String *)
Definition vcall_ops (c : vcall) : list vop :=
  match c with VSet xs => vset_ops xs | VString => [VRead 0; VRead 1; VRead 2; VRead 3; VRead 4; VRead 5; VText] end.
Definition copy_word (j : nat) (s c : ucell) : ucell :=
  match j with
  | 0 => MkUC (c_dn s) (c_scope c) (c_kw c) (c_pair c) (c_at c) (c_filter c)
  | 1 => MkUC (c_dn c) (c_scope s) (c_kw c) (c_pair c) (c_at c) (c_filter c)
  | 2 => MkUC (c_dn c) (c_scope c) (c_kw s) (c_pair c) (c_at c) (c_filter c)
  | 3 => MkUC (c_dn c) (c_scope c) (c_kw c) (c_pair s) (c_at c) (c_filter c)
  | 4 => MkUC (c_dn c) (c_scope c) (c_kw c) (c_pair c) (c_at s) (c_filter c)
  | 5 => MkUC (c_dn c) (c_scope c) (c_kw c) (c_pair c) (c_at c) (c_filter s)
  | _ => c
  end.
Definition blank : ucell := MkUC None 0%N 0%N None 0 None.
(* the memory, the copy of the goroutine, the texts its calls of String returned *)
Record vlocal := MkVl { lm : vmem; lcopy : ucell; ltexts : list string }.
Definition vact (s : vlocal) (o : vop) : vlocal :=
  let m := lm s in let c := v_cell m in
  let put c' := MkVl (MkVm c' (v_stk m)) (lcopy s) (ltexts s) in
  match o with
  | VDn d => put (MkUC d (c_scope c) (c_kw c) (c_pair c) (c_at c) (c_filter c))
  | VScope n => put (MkUC (c_dn c) n (c_kw c) (c_pair c) (c_at c) (c_filter c))
  | VKw k => put (MkUC (c_dn c) (c_scope c) k (c_pair c) (c_at c) (c_filter c))
  | VPair p => put (MkUC (c_dn c) (c_scope c) (c_kw c) p (c_at c) (c_filter c))
  | VFilter f => put (MkUC (c_dn c) (c_scope c) (c_kw c) (c_pair c) (c_at c) f)
  | VNew l => MkVl (MkVm (MkUC (c_dn c) (c_scope c) (c_kw c) (c_pair c) (List.length (v_stk m)) (c_filter c)) (v_stk m ++ [l])%list)
                   (lcopy s) (ltexts s)
  | VRead j => MkVl m (copy_word j c (lcopy s)) (ltexts s)
  | VPush a => let n := c_at (lcopy s) in
               MkVl (MkVm c (wr (v_stk m) n (at_push (nth n (v_stk m) []) [AType a]))) (lcopy s) (ltexts s)
  | VText => MkVl m (lcopy s) (ltexts s ++ [uri_string (view (MkVm (lcopy s) (v_stk m)))])%list
  end.
(* a goroutine: the calls to come, the rest of the call it is in ([] when in none) *)
Record vgo := MkVg { vtodo : list vcall; vcur : list vop; vcopy : ucell; vtexts : list string }.
Record vstate := MkVs { vmm : vmem; vgos : list vgo }.
Definition v_gstep (m : vmem) (g : vgo) : vmem * vgo :=
  match vcur g with
  | [] => match vtodo g with [] => (m, g) | c :: t => (m, MkVg t (vcall_ops c) (vcopy g) (vtexts g)) end
  | o :: k => let s := vact (MkVl m (vcopy g) (vtexts g)) o in (lm s, MkVg (vtodo g) k (lcopy s) (ltexts s))
  end.
Definition v_step (st : vstate) (i : nat) : vstate :=
  match nth_error (vgos st) i with
  | None => st
  | Some g => let '(m, g') := v_gstep (vmm st) g in MkVs m (wr (vgos st) i g')
  end.
Definition v_sched (st : vstate) (q : list nat) : vstate := fold_left v_step q st.
Definition v_start (u : uri) (css : list (list vcall)) : vstate := MkVs (vmem_of u) (map (fun cs => MkVg cs [] blank []) css).
(* the URI at a state *)
Definition v_uri (st : vstate) : uri := view (vmm st).
