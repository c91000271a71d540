(* One BindDistinguishedName or TargetDistinguishedName variable and several goroutines that
   call Set, String and Eq on it, read by read and write by write.  Definitions only.

   Simplifications: the pointer of the variable, the keyword and the pointer of the text are
   each read and written as a whole; the text that a pointer leads to is kept as its value,
   because no code writes to one that exists (dn.go:471-474 makes a new one); the keyword that
   Set chooses from its arguments (dn.go:326-336, 362-372) is part of the call; of a rule made
   by Eq and printed (dn.go:680-687, 697-704, 809-888) the reading of the keyword and, after
   it, of the text are kept. *)
From Coq Require Import String List PeanoNat NArith Bool.
From Verif Require Import GoStr MMisc MLists MHeap.
Import ListNotations.

Inductive dncall := DSet (x : string) (k : N) | DString | DRule.
(* where a goroutine is: in no call; in Set (dn.go:322-346, 358-382) before IsZero
   (dn.go:387-392) reads the text of the object p, before a new object is made and assigned,
   before the variable is read to call set (dn.go:400-406), before set writes the keyword, the
   text to the object p, before the variable is read for the result; in String
   (dn.go:243-249, 276-282) before Valid (dn.go:157-170) reads the text, before String reads
   it; in Eq before IsZero reads the text, before the keyword is read, and in String of the
   rule before the text is read; panicked *)
Inductive dphase := DIdle | DZero (x : string) (k : N) (p : nat) | DMake (x : string) (k : N) | DFind (x : string) (k : N)
  | DKw (x : string) (k : N) (p : nat) | DText (x : string) (p : nat) | DRet
  | DCheck (p : nat) | DName (p : nat) | DAsk (p : nat) | DKey (p : nat) | DPrint (k : N) (p : nat) | DPanic.
(* what calls return: Set the variable, String a text, Eq a rule of a keyword and a text or
   one that is not valid *)
Inductive dres := DVar (p : option nat) | DStr (s : string) | DEq (k : N) (s : string) | DBad.
Record dgo := MkDg { dtodo : list dncall; dph : dphase; dres_of : list dres }.
(* the objects (dn.go:123-126), the variable (dn.go:68-70, 97-99) *)
Record dstate := MkDs { dheap : list dname; dvar : option nat; dgos : list dgo }.
Definition dobj (h : list dname) (p : nat) : dname := nth p h (MkDN 0 None).
(* [bad] is the text of one that is not set *)
Definition d_gstep (bad : string) (h : list dname) (v : option nat) (g : dgo) : list dname * option nat * dgo :=
  let go k := MkDg (dtodo g) k (dres_of g) in
  let ret r := MkDg (dtodo g) DIdle (dres_of g ++ [r])%list in
  match dph g with
  | DIdle =>
      match dtodo g with
      | [] => (h, v, g)
      | DSet x k :: cs => (h, v, MkDg cs (match v with None => DMake x k | Some p => DZero x k p end) (dres_of g))
      | DString :: cs => (h, v, match v with
                                | None => MkDg cs DIdle (dres_of g ++ [DStr bad])%list
                                | Some p => MkDg cs (DCheck p) (dres_of g)
                                end)
      | DRule :: cs => (h, v, match v with
                              | None => MkDg cs DIdle (dres_of g ++ [DBad])%list
                              | Some p => MkDg cs (DAsk p) (dres_of g)
                              end)
      end
  | DZero x k p => (h, v, go (match dn_text (dobj h p) with None => DMake x k | Some _ => DFind x k end))
  | DMake x k => ((h ++ [newDistinguishedName x k])%list, Some (List.length h), go (DFind x k))
  | DFind x k => (h, v, go (if (String.length x =? 0)%nat then DRet else match v with None => DPanic | Some p => DKw x k p end))
  | DKw x k p => (wr h p (MkDN k (dn_text (dobj h p))), v, go (DText x p))
  | DText x p => (wr h p (MkDN (dn_kw (dobj h p)) (Some (chopDNPfx x))), v, go DRet)
  | DRet => (h, v, ret (DVar v))
  | DCheck p => (h, v, match dn_text (dobj h p) with None => ret (DStr bad) | Some _ => go (DName p) end)
  | DName p => (h, v, match dn_text (dobj h p) with None => go DPanic | Some s => ret (DStr (LocalScheme ++ s)%string) end)
  | DAsk p => (h, v, match dn_text (dobj h p) with None => ret DBad | Some _ => go (DKey p) end)
  | DKey p => (h, v, go (DPrint (dn_kw (dobj h p)) p))
  | DPrint k p => (h, v, match dn_text (dobj h p) with None => go DPanic | Some s => ret (DEq k (LocalScheme ++ s)%string) end)
  | DPanic => (h, v, g)
  end.
Definition d_step (bad : string) (st : dstate) (i : nat) : dstate :=
  match nth_error (dgos st) i with
  | None => st
  | Some g => let '(h, v, g') := d_gstep bad (dheap st) (dvar st) g in MkDs h v (wr (dgos st) i g')
  end.
Definition d_sched (bad : string) (st : dstate) (q : list nat) : dstate := fold_left (d_step bad) q st.
Definition d_start (x : dn) (css : list (list dncall)) : dstate :=
  MkDs (match x with None => [] | Some d => [d] end) (match x with None => None | Some _ => Some 0 end) (map (fun cs => MkDg cs DIdle []) css).
(* the name of the variable *)
Definition d_value (st : dstate) : dn := match dvar st with None => None | Some p => Some (dobj (dheap st) p) end.
