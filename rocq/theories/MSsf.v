(* One SecurityStrengthFactor variable and several goroutines that call Set and String on it,
   read by read and write by write.  Definitions only.

   Simplifications: pointers are read and written as a whole; the uint8 that a pointer of an
   ssf leads to is kept as its value, because no code writes to one that exists (sec.go:284-285
   makes a new one); a goroutine that panics takes no more steps and the others go on, as if
   the panic were recovered. *)
From Coq Require Import String List PeanoNat NArith ZArith Bool.
From Verif Require Import GoStr MMisc MSec MHeap.
Import ListNotations.

Inductive scall := SSet (f : sarg) | SString.
(* where a goroutine is: in no call; in Set (sec.go:253-260) after it has found no ssf, before
   it reads the variable to fill the new ssf, before it writes to the ssf p, before it reads the
   variable to call set (sec.go:265-289), in set for the ssf p, before it reads the variable for
   the result; in String (sec.go:208-213) before IsZero (sec.go:133-139) reads the pointer of
   the ssf p, before String reads it again; panicked *)
Inductive sphase := SIdle | SNew (f : sarg) | SFill (f : sarg) | SFillAt (f : sarg) (p : nat) | SFind (f : sarg) | SWrite (f : sarg) (p : nat)
  | SRet | SCheck (p : nat) | SDeref (p : nat) | SPanic.
(* what calls return: Set the variable, which leads to an ssf, String a text *)
Inductive sres := SVar (p : option nat) | SText (s : string).
Record sgo := MkSg { stodo : list scall; sph : sphase; sres_of : list sres }.
(* the ssf objects (sec.go:108-110), the variable (sec.go:104-106) *)
Record sstate := MkSs { sheap : list (option N); svar : option nat; sgos : list sgo }.
Definition cell (h : list (option N)) (p : nat) : option N := nth p h None.
Definition value_at (h : list (option N)) (p : option nat) : ssfv := match p with None => None | Some p => Some (cell h p) end.
Definition s_gstep (h : list (option N)) (v : option nat) (g : sgo) : list (option N) * option nat * sgo :=
  let go k := MkSg (stodo g) k (sres_of g) in
  let ret r := MkSg (stodo g) SIdle (sres_of g ++ [r])%list in
  match sph g with
  | SIdle =>
      match stodo g with
      | [] => (h, v, g)
      | SSet f :: cs => (h, v, MkSg cs (match v with None => SNew f | Some _ => SFind f end) (sres_of g))
      | SString :: cs => (h, v, match v with
                                | None => MkSg cs SIdle (sres_of g ++ [SText "0"])%list
                                | Some p => MkSg cs (SCheck p) (sres_of g)
                                end)
      end
  | SNew f => ((h ++ [None])%list, Some (List.length h), go (SFill f))
  | SFill f => (h, v, go (match v with None => SPanic | Some p => SFillAt f p end))
  | SFillAt f p => (wr h p (Some 0%N), v, go (SFind f))
  | SFind f => (h, v, go (match v with None => SPanic | Some p => SWrite f p end))
  | SWrite f p => (wr h p (ssf_set_inner (cell h p) f), v, go SRet)
  | SRet => (h, v, ret (SVar v))
  | SCheck p => (h, v, match cell h p with None => ret (SText "0") | Some _ => go (SDeref p) end)
  | SDeref p => (h, v, match cell h p with None => go SPanic | Some n => ret (SText (itoa (n + 1))) end)
  | SPanic => (h, v, g)
  end.
Definition s_step (st : sstate) (i : nat) : sstate :=
  match nth_error (sgos st) i with
  | None => st
  | Some g => let '(h, v, g') := s_gstep (sheap st) (svar st) g in MkSs h v (wr (sgos st) i g')
  end.
Definition s_sched (st : sstate) (q : list nat) : sstate := fold_left s_step q st.
Definition s_start (x : ssfv) (css : list (list scall)) : sstate :=
  MkSs (match x with None => [] | Some c => [c] end) (match x with None => None | Some _ => Some 0 end) (map (fun cs => MkSg cs SIdle []) css).
(* the value of the variable *)
Definition s_value (st : sstate) : ssfv := value_at (sheap st) (svar st).
