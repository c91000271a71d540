(* One TimeOfDay variable and several goroutines that call Set and String on it, read by read
   and write by write.  Definitions only.

   Simplifications: the pointer of the variable is read and written as a whole; a value that
   is refused leaves the two bytes of the new object at zero, here by writing zeros. *)
From Coq Require Import String List PeanoNat NArith Bool.
From Verif Require Import GoStr MTime MHeap.
Import ListNotations.
Local Open Scope N_scope.

Inductive tcall := TSet (t : targ) | TString.
(* where a goroutine is: in no call; in Set (time.go:534-537, 370-376, 566-574) with the
   number n to write to the new object p, the first, the second byte to be written, p to be
   assigned, the variable to be read for the result; in String (time.go:497-510) with the
   pointer, the pointer and the first byte read *)
Inductive tphase := TIdle | TByte0 (n : N) (p : nat) | TByte1 (n : N) (p : nat) | TAssign (p : nat) | TResult
  | TRead0 (p : nat) | TRead1 (p : nat) (b : N).
(* what calls return: Set the time of the variable, String a text *)
Inductive tres := RTime (p : option nat) | RText (s : string).
Record tgo := MkTg { ttodo : list tcall; tph : tphase; tres_of : list tres }.
(* the objects of two bytes (time.go:378), the variable *)
Record tstate := MkTs { theap : list (N * N); tvar : option nat; tgos : list tgo }.
Definition two (h : list (N * N)) (p : nat) : N * N := nth p h (0, 0).
(* misc.go:106-107: big endian *)
Definition number (b : N * N) : N := fst b * 256 + snd b.
Definition time_at (h : list (N * N)) (p : option nat) : tod := match p with None => None | Some p => Some (number (two h p)) end.
Definition t_gstep (h : list (N * N)) (v : option nat) (g : tgo) : list (N * N) * option nat * tgo :=
  let go k := MkTg (ttodo g) k (tres_of g) in
  let ret r := MkTg (ttodo g) TIdle (tres_of g ++ [r])%list in
  match tph g with
  | TIdle =>
      match ttodo g with
      | [] => (h, v, g)
      | TSet t :: cs => ((h ++ [(0, 0)])%list, v, MkTg cs (TByte0 (assertToD 0 t) (List.length h)) (tres_of g))
      | TString :: cs => (h, v, match v with
                                | None => MkTg cs TIdle (tres_of g ++ [RText badToD])%list
                                | Some p => MkTg cs (TRead0 p) (tres_of g)
                                end)
      end
  | TByte0 n p => (wr h p (n / 256, snd (two h p)), v, go (TByte1 n p))
  | TByte1 n p => (wr h p (fst (two h p), n mod 256), v, go (TAssign p))
  | TAssign p => (h, Some p, go TResult)
  | TResult => (h, v, ret (RTime v))
  | TRead0 p => (h, v, go (TRead1 p (fst (two h p))))
  | TRead1 p b => (h, v, ret (RText (fmt04d (number (b, snd (two h p))))))
  end.
Definition t_step (st : tstate) (i : nat) : tstate :=
  match nth_error (tgos st) i with
  | None => st
  | Some g => let '(h, v, g') := t_gstep (theap st) (tvar st) g in MkTs h v (wr (tgos st) i g')
  end.
Definition t_sched (st : tstate) (q : list nat) : tstate := fold_left t_step q st.
Definition t_start (t : tod) (css : list (list tcall)) : tstate :=
  MkTs (match t with None => [] | Some n => [(n / 256, n mod 256)] end) (match t with None => None | Some _ => Some 0%nat end)
       (map (fun cs => MkTg cs TIdle []) css).
(* the time of the variable *)
Definition t_time (st : tstate) : tod := time_at (theap st) (tvar st).
