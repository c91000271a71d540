(* One SearchFilter variable that was made by Filter and several goroutines that call Set and
   String on it, word by word.  Definitions only.

   A Go string is two words, where its bytes are and how many they are, and neither writing
   nor reading one is atomic; the order is the compiler's choice, and so [wlen] says whether
   Set writes the number first and [rlen] whether String reads it first.

   Simplifications: the pointer of the variable is not nil (the first call of Set is that of
   C155, C156), so that no call here writes it; bytes of a string never change, and so the
   first word is kept as the text it was made for; the bytes behind those of a text in memory
   can be read and are those that [tail] gives. *)
From Coq Require Import String List PeanoNat Bool.
From Verif Require Import GoStr MHeap.
Import ListNotations.

Inductive hcall := HSet (x : string) | HString.
(* where a goroutine is: in no call; in set (filter.go:152-157) when one word is written; in
   String (filter.go:119-125) when the first word, the number is read *)
Inductive hphase := HIdle | HHalf (x : string) | HSawD (d : string) | HSawL (l : nat).
Inductive hres := HDone | HText (s : string).
Record hgo := MkHg { htodo : list hcall; hph : hphase; hres_of : list hres }.
(* the two words of the string (filter.go:25-27), the goroutines *)
Record hstate := MkHs { hdata : string; hlen : nat; hgos : list hgo }.
(* the text that two words stand for *)
Definition view (tail : string -> nat -> string) (d : string) (l : nat) : string :=
  if Nat.leb l (String.length d) then substring 0 l d else (d ++ tail d (l - String.length d))%string.
Record hw := MkHw { wlen : bool; rlen : bool; tail : string -> nat -> string }.
Definition h_gstep (w : hw) (d : string) (l : nat) (g : hgo) : string * nat * hgo :=
  let ret r := MkHg (htodo g) HIdle (hres_of g ++ [r])%list in
  match hph g with
  | HIdle =>
      match htodo g with
      | [] => (d, l, g)
      | HSet x :: cs =>
          if Nat.eqb (String.length x) 0 then (d, l, MkHg cs HIdle (hres_of g ++ [HDone])%list)
          else if wlen w then (d, String.length x, MkHg cs (HHalf x) (hres_of g)) else (x, l, MkHg cs (HHalf x) (hres_of g))
      | HString :: cs => (d, l, MkHg cs (if rlen w then HSawL l else HSawD d) (hres_of g))
      end
  | HHalf x => if wlen w then (x, l, ret HDone) else (d, String.length x, ret HDone)
  | HSawD d' => (d, l, ret (HText (view (tail w) d' l)))
  | HSawL l' => (d, l, ret (HText (view (tail w) d l')))
  end.
Definition h_step (w : hw) (st : hstate) (i : nat) : hstate :=
  match nth_error (hgos st) i with
  | None => st
  | Some g => let '(d, l, g') := h_gstep w (hdata st) (hlen st) g in MkHs d l (wr (hgos st) i g')
  end.
Definition h_sched (w : hw) (st : hstate) (q : list nat) : hstate := fold_left (h_step w) q st.
(* Filter(s) (filter.go:88-94) *)
Definition h_start (s : string) (css : list (list hcall)) : hstate := MkHs s (String.length s) (map (fun cs => MkHg cs HIdle []) css).
(* the text of the variable *)
Definition h_value (w : hw) (st : hstate) : string := view (tail w) (hdata st) (hlen st).
