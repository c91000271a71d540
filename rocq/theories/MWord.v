(* Shift and Unshift called by several goroutines on one permission, day list or
   inheritance: the calls of the bit library, each a read and a write of the bits.
   Definitions only.

   go-shifty's source is not available: that Shift and Unshift of a BitValue read the value
   once, then write the new one once, is an assumption of this model; what they write is
   described in Shifty.v.  The tests for nil of the methods (rights.go:75, 252, 275-285;
   time.go:172, 208; levels.go:310, 322, 404) read pointers that no method here changes
   when they are not nil. *)
From Coq Require Import String List PeanoNat NArith ZArith Bool.
From Verif Require Import GoStr Shifty MHeap MRights MTime MLevels.
Import ListNotations.

Section Word.
(* what a method does with one argument: no call of the library, or a call that turns the
   bits it reads into those it writes *)
Variable E : Type.
Variable lib : E -> option (N -> N).

(* Idle: between two calls of the library.  Held v e: the call for e has read v. *)
Inductive wplace := Idle | Held (v : N) (e : E).
(* a goroutine: the arguments still to come, where it is *)
Record worker := MkWo { edits : list E; wat : wplace }.
Record wstate := MkWs { word : N; workers : list worker }.

Definition wo_step (v : N) (g : worker) : N * worker :=
  match wat g with
  | Idle => match edits g with
            | [] => (v, g)
            | e :: es => (v, MkWo es (match lib e with Some _ => Held v e | None => Idle end))
            end
  | Held old e => (match lib e with Some f => f old | None => v end, MkWo (edits g) Idle)
  end.
Definition word_step (st : wstate) (i : nat) : wstate :=
  match nth_error (workers st) i with
  | None => st
  | Some g => let '(v, g') := wo_step (word st) g in MkWs v (wr (workers st) i g')
  end.
Definition word_run (st : wstate) (q : list nat) : wstate := fold_left word_step q st.
(* the bits v; goroutine k is to go through the arguments nth k ess *)
Definition word_start (v : N) (ess : list (list E)) : wstate := MkWs v (map (fun es => MkWo es Idle) ess).
End Word.
Arguments Idle {E}. Arguments Held {E}. Arguments MkWo {E}. Arguments edits {E}. Arguments wat {E}.
Arguments MkWs {E}. Arguments word {E}. Arguments workers {E}.

Section Kinds.
Variable sh : shifty.
Definition sh_edit (w : N) (on : bool) (z : Z) (v : N) : N := if on then sh_shift sh w v z else sh_unshift sh w v z.
(* the argument x of Shift (true) or Unshift (false) of a Permission: rights.go:74-108 *)
Definition perm_lib (e : bool * rarg) : option (N -> N) :=
  match snd e with
  | AInt z => Some (sh_edit 16 (fst e) z)
  | ARight n => Some (sh_edit 16 (fst e) (Z.of_N n))
  | AStr s => match rightsNames (lc s) with Some p => Some (sh_edit 16 (fst e) (Z.of_N p)) | None => None end
  | AOther => None
  end.
(* rights.go:251-270: a call with several arguments goes through them in turn *)
Definition perm_edits (cs : list perm_call) : list (bool * rarg) :=
  flat_map (fun c => match c with CShift xs => map (pair true) xs | CUnshift xs => map (pair false) xs end) cs.
(* of a DayOfWeek: time.go:170-191, 206-227 *)
Definition dow_lib (e : bool * darg) : option (N -> N) :=
  match snd e with
  | DInt z => if (matchIntDoW z =? noDay)%N then None else Some (sh_edit 8 (fst e) (Z.of_N (matchIntDoW z)))
  | DStr s => if (matchStrDoW s =? noDay)%N then None else Some (sh_edit 8 (fst e) (Z.of_N (matchStrDoW s)))
  | DDay n => Some (sh_edit 8 (fst e) (Z.of_N n))
  | DOther => None
  end.
Definition dow_edits (cs : list dow_call) : list (bool * darg) :=
  flat_map (fun c => match c with DShift xs => map (pair true) xs | DUnshift xs => map (pair false) xs end) cs.
(* of an Inheritance: levels.go:321-338, 413-426 *)
Definition inh_lib (e : bool * larg) : option (N -> N) := Some (sh_edit 16 (fst e) (Z.of_N (larg_num (snd e)))).
Definition inh_edits (cs : list inh_call) : list (bool * larg) :=
  flat_map (fun c => match c with IShift xs => map (pair true) xs | IUnshift xs => map (pair false) xs end) cs.

(* the permission, day list and inheritance in the variable of the goroutines *)
Definition perm_race (v : N) (css : list (list perm_call)) : wstate (bool * rarg) := word_start _ v (map perm_edits css).
Definition perm_after (d : bool) (v : N) (css : list (list perm_call)) (q : list nat) : permission :=
  PSome d (word (word_run _ perm_lib (perm_race v css) q)).
Definition dow_after (v : N) (css : list (list dow_call)) (q : list nat) : dow :=
  Some (word (word_run _ dow_lib (word_start _ v (map dow_edits css)) q)).
Definition inh_after (a : MAttr.abtv) (v : N) (css : list (list inh_call)) (q : list nat) : inheritance :=
  Some (MkInh (word (word_run _ inh_lib (word_start _ v (map inh_edits css)) q)) a).

(* rights.go:179-205 String while the goroutines run: the bits are read once as a number
   (line 183), then once for each of the 16 bits (line 200); [t0] and [t i] are the
   moments of the reads, as numbers of steps made before *)
Definition bits_at (v : N) (css : list (list perm_call)) (q : list nat) (t : nat) : N :=
  word (word_run _ perm_lib (perm_race v css) (firstn t q)).
Definition perm_names_seen (v0 : N) (vs : N -> N) : list string :=
  if (v0 =? AllAccess)%N then [right_string AllAccess]
  else if (v0 =? 1023)%N then [right_string AllAccess; right_string ProxyAccess]
  else if (v0 =? NoAccess)%N then [right_string NoAccess]
  else map (fun i => right_string (2 ^ i)) (filter (fun i => positive_int sh (vs i) (Z.of_N (2 ^ i))) bits16).
Definition perm_string_seen (d : bool) (v : N) (css : list (list perm_call)) (q : list nat) (t0 : nat) (t : N -> nat) : string :=
  perm_sprintf (PSome d 0) (perm_names_seen (bits_at v css q t0) (fun i => bits_at v css q (t i))).
End Kinds.
