(* Set and String of one FQDN called by several goroutines: the slice of labels, its arrays,
   and the reads and writes of both.  Definitions only.

   The variable holds an FQDN made by DNS (the pointer is not nil, net.go:324-326 does
   nothing).  Simplified as in MSlice.v: the header of the slice (array and length) is read
   and written as a whole, the copy that append makes when an array is full is one step, and
   how much larger than needed a new array is, is left open ([spare]). *)
From Coq Require Import String List PeanoNat Bool.
From Verif Require Import GoStr MMisc MHeap MNet.
Import ListNotations.
Open Scope string_scope.

(* the calls a goroutine is to make *)
Inductive dcall := DSet (label : list string) | DString.
(* DRest: between two calls.
   Put dl: in the loop of set (net.go:352), the labels dl are left.
   DHave x dl A n: append has read the header (A, n), to add x (net.go:353).
   DStore x dl A n: append has put x in its place, before *r is written (net.go:353).
   Outer i c, Inner i j c: in len (net.go:478, 479), before i < len, j < len is tested.
   Judge c: in Valid, len gave c, before the second test of net.go:460.
   DLook seen: in String (net.go:398), before i < len; DFetch seen: before the element is
   read, for which the header is read again (net.go:399). *)
Inductive dplace := DRest | Put (dl : list string)
                  | DHave (x : string) (dl : list string) (A n : nat) | DStore (x : string) (dl : list string) (A n : nat)
                  | Outer (i c : nat) | Inner (i j c : nat) | Judge (c : nat)
                  | DLook (seen : list string) | DFetch (seen : list string).
(* a goroutine: the calls left, where it is, what its calls of String returned, None for a
   panic, which ends the goroutine *)
Record dgo := MkDg { dtodo : list dcall; dat : dplace; dtexts : list (option string) }.
(* the arrays made so far, each as long as its capacity; the header; the goroutines *)
Record dstate := MkDs { darrays : list (list string); dhdr : nat * nat; dgos : list dgo }.

Section Label.
Variable spare : nat -> nat.

Definition darray (st : dstate) (A : nat) : list string := nth A (darrays st) [].
(* the labels the variable shows *)
Definition dshown (st : dstate) : list string := firstn (snd (dhdr st)) (darray st (fst (dhdr st))).

(* one step of the goroutine g: the arrays and the header afterwards, the goroutine *)
Definition d_gstep (st : dstate) (g : dgo) : list (list string) * (nat * nat) * dgo :=
  let same p := (darrays st, dhdr st, MkDg (dtodo g) p (dtexts g)) in
  let ret t := (darrays st, dhdr st, MkDg (dtodo g) DRest (dtexts g ++ [Some t])%list) in
  let (H, n0) := dhdr st in
  match dat g with
  | DRest =>
      match dtodo g with
      | [] => (darrays st, dhdr st, g)
      | DSet label :: t =>
          (* net.go:333-351: processLabel looks at the arguments only; then the test of the length *)
          (darrays st, dhdr st,
           MkDg t (match label with
                   | [] => DRest
                   | _ => match processLabel label with
                          | None => DRest
                          | Some (dl, c) => if (n0 + c <=? fqdnMax)%nat then Put dl else DRest
                          end
                   end) (dtexts g))
      | DString :: t => (darrays st, dhdr st, MkDg t (Outer 0 0) (dtexts g))
      end
  | Put [] => same DRest
  | Put (x :: dl) => same (DHave x dl H n0)
  | DHave x dl A n =>
      if (n <? List.length (darray st A))%nat
      then (wr (darrays st) A (wr (darray st A) n x), dhdr st, MkDg (dtodo g) (DStore x dl A (S n)) (dtexts g))
      else ((darrays st ++ [firstn n (darray st A) ++ [x] ++ repeat "" (spare n)])%list, dhdr st,
            MkDg (dtodo g) (DStore x dl (List.length (darrays st)) (S n)) (dtexts g))
  | DStore x dl A n => (darrays st, (A, n), MkDg (dtodo g) (Put dl) (dtexts g))
  (* net.go:478-482 *)
  | Outer i c => same (if (i <? n0)%nat then Inner i 0 c else Judge c)
  | Inner i j c => same (if (j <? n0)%nat then Inner i (S j) (S c) else Outer (S i) c)
  (* net.go:460, 392-394 *)
  | Judge c =>
      if (negb ((0 <? c)%nat && (c <=? fqdnMax)%nat) || (n0 <? 2)%nat)%bool then ret badFQDN else same (DLook [])
  (* net.go:398-402 *)
  | DLook seen => if (List.length seen <? n0)%nat then same (DFetch seen) else ret (join "." seen)
  | DFetch seen =>
      if (List.length seen <? n0)%nat then same (DLook (seen ++ [nth (List.length seen) (darray st H) ""])%list)
      else (darrays st, dhdr st, MkDg [] DRest (dtexts g ++ [None])%list)
  end.
Definition d_step (st : dstate) (i : nat) : dstate :=
  match nth_error (dgos st) i with
  | None => st
  | Some g => let '(a, h, g') := d_gstep st g in MkDs a h (wr (dgos st) i g')
  end.
Definition d_sched (st : dstate) (q : list nat) : dstate := fold_left d_step q st.
(* the labels l in an array with room for more; goroutine k is to make the calls nth k css *)
Definition d_start (l : list string) (room : nat) (css : list (list dcall)) : dstate :=
  MkDs [(l ++ repeat "" room)%list] (0, List.length l) (map (fun cs => MkDg cs DRest []) css).
End Label.
