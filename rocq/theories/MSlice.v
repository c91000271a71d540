(* Set and String of one IPAddr called by several goroutines: the slice of addresses, its
   arrays, and the reads and writes of both.  Definitions only.

   The variable holds an IPAddr made by IP (the pointer is not nil, net.go:125 does
   nothing).  Simplified: the header of the slice (array and length) is read and written as
   a whole, and the copy that append makes when an array is full is one step.  How much
   larger than needed a new array is, is left open ([spare]). *)
From Coq Require Import String List PeanoNat Bool.
From Verif Require Import GoStr MMisc MHeap MNet.
Import ListNotations.
Open Scope string_scope.

(* what a goroutine is to do: one argument of a call of Set, or a call of String *)
Inductive ipop := IAdd (a : string) | IText.
Inductive ipcall := ISet (addr : list string) | IString.
(* net.go:133-141: a call with several arguments goes through them in turn *)
Definition ip_ops (cs : list ipcall) : list ipop :=
  flat_map (fun c => match c with ISet addr => map IAdd addr | IString => [IText] end) cs.

(* Rest: between two arguments or calls.
   Scan a A n seen: in unique (net.go:226-233), which has its own copy (A, n) of the header
   and has read [seen].
   Fits a: a is new and an address, before append reads the header (net.go:137).
   Have a A n: append has read the header (A, n).
   Store a A n: append has put a in its place, before *r is written (net.go:137).
   Look seen: in String (net.go:244), before i < len; Fetch seen: before the element is read,
   for which the header is read again (net.go:245). *)
Inductive ipplace := Rest | Scan (a : string) (A n : nat) (seen : list string) | Fits (a : string)
                   | Have (a : string) (A n : nat) | Store (a : string) (A n : nat)
                   | Look (seen : list string) | Fetch (seen : list string).
(* a goroutine: what is left to do, where it is, what its calls of String returned: the
   addresses shown, or None for a panic, which ends the goroutine *)
Record ipgo := MkIg { todo : list ipop; iat : ipplace; texts : list (option (list string)) }.
(* the arrays made so far, each as long as its capacity; the header; the goroutines *)
Record ipstate := MkIp { arrays : list (list string); hdr : nat * nat; gos : list ipgo }.

Section Slice.
Variable spare : nat -> nat.

Definition array (st : ipstate) (A : nat) : list string := nth A (arrays st) [].
(* the addresses the variable shows *)
Definition shown (st : ipstate) : list string := firstn (snd (hdr st)) (array st (fst (hdr st))).

(* one step of the goroutine g: the arrays and the header afterwards, the goroutine *)
Definition ip_gstep (st : ipstate) (g : ipgo) : list (list string) * (nat * nat) * ipgo :=
  let same p := (arrays st, hdr st, MkIg (todo g) p (texts g)) in
  let (H, n0) := hdr st in
  match iat g with
  | Rest =>
      match todo g with
      | [] => (arrays st, hdr st, g)
      | IAdd a :: t =>
          (* net.go:135: len(addr[i]) > 0; the value receiver of unique copies the header *)
          (arrays st, hdr st, MkIg t (if (0 <? String.length a)%nat then Scan a H n0 [] else Rest) (texts g))
      | IText :: t => (arrays st, hdr st, MkIg t (Look []) (texts g))
      end
  | Scan a A n seen =>
      if (List.length seen <? n)%nat then same (Scan a A n (seen ++ [nth (List.length seen) (array st A) ""])%list)
      else same (if ip_unique seen a then if isValidIP a then Fits a else Rest else Rest)
  | Fits a => same (Have a H n0)
  | Have a A n =>
      if (n <? List.length (array st A))%nat
      then (wr (arrays st) A (wr (array st A) n a), hdr st, MkIg (todo g) (Store a A (S n)) (texts g))
      else ((arrays st ++ [firstn n (array st A) ++ [a] ++ repeat "" (spare n)])%list, hdr st,
            MkIg (todo g) (Store a (List.length (arrays st)) (S n)) (texts g))
  | Store a A n => (arrays st, (A, n), MkIg (todo g) Rest (texts g))
  | Look seen =>
      if (List.length seen <? n0)%nat then same (Fetch seen)
      else (arrays st, hdr st, MkIg (todo g) Rest (texts g ++ [Some seen])%list)
  | Fetch seen =>
      if (List.length seen <? n0)%nat then same (Look (seen ++ [nth (List.length seen) (array st H) ""])%list)
      else (arrays st, hdr st, MkIg [] Rest (texts g ++ [None])%list)
  end.
Definition ip_step (st : ipstate) (i : nat) : ipstate :=
  match nth_error (gos st) i with
  | None => st
  | Some g => let '(a, h, g') := ip_gstep st g in MkIp a h (wr (gos st) i g')
  end.
Definition ip_sched (st : ipstate) (q : list nat) : ipstate := fold_left ip_step q st.
(* the addresses l in an array with room for more; goroutine k is to make the calls nth k css *)
Definition ip_start (l : list string) (room : nat) (css : list (list ipcall)) : ipstate :=
  MkIp [(l ++ repeat "" room)%list] (0, List.length l) (map (fun cs => MkIg (ip_ops cs) Rest []) css).
End Slice.
