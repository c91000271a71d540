(* Set and String of one attribute pair (AttributeBindTypeOrValue) and of one attribute filter
   (AttributeFilter) called by several goroutines: each read and each write of a part of the
   value is a step.  Definitions only.

   Simplified: a part (an interface value, a pointer) is read and written as a whole.  The
   variable holds a value made by ABTV, UAT, GAT or AF, and the pointer in it stays: that is
   so while the keyword is not zero (attr.go:139), the filter not empty (filter.go:238); what
   happens otherwise is in MFirst.v. *)
From Coq Require Import String List PeanoNat NArith Bool.
From Verif Require Import GoStr MHeap MMisc MKw MAttr MFilter.
Import ListNotations.
Open Scope string_scope.

(* the calls a goroutine is to make; what it is to do: one argument of Set, or String *)
Inductive pcall (A : Type) := PSet (xs : list A) | PString.
Inductive pop (A : Type) := PArg (x : A) | PText.
Arguments PSet {A}. Arguments PString {A}. Arguments PArg {A}. Arguments PText {A}.
(* attr.go:249, filter.go:279: a call with several arguments goes through them in turn *)
Definition p_ops {A} (cs : list (pcall A)) : list (pop A) :=
  flat_map (fun c => match c with PSet xs => map PArg xs | PString => [PText] end) cs.

(* ---- AttributeBindTypeOrValue ---- *)
(* POff: between two arguments or calls.
   PName a: r[0] was nil, before r[0] = a (attr.go:253, 261).
   PValue v: before r[1] = v (attr.go:257, 264, 266).
   PHalf n: in String, r[0] has been copied, r[1] not yet: atbtv.String has a value receiver
   (attr.go:210, 280) *)
Inductive pplace := POff | PName (a : attype) | PValue (v : second) | PHalf (n : option attype).
(* a goroutine: what is left to do, where it is, what its calls of String returned, None for
   a panic, which ends the goroutine *)
Record pgo := MkPg { ptodo : list (pop abarg); pat : pplace; ptexts : list (option string) }.
Record pstate := MkPs { ppair : pair_t; pgos : list pgo }.

(* attr.go:250-269: where an argument leads, with what r[0] and r[1] hold when it is looked at *)
Definition p_arg (r : pair_t) (x : abarg) : pplace :=
  match x with
  | BAT a => match fst r with None => PName a | Some _ => POff end
  | BAV v => match snd r with SNil => PValue (SAV v) | _ => POff end
  | BBT n => match snd r with SNil => PValue (SBT n) | _ => POff end
  | BStr s => match fst r with
              | None => PName (AT s)
              | Some _ => PValue (if (matchBT s =? 0)%N then SAV (AV s) else SBT (matchBT s))
              end
  | BOther => POff
  end.
Definition p_gstep (r : pair_t) (g : pgo) : pair_t * pgo :=
  match pat g with
  | POff => match ptodo g with
            | [] => (r, g)
            | PArg x :: t => (r, MkPg t (p_arg r x) (ptexts g))
            | PText :: t => (r, MkPg t (PHalf (fst r)) (ptexts g))
            end
  | PName a => ((Some a, snd r), MkPg (ptodo g) POff (ptexts g))
  | PValue v => ((fst r, v), MkPg (ptodo g) POff (ptexts g))
  (* attr.go:277-283, 210-241 on the copy *)
  | PHalf n => (r, match pair_string (n, snd r) with
                   | Some s => MkPg (ptodo g) POff (ptexts g ++ [Some s])%list
                   | None => MkPg [] POff (ptexts g ++ [None])%list
                   end)
  end.
Definition p_step (st : pstate) (i : nat) : pstate :=
  match nth_error (pgos st) i with
  | None => st
  | Some g => let '(r, g') := p_gstep (ppair st) g in MkPs r (wr (pgos st) i g')
  end.
Definition p_sched (st : pstate) (q : list nat) : pstate := fold_left p_step q st.
(* the pair r; goroutine k is to make the calls nth k css *)
Definition p_start (r : pair_t) (css : list (list (pcall abarg))) : pstate :=
  MkPs r (map (fun cs => MkPg (p_ops cs) POff []) css).

(* ---- AttributeFilter ---- *)
(* AOff: between two arguments or calls.  The others are places in String:
   AZero1, AZero2: in IsZero, before the filter, the attribute type is read (filter.go:337, 338);
   AVal1, AVal2: in Valid, before the filter, the attribute type is read (filter.go:322, 324);
   AName, AFilt a: before the attribute type, the filter is read for the text (filter.go:303) *)
Inductive aplace := AOff | AZero1 | AZero2 | AVal1 | AVal2 | AName | AFilt (a : attype).
Record ago := MkAg { atodo : list (pop farg); aat : aplace; atexts : list string }.
Record astate := MkAs { afilt : atf; agos : list ago }.
Definition a_gstep (r : atf) (g : ago) : atf * ago :=
  let go p := (r, MkAg (atodo g) p (atexts g)) in
  let ret t := (r, MkAg (atodo g) AOff (atexts g ++ [t])%list) in
  match aat g with
  | AOff => match atodo g with
            | [] => (r, g)
            (* filter.go:280-291: one write, of one part *)
            | PArg x :: t => (atf_set1 r x, MkAg t AOff (atexts g))
            | PText :: t => (r, MkAg t AZero1 (atexts g))
            end
  (* filter.go:337-338: && *)
  | AZero1 => go (if sf_isZero (snd r) then AZero2 else AVal1)
  | AZero2 => if at_isZero (fst r) then ret "" else go AVal1
  | AVal1 => if sf_isZero (snd r) then ret "" else go AVal2
  | AVal2 => if at_isZero (fst r) then ret "" else go AName
  | AName => go (AFilt (fst r))
  | AFilt a => ret (at_string a ++ ":" ++ sf_string (snd r))
  end.
Definition a_step (st : astate) (i : nat) : astate :=
  match nth_error (agos st) i with
  | None => st
  | Some g => let '(r, g') := a_gstep (afilt st) g in MkAs r (wr (agos st) i g')
  end.
Definition a_sched (st : astate) (q : list nat) : astate := fold_left a_step q st.
Definition a_start (r : atf) (css : list (list (pcall farg))) : astate :=
  MkAs r (map (fun cs => MkAg (p_ops cs) AOff []) css).
