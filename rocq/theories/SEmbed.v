(* Specification for C127: programs that use the attribute part of inheritances. *)
From Coq Require Import String Ascii List PeanoNat NArith ZArith Bool.
From Verif Require Import GoStr Shifty MKw MAttr MLevels MEmbed.
Import ListNotations.
Open Scope string_scope.

(* the Shift and Unshift calls on variable i, in order *)
Definition shift_of (i : nat) (c : emcmd) : list inh_call :=
  match c with
  | EShift _ j on xs => if (j =? i)%nat then [if on then IShift xs else IUnshift xs] else []
  | _ => []
  end.
Definition shifts (i : nat) (p : list emcmd) : list inh_call := flat_map (shift_of i) p.
(* the program without its Shift and Unshift calls: of z := i.Shift(..) the copy is left *)
Definition quiet (c : emcmd) : list emcmd :=
  match c with
  | EShift (Some z) i _ _ => [ECopy z i]
  | EShift None _ _ _ => []
  | c => [c]
  end.
Definition no_shifts (p : list emcmd) : list emcmd := flat_map quiet p.
(* the statement neither gives variable i another inheritance nor a second name to
   the one it has (i = i.Shift(..) is fine) *)
Definition apart (i : nat) (c : emcmd) : Prop :=
  match c with
  | EInherit j _ _ => j <> i
  | EZero j => j <> i
  | ECopy j k => j <> i /\ k <> i
  | EShift (Some z) j _ _ => z = i <-> j = i
  | _ => True
  end.
(* P holds before every statement and at the end, and nothing panics *)
Fixpoint always (sh : shifty) (P : emst -> Prop) (s : emst) (p : list emcmd) : Prop :=
  P s /\ match p with
         | [] => True
         | c :: t => match emstep sh s c with Some s' => always sh P s' t | None => False end
         end.
(* every Shift in the run is on an inheritance with an attribute part *)
Fixpoint live (sh : shifty) (s : emst) (p : list emcmd) : Prop :=
  match p with
  | [] => True
  | c :: t =>
      match c with EShift _ i true _ => inh_isZero (em_inh s i) = false | _ => True end /\
      match emstep sh s c with Some s' => live sh s' t | None => False end
  end.
(* the places a statement selects *)
Definition places (c : emcmd) : list place :=
  match c with
  | EInherit _ pl _ | ESet pl _ | EParse pl _ _ | EKey pl _ => [pl]
  | EPut pl pl' => [pl; pl']
  | _ => []
  end.
(* two places are one: the same variable, or two names of one inheritance *)
Definition same (s : emst) (pl pl' : place) : Prop :=
  match pl, pl' with
  | PA x, PA y => x = y
  | PI i, PI j => em_ivar s i = em_ivar s j
  | _, _ => False
  end.
(* two places hold one pair *)
Definition shares (s : emst) (pl pl' : place) : Prop :=
  exists k k' l, place_get s pl = Some (k, Some l) /\ place_get s pl' = Some (k', Some l).
