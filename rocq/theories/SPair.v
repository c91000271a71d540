(* Specification for C157-C160: one attribute pair, or one attribute filter, and several
   goroutines that call Set and String on it. *)
From Coq Require Import String List PeanoNat NArith Bool.
From Verif Require Import GoStr MKw MAttr MFilter MPair.
Import ListNotations.

(* the arguments of all calls of Set of a goroutine *)
Definition p_args {A} (cs : list (pcall A)) : list A := flat_map (fun c => match c with PSet xs => xs | PString => [] end) cs.
(* some goroutine gives the argument x *)
Definition p_gives {A} (css : list (list (pcall A))) (x : A) : Prop := exists cs, In cs css /\ In x (p_args cs).
(* the attribute type, the value that an argument stands for *)
Definition name_of (x : abarg) (a : attype) : Prop := x = BAT a \/ exists s, x = BStr s /\ a = AT s.
Definition value_of (x : abarg) (v : second) : Prop :=
  (exists w, x = BAV w /\ v = SAV w) \/ (exists n, x = BBT n /\ v = SBT n) \/
  (exists s, x = BStr s /\ ((matchBT s <> 0%N /\ v = SBT (matchBT s)) \/ (matchBT s = 0%N /\ v = SAV (AV s)))).
(* an argument, a value that String prints without a panic *)
Definition solid (v : second) : Prop := v <> SAV None.
Definition solid_arg (x : abarg) : Prop := x <> BAV None /\ x <> BStr "".
(* no goroutine is in a call; all calls have returned *)
Definition p_quiet (st : pstate) : Prop := forall g, In g (pgos st) -> pat g = POff.
Definition p_returned (st : pstate) : Prop := forall g, In g (pgos st) -> ptodo g = [] /\ pat g = POff.
Definition a_returned (st : astate) : Prop := forall g, In g (agos st) -> atodo g = [] /\ aat g = AOff.
(* no two goroutines are between the test and the write of an argument at the same time *)
Definition p_writing (p : pplace) : Prop := match p with PName _ | PValue _ => True | _ => False end.
Definition p_turns (st : pstate) (q : list nat) : Prop :=
  forall a b, q = (a ++ b)%list -> forall i j gi gj,
    nth_error (pgos (p_sched st a)) i = Some gi -> p_writing (pat gi) ->
    nth_error (pgos (p_sched st a)) j = Some gj -> p_writing (pat gj) -> i = j.
(* both parts of an attribute filter are there *)
Definition whole (r : atf) : Prop := at_isZero (fst r) = false /\ sf_isZero (snd r) = false.
