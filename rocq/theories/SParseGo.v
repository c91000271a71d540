(* Specification for C177 and C178: goroutines that call Parse on one variable and read it. *)
From Coq Require Import String List PeanoNat NArith Bool.
From Verif Require Import GoStr MKw MAttr MView MParseGo.
Import ListNotations.
Open Scope list_scope.

(* the text s is accepted and says v; it is refused; whatever the variable holds *)
Definition gives {R I} (P : R -> I -> option (R * bool)) (s : I) (v : R) : Prop := forall x, P x s = Some (v, true).
Definition refuses {R I} (P : R -> I -> option (R * bool)) (s : I) : Prop := forall x, P x s = Some (x, false).
(* Parse of an AttributeBindTypeOrValue *)
Definition abtv_P (r : abtv) (s : barg) : option (abtv * bool) := Some (ABTV_Parse r (fst s) (snd s)).

(* what the variable held at the start, or what a text that some goroutine parses says *)
Definition given {R I} (P : R -> I -> option (R * bool)) (css : list (list (gcall I))) (v : R) : Prop :=
  exists cs s, In cs css /\ In (GParse s) cs /\ gives P s v.
Definition possible {R I} (P : R -> I -> option (R * bool)) (r : R) css (v : R) : Prop := v = r \/ given P css v.
(* what one call returned is right: Parse an error for a text that is refused and none for
   one that says something; a method that reads saw a possible value *)
Definition right_answer {R I} (P : R -> I -> option (R * bool)) (ok : R -> Prop) (a : gcall I * gres R) : Prop :=
  match a with
  | (GParse s, RDone true) => exists v, gives P s v
  | (GParse s, RDone false) => refuses P s
  | (GRead, RSeen v) => ok v
  | _ => False
  end.
(* the last text that one of the goroutines has parsed and that was accepted says v, or no
   text was accepted and the variable holds what it held *)
Definition last_word {R I} (P : R -> I -> option (R * bool)) (r : R) (css : list (list (gcall I))) (v : R) : Prop :=
  (v = r /\ forall cs s, In cs css -> In (GParse s) cs -> refuses P s) \/
  (exists cs h1 s h2, In cs css /\ cs = h1 ++ GParse s :: h2 /\ gives P s v /\
     forall t, In (GParse t) h2 -> refuses P t).
(* all calls have returned, without a panic *)
Definition g_returned {R I} (st : gstate I R) : Prop := forall g, In g (ggos st) -> gtodo g = [] /\ gat g = GOff.
Definition b_returned (st : bstate) : Prop := forall g, In g (bgos st) -> btodo g = [] /\ bat g = BOff.

Definition parse_together {R I} (P : R -> I -> option (R * bool)) : Prop := forall r css q,
  let st := g_sched P (g_start r css) q in
  possible P r css (gvar st) /\
  (forall g a, In g (ggos st) -> In a (gret g) -> right_answer P (possible P r css) a) /\
  (g_returned st -> map (fun g => map fst (gret g)) (ggos st) = css /\ last_word P r css (gvar st)).

(* the goroutine i has enough turns for all its calls, whatever the others do *)
Definition enough (q : list nat) (i : nat) (n : nat) : Prop := (n <= count_occ Nat.eq_dec q i)%nat.
