(* Further theorems for C99 and C126, found necessary by editing the model. *)
From Coq Require Import String Ascii List PeanoNat NArith ZArith Bool Lia.
From Verif Require Import GoStr GoStrFacts Shifty MMisc MAttr MKw MLists MRule MTree MConv MAci MErr SErr TErr TErr2 TAci.
Import ListNotations.
Open Scope string_scope.

(* ---- C99: calls on the target rules and the permission bind rules of an instruction
   that was never set change nothing, however many there are, and none crashes ---- *)
Definition through_parts (c : icall) : Prop := match c with ICTRs _ | ICPBRs _ => True | ICSet _ | ICParse _ => False end.
Theorem C99_nil_parts : forall W h, Forall through_parts h -> ins_run W None h = Some None.
Proof.
  intros W h F. induction F as [|c h P F IH]; [reflexivity|]. cbn [ins_run].
  destruct c; cbn [through_parts] in P; try contradiction; exact IH.
Qed.
Print Assumptions C99_nil_parts.

(* ---- C126: two percent signs in a format are one in the message, before and after
   any verb ---- *)
Theorem C126_percent : forall t rest args, no_byte "%" t = true ->
  errorf (t ++ "%%" ++ rest) args = Some (t ++ "%" ++ sprintf rest args) /\
  (forall u ps, no_byte "%" u = true -> Forall (fun p => fst p <> "%"%char /\ no_byte "%" (snd p) = true) ps ->
     errorf (t ++ "%%" ++ u ++ format ps) args = Some (t ++ "%" ++ u ++ filled ps args)).
Proof.
  intros t rest args T.
  assert (A : forall r, errorf (t ++ "%%" ++ r) args = Some (t ++ "%" ++ sprintf r args)).
  { intros r. unfold errorf. destruct (Nat.eqb_spec (String.length (t ++ "%%" ++ r)) 0) as [E|E].
    - destruct t; discriminate E.
    - f_equal. rewrite (sprintf_plain _ _ _ T). reflexivity. }
  split; [apply A|]. intros u ps U F. rewrite A, (sprintf_plain _ _ _ U), (sprintf_format _ F). reflexivity.
Qed.
Print Assumptions C126_percent.
Example C126_percent_witness : errorf "at 100%% of %s" [Str "x"] = Some "at 100% of x" /\ no_byte "%" "at 100" = true.
Proof. split; reflexivity. Qed.
Example C99_nil_parts_witness : Forall through_parts [ICTRs (TRPush []); ICPBRs (PLPush []); ICTRs TRPop; ICPBRs PLPop].
Proof. repeat constructor. Qed.
