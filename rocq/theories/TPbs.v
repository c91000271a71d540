(* C67: what the constructor of lists of permission-bind rules does, for every
   argument list. *)
From Coq Require Import String List PeanoNat Bool Lia.
From Verif Require Import GoStr GoStrFacts MMisc MKw MRights MLists MRule MTree MAci MView MPbs TTree TAci TView.
Import ListNotations.
Open Scope string_scope.

(* ---- specification ---- *)
(* the arguments that are rules *)
Definition only_rules (xs : list plarg) : list plarg :=
  filter (fun x => match x with PLRule _ => true | _ => false end) xs.

Lemma push1_len W l x : pbrs_push1 W l x = l \/
  exists r, x = PLRule r /\ pbrs_push1 W l x = (l ++ [r])%list.
Proof.
  destruct x as [s|r|]; [now left| |now left]. cbn [pbrs_push1]. unfold push1. destruct (pbrs_policy W l r); [right|now left].
  exists r. now split.
Qed.
Lemma from_push W : forall xs l l', w_stop W = false -> PBRs_from W l xs = Some l' -> pbrs_push W l (only_rules xs) = Some l'.
Proof.
  intros xs l l' S. revert l. induction xs as [|x xs IH]; intros l; cbn [PBRs_from only_rules filter]; [trivial|].
  destruct (pbrs_Contains W l x); [|discriminate]. rewrite S. cbn [andb]. intros E. specialize (IH _ E).
  destruct x as [s|r|]; [exact IH| |exact IH]. exact IH.
Qed.

(* Where the stack goes on after a refused value, the constructor pushes the rules
   among its arguments and passes over everything else. *)
Theorem C67_ctor_exact : forall W xs l, w_stop W = false -> PBRs_call W xs = Some l ->
  pbrs_push W [] (only_rules xs) = Some l.
Proof. intros W xs l S. apply from_push. exact S. Qed.

(* Where the stack stops at a refused value, the list holds the rules in front of
   the first argument that is no rule, or is one that Push would refuse there. *)
Lemma from_stop W : forall xs l l', w_stop W = true -> PBRs_from W l xs = Some l' ->
  exists rs ys, xs = (map PLRule rs ++ ys)%list /\ l' = (l ++ rs)%list /\
    pbrs_push W l (map PLRule rs) = Some l' /\
    match ys with [] => True | y :: _ => pbrs_push1 W l' y = l' end.
Proof.
  induction xs as [|x xs IH]; intros l l' S.
  - intros [= <-]. exists [], []. rewrite (app_nil_r l). repeat split.
  - cbn [PBRs_from]. destruct (pbrs_Contains W l x); [|discriminate]. rewrite S. cbn [andb].
    destruct (push1_len W l x) as [E|(r & -> & E)].
    + rewrite E, Nat.eqb_refl. intros [= <-]. exists [], (x :: xs). rewrite (app_nil_r l). repeat split. exact E.
    + rewrite E. replace (List.length (l ++ [r]) =? List.length l)%nat with false
        by (rewrite app_length; cbn [List.length]; symmetry; apply Nat.eqb_neq; lia).
      intros H. destruct (IH _ _ S H) as (rs & ys & -> & -> & P & Y).
      exists (r :: rs), ys. rewrite <- app_assoc in *. split; [reflexivity|]. split; [reflexivity|]. split; [|exact Y].
      cbn [map pbrs_push]. now rewrite E.
Qed.
Theorem C67_ctor_stop_exact : forall W xs l, w_stop W = true -> PBRs_call W xs = Some l ->
  exists ys, xs = (map PLRule l ++ ys)%list /\ pbrs_push W [] (map PLRule l) = Some l /\
    match ys with
    | [] => True
    | PLRule r :: _ => pbrs_push W l [PLRule r] = Some l
    | _ => True
    end.
Proof.
  intros W xs l S H. destruct (from_stop W xs [] l S H) as (rs & ys & -> & -> & P & Y). exists ys.
  split; [reflexivity|]. split; [exact P|]. destruct ys as [|[s|r|] ys]; [exact I|exact I| |exact I].
  cbn [pbrs_push]. now rewrite Y.
Qed.

(* The constructor panics exactly at a text that makes the reader panic, once the
   list has a member. *)
Lemma contains_panics W l x : pbrs_Contains W l x = None <-> l <> [] /\ exists s, x = PLStr s /\ parsePBR W s = Panics.
Proof. destruct (C81_permission_bind_rules W l) as (_ & _ & _ & _ & P). apply P. Qed.
Lemma from_panics W : forall xs l, PBRs_from W l xs = None ->
  exists a s b rs, xs = (a ++ PLStr s :: b)%list /\ parsePBR W s = Panics /\ PBRs_from W l a = Some (l ++ rs)%list /\
    (l ++ rs)%list <> [] /\ (w_stop W = true -> a = map PLRule rs).
Proof.
  induction xs as [|x xs IH]; intros l; [discriminate|]. cbn [PBRs_from].
  destruct (pbrs_Contains W l x) as [c|] eqn:C.
  - destruct (push1_len W l x) as [E|(r & -> & E)]; rewrite E.
    + rewrite Nat.eqb_refl, andb_true_r. destruct (w_stop W) eqn:S; [discriminate|]. intros H.
      destruct (IH _ H) as (a & s & b & rs & -> & P & A & N & _). exists (x :: a), s, b, rs.
      split; [reflexivity|]. split; [exact P|]. split; [|split; [exact N|discriminate]].
      cbn [PBRs_from]. now rewrite C, E, S.
    + replace (List.length (l ++ [r]) =? List.length l)%nat with false
        by (rewrite app_length; cbn [List.length]; symmetry; apply Nat.eqb_neq; lia).
      rewrite andb_false_r. intros H. destruct (IH _ H) as (a & s & b & rs & -> & P & A & N & Z).
      exists (PLRule r :: a), s, b, (r :: rs). rewrite <- app_assoc in A, N. split; [reflexivity|]. split; [exact P|].
      split; [|split; [exact N|intros S; now rewrite (Z S)]]. cbn [PBRs_from]. rewrite C, E.
      replace (List.length (l ++ [r]) =? List.length l)%nat with false
        by (rewrite app_length; cbn [List.length]; symmetry; apply Nat.eqb_neq; lia).
      rewrite andb_false_r. exact A.
  - intros _. apply contains_panics in C as (N & s & -> & P). exists [], s, xs, []. rewrite app_nil_r. repeat split; assumption.
Qed.
Lemma from_panics_back W s b : parsePBR W s = Panics -> forall a l l', PBRs_from W l a = Some l' -> l' <> [] ->
  (w_stop W = true -> exists rs, a = map PLRule rs /\ l' = (l ++ rs)%list) -> PBRs_from W l (a ++ PLStr s :: b) = None.
Proof.
  intros P. induction a as [|x a IH]; intros l l' A N Z.
  - cbn [PBRs_from] in A. injection A as <-. cbn [app PBRs_from].
    replace (pbrs_Contains W l (PLStr s)) with (@None bool); [reflexivity|]. symmetry. apply contains_panics. split; [exact N|]. now exists s.
  - cbn [PBRs_from app] in *. destruct (pbrs_Contains W l x) as [c|]; [|reflexivity].
    destruct (w_stop W) eqn:S; cbn [andb] in *; [|apply (IH _ _ A N); discriminate].
    destruct (Z eq_refl) as (rs & M & ->). destruct rs as [|r rs]; [discriminate M|]. injection M as -> ->.
    destruct (push1_len W l (PLRule r)) as [E|(r' & [= <-] & E)]; rewrite E in *.
    + rewrite Nat.eqb_refl in A. exfalso. injection A as A. apply (f_equal (@List.length pbr)) in A.
      rewrite app_length in A. cbn [List.length] in A. lia.
    + replace (List.length (l ++ [r]) =? List.length l)%nat with false in *
        by (rewrite app_length; cbn [List.length]; symmetry; apply Nat.eqb_neq; lia).
      apply (IH _ _ A N). intros _. exists rs. split; [reflexivity|]. now rewrite <- app_assoc.
Qed.
Theorem C67_ctor_panics_exact : forall W xs, PBRs_call W xs = None <->
  exists a s b l, xs = (a ++ PLStr s :: b)%list /\ parsePBR W s = Panics /\ PBRs_call W a = Some l /\ l <> [] /\
    (w_stop W = true -> a = map PLRule l).
Proof.
  intros W xs. split.
  - intros H. destruct (from_panics W xs [] H) as (a & s & b & rs & E & P & A & N & Z). exists a, s, b, rs. repeat split; assumption.
  - intros (a & s & b & l & -> & P & A & N & Z). apply (from_panics_back W s b P a [] l A N). intros S. exists l. split; [now apply Z|reflexivity].
Qed.
(* Without such a text the constructor is the function of MAci.v that the other
   theorems on C67 speak of. *)
Theorem C67_ctor_no_panic : forall W xs, (forall s, In (PLStr s) xs -> parsePBR W s <> Panics) -> PBRs_call W xs = Some (PBRs W xs).
Proof.
  intros W xs. unfold PBRs_call, PBRs. generalize (@nil pbr). induction xs as [|x xs IH]; intros l H; [reflexivity|].
  cbn [PBRs_from push_many]. destruct (pbrs_Contains W l x) as [c|] eqn:C.
  - destruct (w_stop W && _)%bool; [reflexivity|]. apply IH. intros s I. apply H. now right.
  - exfalso. apply contains_panics in C as (_ & s & -> & P). apply (H s); [now left|exact P].
Qed.
Print Assumptions C67_ctor_exact.
Print Assumptions C67_ctor_stop_exact.
Print Assumptions C67_ctor_panics_exact.
Print Assumptions C67_ctor_no_panic.

(* ---- examples ---- *)
Definition gPanic := MkAPBR {| ap_allow := Some true; ap_rights := ["read"] |} (PStk "and" false [PCond (raw "userattr" Eq "parent[1]")]).
Definition W67 (stop : bool) : world := MkWorld (w_env W0) false "" "" true stop (w_br W0) (w_tr W0) (w_trs W0)
  (fun s => if String.eqb s "panic" then Some gPanic else w_pbr W0 s) (w_pbrs W0) (w_ins W0).
Example C67_ctor_witness :
  PBRs_call (W67 false) [PLStr "panic"; PLOther; PLRule theA; PLRule theA; PLStr "B"; PLRule theB] = Some [theA; theB] /\
  PBRs_call (W67 true) [PLRule theA; PLRule theB; PLRule theA; PLStr "panic"] = Some [theA; theB] /\
  PBRs_call (W67 false) [PLOther; PLRule theA; PLStr "panic"; PLRule theB] = None /\
  PBRs_call (W67 true) [PLRule theA; PLStr "panic"] = None /\ parsePBR (W67 true) "panic" = Panics.
Proof. repeat split; vm_compute; reflexivity. Qed.
