(* C13, C41, C42, C47, C58, C59, C60: stacks of bind rules. *)
From Coq Require Import String Ascii List PeanoNat NArith ZArith Bool Lia Permutation.
From Verif Require Import GoStr GoStrFacts Shifty MMisc MTime STime PTime TTime MLists MKw SKw PKw MSec SSec TSec MNet SNet PNet TNet
  MRule PRule MConv MTree STree PTree PRead.
Import ListNotations.
Open Scope string_scope.

(* ---- C13 ---- *)
Section C13.
Variables stop topnot : bool.
Variable notsep : string.
(* the text *)
Theorem C13_text : forall pad h m h' m', clock h m -> clock h' m' ->
  let a := ToD [TStr (clock_text h m)] in
  let b := ToD [TStr (clock_text h' m')] in
  brs_string topnot notsep (Timeframe stop true pad a b) =
    "timeofday >= " ++ quote (clock_text h m) ++ " AND timeofday < " ++ quote (clock_text h' m') /\
  brs_string topnot notsep (Timeframe stop false pad a b) =
    "timeofday>=" ++ quote (clock_text h m) ++ " AND timeofday<" ++ quote (clock_text h' m').
Proof.
  intros pad h m h' m' H H' a b. assert (A := proj1 (C11_round_trip h m H)). assert (B := proj1 (C11_round_trip h' m' H')). fold a in A. fold b in B.
  unfold Timeframe, tod_rule. assert (Va : tod_valid a = true) by reflexivity. assert (Vb : tod_valid b = true) by reflexivity.
  rewrite Va, Vb, A, B. clear. generalize (clock_text h m) as x, (clock_text h' m') as y. intros x y.
  split; destruct topnot, stop; reflexivity.
Qed.
Lemma minutes_clock h m : clock h m -> minutes (clock_text h m) = Some (h * 60 + m)%N.
Proof.
  assert (X : forall h m, (h < 25)%N -> (m < 60)%N -> (match minutes (clock_text h m) with Some x => x =? h * 60 + m | None => false end)%N = true).
  { exact (upto2_forall (fun h m => match minutes (clock_text h m) with Some x => x =? h * 60 + m | None => false end)%N 25 60 ltac:(vm_compute; reflexivity)). }
  intros H. specialize (X h m). destruct (minutes (clock_text h m)) as [x|].
  - f_equal. apply N.eqb_eq, X; destruct H as [[? ?]|[-> ->]]; lia.
  - discriminate X; destruct H as [[? ?]|[-> ->]]; lia.
Qed.
(* at any moment the two conditions hold together exactly from a until before b *)
Theorem C13_interval : forall negated rp pad h m h' m' now, clock h m -> clock h' m' ->
  meaning negated (true_at now) (Timeframe stop rp pad (ToD [TStr (clock_text h m)]) (ToD [TStr (clock_text h' m')])) = true <->
  (h * 60 + m <= now < h' * 60 + m')%N.
Proof.
  intros negated rp pad h m h' m' now H H'. assert (A := proj1 (C11_round_trip h m H)). assert (B := proj1 (C11_round_trip h' m' H')).
  unfold Timeframe, tod_rule. change (tod_valid (ToD [TStr (clock_text h m)])) with true. change (tod_valid (ToD [TStr (clock_text h' m')])) with true.
  cbv iota. rewrite A, B. clear A B.
  assert (E : forall x y, brs_new stop pad WAnd [PRule (BR rp "timeofday" (OCop Ge) (Some (XText x))); PRule (BR rp "timeofday" (OCop Lt) (Some (XText y)))] =
    Stk WAnd false false pad [Leaf (MkCond "timeofday" (Some 6%N) (Some (XText x)) true false rp); Leaf (MkCond "timeofday" (Some 3%N) (Some (XText y)) true false rp)]) by (now destruct stop).
  rewrite E. cbn [meaning map combine forallb]. unfold true_at. cbn [c_ex c_kw]. rewrite (minutes_clock h m H), (minutes_clock h' m' H').
  change ((compares RGe now (h * 60 + m) && (compares RLt now (h' * 60 + m') && true))%bool = true <-> (h * 60 + m <= now < h' * 60 + m')%N).
  cbn [compares]. now rewrite andb_true_r, andb_true_iff, N.leb_le, N.ltb_lt.
Qed.
(* a time that was never set makes no condition *)
Theorem C13_unset : forall rp pad h m, clock h m ->
  let good := ToD [TStr (clock_text h m)] in
  let late := Leaf (MkCond "timeofday" (Some Lt) (Some (XText (clock_text h m))) true false rp) in
  let early := Leaf (MkCond "timeofday" (Some Ge) (Some (XText (clock_text h m))) true false rp) in
  Timeframe stop rp pad good None = Stk WAnd false false pad [early] /\
  Timeframe stop rp pad None good = Stk WAnd false false pad (if stop then [] else [late]) /\
  Timeframe stop rp pad None None = Stk WAnd false false pad [] /\
  tod_rule rp None Ge = None /\ tod_rule rp None Lt = None.
Proof.
  intros rp pad h m H good late early. assert (A := proj1 (C11_round_trip h m H)). fold good in A.
  unfold Timeframe, tod_rule. assert (V : tod_valid good = true) by reflexivity. rewrite V, A. unfold late, early. clear.
  generalize (clock_text h m) as x. intros x. destruct stop; repeat split.
Qed.
End C13.
Print Assumptions C13_text.
Print Assumptions C13_interval.
Print Assumptions C13_unset.
Example C13_witness :
  brs_string false "" (Timeframe false true true (ToD [TStr "0900"]) (ToD [TStr "1700"])) =
    "timeofday >= " ++ quote "0900" ++ " AND timeofday < " ++ quote "1700" /\ clock 9 0 /\ clock 17 0.
Proof. split; [reflexivity|]. split; left; lia. Qed.

(* ---- C41 ---- *)
(* [v] gives a truth value to every converted rule and [v0] the same to the rule it
   was converted from; [negated] is any reading of NOT over several members. *)
Definition same_truth (en : env) (v : cond -> bool) (v0 : rule -> bool) : Prop :=
  forall r c, br_assert en r = ROk (Some c) -> v0 r = v c.
(* Missing from C41: trees with a rule that does not convert or a stack that is no AND,
   OR or NOT.  For those it is false
   (C41_refuted, C42_refuted). *)
Theorem C41_meaning_partial : forall en pad notsep zero negated v v0 m t, same_truth en v v0 ->
  all_convert en m = true -> convert en pad notsep zero m = COk t ->
  meaning negated v t = pmeaning negated v0 m.
Proof.
  intros en pad notsep zero negated v v0 m t S A C. destruct (all_good en pad notsep zero negated v v0 S m t C) as (_ & _ & M).
  now rewrite (cut_id zero en m A) in M.
Qed.
(* such assignments: any truth value for each converted rule *)
Theorem C41_assignments : forall en v, same_truth en v (fun r => match br_assert en r with ROk (Some c) => v c | _ => false end).
Proof. intros en v r c H. now rewrite H. Qed.
(* and the conversion does succeed when every rule converts, every kind is known and
   no stack is empty *)
Theorem C41_succeeds : forall en pad notsep zero k p ks,
  all_convert en (PStk k p ks) = true -> sound (PStk k p ks) = true ->
  exists t, convert en pad notsep zero (PStk k p ks) = COk t.
Proof.
  intros en pad notsep zero k p ks A S. destruct (all_outcome en pad notsep zero (PStk k p ks) (convert_no_panic _ _ A)) as [X _].
  rewrite (cut_id zero en _ A) in X. now apply X.
Qed.
Definition en_ref := MkEnv eqfold (fun _ => None) shifty_ref authNames false.
Definition raw (kw : string) (op : N) (v : string) : rule := Some (MkCond kw (Some op) (Some (XRaw 1 [v])) false false true).
Definition rA := raw "userdn" Eq "ldap:///anyone".
Definition rB := raw "ssf" Ge "128".
Definition rC := raw "dns" Ne "www.example.com".
Definition rBad := raw "ssf" Ge "9999".
Example C41_witness : forall zero,
  let m := PStk "and" false [PCond rA; PStk "AND NOT" true [PStk "or" false [PStk "Or" false [PCond rB; PCond rC]]]] in
  all_convert en_ref m = true /\ sound m = true /\
  exists t, convert en_ref true "" zero m = COk t /\
    brs_string false "" t = "userdn = " ++ quote "ldap:///anyone" ++ " AND NOT ( ssf >= " ++ quote "128" ++ " OR dns != " ++ quote "www.example.com" ++ " )".
Proof. intros zero m. split; [reflexivity|]. split; [reflexivity|]. eexists. split; vm_compute; reflexivity. Qed.
Theorem C41_refuted : forall pad notsep zero negated,
  ~ (forall en v v0 m t, same_truth en v v0 -> convert en pad notsep zero m = COk t -> meaning negated v t = pmeaning negated v0 m).
Proof.
  intros pad notsep zero negated H. assert (E : exists t, convert en_ref pad notsep zero (PStk "and" false [PCond rA; PCond rBad]) = COk t /\ meaning negated (fun _ => true) t = true) by (eexists; split; reflexivity).
  destruct E as (t & E & M). specialize (H en_ref (fun _ => true) (fun r => match br_assert en_ref r with ROk (Some c) => true | _ => false end) _ t (C41_assignments _ _) E).
  rewrite M in H. vm_compute in H. discriminate H.
Qed.
Print Assumptions C41_meaning_partial.
Print Assumptions C41_refuted.
Print Assumptions C41_assignments.
Print Assumptions C41_succeeds.

(* ---- C42 ---- *)
(* False: the rule that fails and everything after it in its stack are left out and
   the conversion still succeeds. *)
Theorem C42_refuted : forall pad notsep zero,
  ~ (forall en m t, all_convert en m = false -> convert en pad notsep zero m <> COk t) /\
  (forall en, convert en pad notsep zero (PStk "and" false [PCond rA; PCond rBad; PCond rB]) =
              convert en pad notsep zero (PStk "and" false [PCond rA])) /\
  convert en_ref pad notsep zero (PStk "and" false [PCond rA; PCond rBad; PCond rB]) <> CFail.
Proof.
  intros pad notsep zero. assert (E : exists t, convert en_ref pad notsep zero (PStk "and" false [PCond rA; PCond rBad; PCond rB]) = COk t) by (eexists; reflexivity).
  split; [|split; [reflexivity|discriminate]].
  intros H. destruct E as [t E]. apply (H en_ref (PStk "and" false [PCond rA; PCond rBad; PCond rB]) t); [reflexivity|exact E].
Qed.
(* Exactly: what comes out is the conversion of the tree with, in every stack, the
   first failing rule and its successors left out ([cut], STree.v). *)
Theorem C42_exact : forall en pad notsep zero negated v v0 m t, same_truth en v v0 ->
  convert en pad notsep zero m = COk t -> meaning negated v t = pmeaning negated v0 (cut (shows zero) en m).
Proof.
  intros en pad notsep zero negated v v0 m t S C. now destruct (all_good en pad notsep zero negated v v0 S m t C) as (_ & _ & M).
Qed.
(* For an AND, OR or NOT, failure is reported exactly when that leaves a stack empty
   or, if an uninitialised stack has no text, when a nested kind is unknown. *)
Theorem C42_exact_failure : forall en pad notsep zero k p ks, panics en (PStk k p ks) = false ->
  known_kind k = true ->
  (convert en pad notsep zero (PStk k p ks) = CFail <-> sound (cut (shows zero) en (PStk k p ks)) = false).
Proof.
  intros en pad notsep zero k p ks P K. destruct (all_outcome en pad notsep zero (PStk k p ks) P) as [X NP]. split; intros H.
  - destruct (sound _); [|reflexivity]. destruct (proj2 X eq_refl) as [t E]. congruence.
  - destruct (convert en pad notsep zero (PStk k p ks)) as [| | |t] eqn:E; [now destruct NP|reflexivity| |].
    + apply convert_zero in E as [_ E]. congruence.
    + rewrite (proj1 X) in H by (now exists t). discriminate.
Qed.
(* For any other kind of stack nothing is read.  That is reported when go-stackage
   gives an uninitialised stack no text, and is otherwise a success with an
   uninitialised BindRules. *)
Theorem C42_unknown : forall en pad notsep zero k p ks, known_kind k = false ->
  (zero = "" -> convert en pad notsep zero (PStk k p ks) = CFail) /\
  (zero <> "" -> convert en pad notsep zero (PStk k p ks) = CZero).
Proof.
  intros en pad notsep zero k p ks K. rewrite (convert_unknown en pad notsep zero _ _ _ K). unfold shows.
  destruct (String.eqb_spec zero ""); now split.
Qed.
(* What does hold: a stack whose first member is a failing rule is reported, and so is
   any stack that contains it, as long as no earlier rule of an enclosing stack fails.
   Missing: failing rules that have a member before them. *)
Theorem C42_first_partial : forall en pad notsep zero k p r ks k' p' before after,
  known_kind k = true -> known_kind k' = true ->
  br_assert en r = RErr -> panics en (PStk k p (PCond r :: ks)) = false ->
  convert en pad notsep zero (PStk k p (PCond r :: ks)) = CFail /\
  (forallb (all_convert en) before = true -> existsb (panics en) (before ++ after)%list = false ->
   convert en pad notsep zero (PStk k' p' (before ++ PStk k p (PCond r :: ks) :: after)) = CFail).
Proof.
  intros en pad notsep zero k p r ks k' p' before after K K' R P.
  assert (S : sound (cut (shows zero) en (PStk k p (PCond r :: ks))) = false).
  { rewrite cut_eq. cbn [cut_list]. rewrite R. cbn [sound List.length Nat.eqb negb]. now rewrite K. }
  split; [now apply C42_exact_failure|]. intros B PA. apply C42_exact_failure; [|exact K'|].
  - rewrite existsb_app in PA. apply orb_false_iff in PA as [PB PC]. change (existsb (panics en) (before ++ PStk k p (PCond r :: ks) :: after) = false).
    rewrite existsb_app. change (existsb (panics en) (PStk k p (PCond r :: ks) :: after)) with (panics en (PStk k p (PCond r :: ks)) || existsb (panics en) after)%bool.
    now rewrite PB, PC, P.
  - rewrite cut_eq. cbn [sound]. apply andb_false_iff. right.
    clear PA. induction before as [|x before IH].
    + cbn [app cut_list]. rewrite K. cbn [negb]. rewrite andb_false_r. cbn [forallb]. now rewrite S.
    + cbn [forallb] in B. apply andb_true_iff in B as [Bx B]. specialize (IH B). cbn [app cut_list]. destruct x as [r'|k2 p2 kk|]; [| |discriminate Bx].
      * cbn [all_convert] in Bx. destruct (br_assert en r'); try discriminate. cbn [forallb]. rewrite IH. now rewrite andb_false_r.
      * cbn [all_convert] in Bx. apply andb_true_iff in Bx as [-> _]. cbn [negb]. rewrite andb_false_r. cbn [forallb]. rewrite IH. now rewrite andb_false_r.
Qed.
Example C42_witness : forall zero,
  convert en_ref true "" zero (PStk "and" false [PCond rA; PStk "or" true [PCond rBad; PCond rB]]) = CFail /\
  convert en_ref true "" zero (PStk "and" false [PCond rA; PStk "or" true [PCond rB; PCond rBad]]) <> CFail /\
  sound (cut (shows zero) en_ref (PStk "and" false [PCond rA; PStk "or" true [PCond rBad; PCond rB]])) = false.
Proof. intros zero. split; [reflexivity|]. split; [discriminate|]. now destruct zero. Qed.
Example C42_unknown_witness : forall zero, known_kind "LIST" = false /\
  sound (PStk "and" false [PCond rA; PStk "LIST" true [PCond rB]]) = false /\
  (zero <> "" -> convert en_ref true "" zero (PStk "and" false [PCond rA; PStk "LIST" true [PCond rB]]) =
                 convert en_ref true "" zero (PStk "and" false [PCond rA])) /\
  (zero = "" -> convert en_ref true "" zero (PStk "and" false [PCond rA; PStk "LIST" true [PCond rB]]) = CFail).
Proof. intros [|c zero]; (split; [reflexivity|]); (split; [reflexivity|]); split; intros H; first [now destruct H|discriminate H|reflexivity]. Qed.
(* C07 again: the value that makes the reader panic does so inside any tree *)
Theorem C07_tree_refuted : forall pad notsep zero en,
  convert en pad notsep zero (PStk "and" false [PCond rB; PCond (raw "userattr" Eq "parent[0]")]) = CPanic.
Proof. intros pad notsep zero en. vm_compute. reflexivity. Qed.
Print Assumptions C42_refuted.
Print Assumptions C42_exact.
Print Assumptions C42_exact_failure.
Print Assumptions C42_unknown.
Print Assumptions C42_first_partial.
Print Assumptions C07_tree_refuted.

(* ---- C47 ---- *)
(* [readable]: the rules are well formed and parentheses are set where precedence needs
   them.  [topnot] and [notsep] stand for the two things the project's tests do not show
   (MTree.v). *)
Theorem C47_text : forall topnot notsep negated t, (forall b, negated [b] = negb b) ->
  readable t -> top_not t = false \/ topnot = true ->
  exists e, read (brs_string topnot notsep t) = Some e /\
    forall v, value v e = meaning negated (fun c => v (c_kw c) (sign_of c) (shown c)) t.
Proof.
  intros topnot notsep negated t N R T.
  assert (E : brs_string topnot notsep t = mtext notsep t).
  { unfold brs_string, mtext. destruct topnot; [reflexivity|]. destruct T as [T|T]; [|discriminate]. destruct t as [c|[] p f d ks]; try reflexivity. discriminate T. }
  rewrite E. exact (read_text notsep negated N t R).
Qed.
(* parentheses everywhere are enough *)
Fixpoint all_parens (t : tree) : Prop :=
  match t with
  | Leaf c => rule_ok c
  | Stk w p _ _ ks => p = true /\ ks <> [] /\ (w = WNot -> List.length ks = 1) /\
      (fix all l := match l with [] => True | k :: r => all_parens k /\ all r end) ks
  end.
Theorem C47_parens_suffice : forall t, all_parens t -> readable t.
Proof.
  assert (X : forall t, all_parens t -> readable t /\ level t = 2).
  { induction t as [c|w p f d ks IH] using tree_ind'; [now split|]. intros (-> & N & W & A). split; [|reflexivity].
    assert (B : Forall (fun k => readable k /\ level k = 2) ks).
    { clear N W. induction IH as [|k ks Hk _ IHl]; constructor; [apply Hk, A|apply IHl, A]. }
    cbn [readable]. split; [exact N|]. split.
    - clear -B. induction B as [|k ks [Hk _] _ IHl]; [exact I|now split].
    - destruct w; [right|exact I|split; [now apply W|now left]]. intros k Hk. rewrite (proj2 (proj1 (Forall_forall _ _) B k Hk)). lia. }
  intros t H. now apply X.
Qed.
Print Assumptions C47_text.
Print Assumptions C47_parens_suffice.
Definition cA := MkCond "userdn" (Some Eq) (Some (XList LBindDN true ["ldap:///cn=a"; "ldap:///cn=b"])) false false true.
Definition cB := MkCond "ssf" (Some Ge) (Some (XText "128")) true false true.
Definition cC := MkCond "dns" (Some Ne) (Some (XText "www.example.com")) true true false.
Lemma witness_rules : rule_ok cA /\ rule_ok cB /\ rule_ok cC.
Proof.
  assert (K : forall s, s = "userdn" \/ s = "ssf" \/ s = "dns" -> ~ In (lc s) ["and"; "or"; "not"]).
  { intros s [-> | [-> | ->]] [X|[X|[X|[]]]]; discriminate X. }
  repeat split; try reflexivity; try discriminate; try (apply K; auto).
  - now exists REq.
  - cbn. intros s [<-|[<-|[]]]; reflexivity.
  - now exists RGe.
  - cbn. intros s [<-|[]]; reflexivity.
  - now exists RNe.
  - cbn. intros s [<-|[]]; reflexivity.
Qed.
Example C47_witness :
  let t := Stk WAnd false false true [Leaf cA; Stk WNot true true true [Stk WOr false false true [Leaf cB; Leaf cC]]] in
  readable t /\ top_not t = false /\
  brs_string false "" t = "userdn = " ++ quote "ldap:///cn=a" ++ " || " ++ quote "ldap:///cn=b" ++
     " AND not ( ssf >= " ++ quote "128" ++ " OR (dns!=" ++ quote "www.example.com" ++ ") )" /\
  read (brs_string false "" t) = Some (EAnd (EAtom "userdn" "=" ["ldap:///cn=a"; "ldap:///cn=b"])
     (ENot (EOr (EAtom "ssf" ">=" ["128"]) (EAtom "dns" "!=" ["www.example.com"])))).
Proof.
  destruct witness_rules as (A & B & C). split; [|repeat split; vm_compute; reflexivity].
  cbn [readable]. split; [discriminate|]. split.
  - split; [exact A|]. split; [|exact I]. split; [discriminate|]. split; [|now split; [|left]].
    split; [|exact I]. split; [discriminate|]. now split.
  - right. intros k [<-|[<-|[]]]; cbn; lia.
Qed.

(* ---- C60 ---- *)
(* Without the parentheses it is false: an OR stack inside an AND stack is printed bare. *)
Theorem C60_refuted : forall topnot notsep,
  ~ (forall negated t, (forall b, negated [b] = negb b) -> (forall c, c = cA \/ c = cB \/ c = cC -> rule_ok c) ->
      exists e, read (brs_string topnot notsep t) = Some e /\
        forall v, value v e = meaning negated (fun c => v (c_kw c) (sign_of c) (shown c)) t) /\
  let t := brs_new false true WAnd [PStack (Some (brs_new false true WOr [PRule (Some cA); PRule (Some cB)])); PRule (Some cC)] in
  exists e, read (brs_string topnot notsep t) = Some e /\
    e = EOr (EAtom "userdn" "=" ["ldap:///cn=a"; "ldap:///cn=b"]) (EAnd (EAtom "ssf" ">=" ["128"]) (EAtom "dns" "!=" ["www.example.com"])) /\
    value (fun k _ _ => String.eqb k "userdn") e = true /\
    forall negated, meaning negated (fun c => String.eqb (c_kw c) "userdn") t = false.
Proof.
  intros topnot notsep.
  set (t := brs_new false true WAnd [PStack (Some (brs_new false true WOr [PRule (Some cA); PRule (Some cB)])); PRule (Some cC)]).
  assert (E : read (brs_string topnot notsep t) = Some (EOr (EAtom "userdn" "=" ["ldap:///cn=a"; "ldap:///cn=b"]) (EAnd (EAtom "ssf" ">=" ["128"]) (EAtom "dns" "!=" ["www.example.com"]))))
    by (destruct topnot; vm_compute; reflexivity).
  split.
  - intros H. destruct (H (fun l => negb (forallb (fun b => b) l)) t) as (e & A & B).
    + intros []; reflexivity.
    + destruct witness_rules as (RA & RB & RC). now intros c [-> | [-> | ->]].
    + rewrite E in A. injection A as <-. specialize (B (fun k _ _ => String.eqb k "userdn")). discriminate B.
  - cbv zeta. fold t. eexists. split; [exact E|]. split; [reflexivity|]. split; reflexivity.
Qed.
Print Assumptions C60_refuted.

(* ---- C58 ---- *)
Theorem C58_kept : forall en r r', br_assert en r = ROk r' ->
  exists c c' k, r = Some c /\ r' = Some c' /\ eqfold (c_kw c) (bindkw_name k) = true /\
    c_kw c' = c_kw c /\ c_op c' = c_op c /\ c_paren c' = c_paren c /\ c_pad c' = c_pad c.
Proof.
  intros en r r' H. destruct (br_assert_keeps en r r' H) as (c & c' & k & A & B & K & R). exists c, c', k.
  split; [exact A|]. split; [exact B|]. split; [|exact R].
  destruct (matchBKW_cases (c_kw c)) as [E|(k' & E & N)]; [rewrite E in K; destruct k; discriminate K|].
  rewrite E in K. assert (k = k') as -> by (destruct k, k'; trivial; discriminate K). exact N.
Qed.
Lemma authm_known u : (exists m, names_auth u m) \/ forall m, ~ names_auth u m.
Proof.
  unfold names_auth. destruct (existsb (fun m => eqfold u (authm_name m)) [MNone; MSimple; MSSL; MSASL; MExternal; MDigest; MGSSAPI]) eqn:E.
  - apply existsb_exists in E as (m & _ & H). left. now exists m.
  - right. intros m H. rewrite <- not_true_iff_false in E. apply E, existsb_exists. exists m. split; [|exact H]. destruct m; cbn; tauto.
Qed.
Lemma single_text en k v : Permutation (e_auth en) authNames -> single_valued k = true ->
  match assert_bind en (bindkw_const k) [v] with
  | AOk ex => single_value_ok k (unquote (condenseWHSP v)) /\
      exists s, ex = XText s /\
        (if match k with AuthMethod => true | _ => false end
         then forall m, names_auth (unquote (condenseWHSP v)) m -> names_auth s m
         else s = unquote (condenseWHSP v))
  | AErr => ~ single_value_ok k (unquote (condenseWHSP v))
  | APanic => False
  end.
Proof.
  intros PE S. destruct k; try discriminate S; unfold assert_bind; cbn -[assertBindIP assertBindDNS assertBindTimeOfDay assertBindAuthenticationMethod assertBindSSF unquote condenseWHSP itoa split1].
  - destruct (assertBindIP [v]) as [r|] eqn:A; cbn [of_opt].
    + assert (X := proj1 (C19_rule v) (ex_intro _ r A)). split; [exact X|]. eexists. split; [reflexivity|].
      unfold assertBindIP in A. set (l := split1 "," (unquote (condenseWHSP v))) in *. destruct X as [ND P].
      destruct (Nat.eqb _ _); [|discriminate]. injection A as <-.
      assert (E : forall l a, fold_left (fun a x => ipaddr_set a [x]) l (Some (firsts (filter isValidIP a))) = Some (firsts (filter isValidIP (a ++ l)))).
      { clear. induction l as [|x l IH]; intros a; cbn [fold_left]; [now rewrite app_nil_r|].
        unfold ipaddr_set. rewrite ip_set_spec, IH, <- app_assoc. reflexivity. }
      assert (N : l <> []) by apply split1_nonnil.
      assert (E' : fold_left (fun a x => ipaddr_set a [x]) l None = Some (firsts (filter isValidIP l))).
      { destruct l as [|x l']; [easy|]. cbn [fold_left]. unfold ipaddr_set at 2. rewrite ip_set_nil. now rewrite E. }
      rewrite E'. assert (Ef : filter isValidIP l = l) by (apply filter_all; intros x Hx; now apply valid_ip_iff, P).
      rewrite Ef, firsts_idem by easy. unfold ipaddr_string. destruct l eqn:El; [easy|]. rewrite <- El. apply join_split1.
    + intros X. destruct (proj2 (C19_rule v) X) as [r Y]. congruence.
  - destruct (assertBindDNS [v]) as [r|] eqn:A; cbn [of_opt].
    + split; [exact (proj1 (C20_rule v) (ex_intro _ r A))|]. eexists. split; [reflexivity|].
      unfold assertBindDNS in A. destruct (String.eqb_spec (unquote (condenseWHSP v)) (fqdn_string (DNS [unquote (condenseWHSP v)]))) as [E|_]; [|discriminate].
      injection A as <-. now symmetry.
    + intros X. destruct (proj2 (C20_rule v) X) as [r Y]. congruence.
  - destruct (assertBindTimeOfDay [v]) as [r|] eqn:A; cbn [of_opt].
    + split; [exact (proj1 (C11_accept v) (ex_intro _ r A))|]. eexists. split; [reflexivity|].
      destruct (C11_accepted_text _ _ A) as (v' & E & T & _). now injection E as <-.
    + intros X. destruct (proj2 (C11_accept v) X) as [r Y]. congruence.
  - destruct (C15_accept (e_auth en) (e_low en) v PE) as [P Q].
    destruct (assertBindAuthenticationMethod (e_auth en) (e_low en) [v]) as [r|] eqn:A; cbn [of_opt].
    + assert (X : exists m, names_auth (unquote (condenseWHSP v)) m /\ r = authm_const m).
      { destruct (authm_known (unquote (condenseWHSP v))) as [[m M]|M].
        - exists m. split; [exact M|]. apply P in M. congruence.
        - apply Q in M. congruence. }
      destruct X as (m & M & ->). split; [now exists m|]. eexists. split; [reflexivity|]. intros m' M'.
      apply P in M'. injection M' as M'. rewrite M'. now apply (C15_round_trip (e_auth en) (e_auth en)).
    + intros [m M]. apply P in M. congruence.
  - destruct (assertBindSSF [v]) as [r|] eqn:A; cbn [of_opt].
    + split; [exact (proj1 (C14_accept v) (ex_intro _ r A))|]. eexists. split; [reflexivity|].
      destruct (C14_accepted_text _ _ A) as (v' & E & T). now injection E as <-.
    + intros X. destruct (proj2 (C14_accept v) X) as [r Y]. congruence.
Qed.
(* Rules with a single value: accepted exactly for the values of STree.v, and then the
   rule shows the given value, in double quotes (for authmethod the method's own name). *)
Definition given (c : cond) (style : Z) (v : string) : cond := with_ex c (Some (XRaw style [v])).
Theorem C58_accept : forall en c k style v, Permutation (e_auth en) authNames ->
  eqfold (c_kw c) (bindkw_name k) = true -> single_valued k = true ->
  (exists r, br_assert en (Some (given c style v)) = ROk r) <-> single_value_ok k (unquote (condenseWHSP v)).
Proof.
  intros en c k style v PE K S. assert (X := single_text en k v PE S).
  assert (M : matchBKW (c_kw c) = bindkw_const k) by (destruct (bindkw_lookup _ (Permutation.Permutation_refl _) (c_kw c)) as [A _]; now apply A).
  unfold br_assert, given. cbn [with_ex c_ex br_keyword c_kw]. rewrite bkw_round, M.
  destruct (assert_bind en (bindkw_const k) [v]) as [| |ex].
  - destruct X.
  - split; [intros [r E]; discriminate E|]. intros Y. now apply X in Y.
  - split; [intros _; apply X|]. intros _. eexists. reflexivity.
Qed.
Theorem C58_shown : forall en c k style v r, Permutation (e_auth en) authNames ->
  eqfold (c_kw c) (bindkw_name k) = true -> single_valued k = true ->
  br_assert en (Some (given c style v)) = ROk r ->
  exists s, br_string r = wrap_paren (c_paren c) (c_pad c)
      (c_kw c ++ padding (c_pad c) ++ op_text (c_op c) ++ padding (c_pad c) ++ quote s) /\
    (k <> AuthMethod -> s = unquote (condenseWHSP v)) /\
    (forall m, k = AuthMethod -> names_auth (unquote (condenseWHSP v)) m -> names_auth s m).
Proof.
  intros en c k style v r PE K S. assert (X := single_text en k v PE S).
  assert (M : matchBKW (c_kw c) = bindkw_const k) by (destruct (bindkw_lookup _ (Permutation.Permutation_refl _) (c_kw c)) as [A _]; now apply A).
  unfold br_assert, given. cbn [with_ex c_ex br_keyword c_kw]. rewrite bkw_round, M.
  destruct (assert_bind en (bindkw_const k) [v]) as [| |ex]; try discriminate. intros H. injection H as <-.
  destruct X as (_ & s & -> & T). exists s. split; [reflexivity|]. split.
  - intros N. destruct k; try exact T. now destruct N.
  - intros m -> Y. now apply T.
Qed.
Example C58_witness :
  let c := MkCond "AuthMethod" (Some Eq) None false true true in
  eqfold (c_kw c) (bindkw_name AuthMethod) = true /\
  (exists r, br_assert en_ref (Some (given c 1 " ssl ")) = ROk r) /\
  (exists r, br_assert en_ref rB = ROk r /\ br_string r = "ssf >= " ++ quote "128").
Proof. split; [reflexivity|]. split; eexists; [|split]; vm_compute; reflexivity. Qed.
Print Assumptions C58_kept.
Print Assumptions C58_accept.
Print Assumptions C58_shown.
(* the same for target rules *)
Theorem C58_target_kept : forall en r r', tr_assert en r = ROk r' ->
  exists c c', r = Some c /\ r' = Some c' /\
    c_kw c' = c_kw c /\ c_op c' = c_op c /\ c_paren c' = c_paren c /\ c_pad c' = c_pad c.
Proof.
  intros en r r'. unfold tr_assert. destruct r as [c|]; [|discriminate]. destruct (c_ex c) as [[s|t b l|style vals]|]; try discriminate.
  destruct (assert_target _ _ _) as [| |ex]; try discriminate. intros H. injection H as <-.
  destruct (tquote_style_keeps style (with_quoted (with_ex c (Some ex)) true)) as (c' & Q & B). exists c, c'.
  split; [reflexivity|]. split; [exact Q|exact B].
Qed.
Print Assumptions C58_target_kept.

(* ---- C59 ---- *)
(* False: the check of the rule's validity is overwritten by the check of its keyword. *)
Theorem C59_refuted :
  ~ (forall stop pad w h c, match brs_run stop (brs_new stop pad w []) h with Stk _ _ _ _ ks => In (Leaf c) ks | Leaf _ => False end -> cond_valid c = true) /\
  (let r := br_run None [BInit; BKeyword "userdn"] in
   br_valid r = false /\ brs_run false (brs_new false true WAnd []) [SPush [PRule r]] = Stk WAnd false false true [Leaf (MkCond "userdn" None None false false true)]).
Proof.
  split; [|split; reflexivity]. intros H.
  specialize (H false true WAnd [SPush [PRule (br_run None [BInit; BKeyword "userdn"])]] (MkCond "userdn" None None false false true) (or_introl eq_refl)). discriminate H.
Qed.
(* Exactly: a push appends, in order, the rules whose keyword is one of the eleven, and
   the initialised stacks; all of them, or those before the first refused argument
   when the stack library stops there ([stop]). *)
Fixpoint until {A} (p : A -> bool) (l : list A) : list A :=
  match l with [] => [] | x :: t => if p x then x :: until p t else [] end.
Theorem C59_exact : forall l xs,
  exists keep, (forall c, keep (Leaf c) = true <-> known_keyword c) /\ (forall w p f d k, keep (Stk w p f d k) = true) /\
  (forall stop, push_many stop brs_push1 l xs =
     (l ++ filter keep (flat_map member_of (if stop then until (fun x => existsb keep (member_of x)) xs else xs)))%list).
Proof.
  intros l xs. exists (fun t => match t with Leaf c => negb (matchBKW (bkw_string (matchBKW (c_kw c))) =? 0)%N | _ => true end).
  split; [|split; [reflexivity|]].
  - intros c. unfold known_keyword. rewrite bkw_round, negb_true_iff, N.eqb_neq. split.
    + intros N. destruct (matchBKW_cases (c_kw c)) as [E|(k & E & K)]; [contradiction|now exists k].
    + intros [k K]. destruct (bindkw_lookup _ (Permutation.Permutation_refl _) (c_kw c)) as [A _]. apply A in K. unfold matchBKW. rewrite K. now destruct k.
  - intros stop. revert l. induction xs as [|x xs IH]; intros l; [destruct stop; cbn; now rewrite app_nil_r|].
    cbn [push_many]. set (keep := fun t : tree => _) in *.
    assert (E : brs_push1 l x = (l ++ filter keep (member_of x))%list).
    { destruct x as [[c|]|[[c|w p f d k]|]|]; cbn [brs_push1 member_of filter keep]; try (now rewrite app_nil_r).
      - subst keep. cbv beta iota. now destruct (negb _); [|rewrite app_nil_r].
      - reflexivity. }
    assert (M : existsb keep (member_of x) = negb (List.length (brs_push1 l x) =? List.length l)%nat).
    { rewrite E, app_length. destruct x as [[c|]|[[c|w p f d k]|]|]; cbn [member_of filter existsb];
        try (cbn [List.length]; rewrite Nat.add_0_r, Nat.eqb_refl; reflexivity).
      - destruct (keep (Leaf c)); cbn [List.length orb negb].
        + destruct (Nat.eqb_spec (List.length l + 1) (List.length l)); [lia|reflexivity].
        + now rewrite Nat.add_0_r, Nat.eqb_refl.
      - change (keep (Stk w p f d k)) with true. cbn [List.length orb negb].
        destruct (Nat.eqb_spec (List.length l + 1) (List.length l)); [lia|reflexivity]. }
    destruct stop; cbn [andb until].
    + rewrite M. destruct (Nat.eqb_spec (List.length (brs_push1 l x)) (List.length l)) as [L|L]; cbn [negb].
      * cbn. rewrite app_nil_r, E. rewrite E, app_length in L.
        destruct (filter keep (member_of x)); [now rewrite app_nil_r|cbn in L; lia].
      * rewrite IH. cbn [flat_map]. now rewrite filter_app, app_assoc, <- E.
    + rewrite IH. cbn [flat_map]. now rewrite filter_app, app_assoc, <- E.
Qed.
(* so whatever was called on a stack, every rule in it has one of the eleven keywords *)
Theorem C59_keywords : forall stop pad w h w' p f d ks c, brs_run stop (brs_new stop pad w []) h = Stk w' p f d ks -> In (Leaf c) ks -> w' = w /\ known_keyword c.
Proof.
  intros stop pad w h.
  assert (X : forall h t, (exists w' p f d ks, t = Stk w' p f d ks /\ w' = w /\ forall c, In (Leaf c) ks -> known_keyword c) ->
    exists w' p f d ks, brs_run stop t h = Stk w' p f d ks /\ w' = w /\ forall c, In (Leaf c) ks -> known_keyword c).
  { clear h. induction h as [|a h IH]; intros t H; [exact H|]. apply IH. destruct H as (w' & p & f & d & ks & -> & -> & H).
    destruct a as [xs| |b|b|b]; cbn [brs_step brs_push brs_pop brs_paren brs_fold brs_nopadding].
    - do 5 eexists. split; [reflexivity|]. split; [reflexivity|].
      intros c0. destruct (C59_exact ks xs) as (keep & K & _ & ->). rewrite in_app_iff. intros [I|I]; [now apply H|]. apply filter_In in I as [_ I]. now apply K.
    - do 5 eexists. split; [reflexivity|]. split; [reflexivity|]. intros c0 I. apply H. now apply In_removelast in I.
    - do 5 eexists. split; [reflexivity|]. split; [reflexivity|exact H].
    - do 5 eexists. split; [reflexivity|]. split; [reflexivity|exact H].
    - do 5 eexists. split; [reflexivity|]. split; [reflexivity|exact H]. }
  intros w' p f d ks c E I. destruct (X h (brs_new stop pad w [])) as (w2 & p2 & f2 & d2 & ks2 & E2 & W & H).
  - do 5 eexists. split; [reflexivity|]. split; [reflexivity|]. intros c' [].
  - rewrite E in E2. injection E2 as -> -> -> -> ->. split; [exact W|now apply H].
Qed.
Print Assumptions C59_refuted.
Print Assumptions C59_exact.
Print Assumptions C59_keywords.
Example C59_witness :
  brs_run false (brs_new false true WOr []) [SPush [PRule (Some cA); POtherArg; PStack None; PRule (Some (with_kw cA "nosuch"))]; SParen true; SPush [PStack (Some (brs_new false true WAnd [PRule (Some cB)]))]]
  = Stk WOr true false true [Leaf cA; Stk WAnd false false true [Leaf cB]].
Proof. reflexivity. Qed.
