(* C162: rules set as a whole, by goroutines. *)
From Coq Require Import String List PeanoNat NArith Bool Lia.
From Verif Require Import GoStr MHeap MMisc MRights MRule MTree MConv MAci MPb SPb PAci PWhole TTree TAci TPb.
Import ListNotations.
Open Scope list_scope.

Section T.
Variable W : world.
Local Notation sched := (q_sched W).
Local Notation step := (q_step W).
Local Notation gstep := (q_gstep W).

(* ---- goroutines that take turns ---- *)
Section Turns.
Variables (r0 : pbrec) (css : list (list qcall)) (V : pbr_valid (Some r0) = true).
Hypothesis Wh : forall cs, In cs css -> whole_calls W cs.
Definition entire (r : pbrec) : Prop := r = r0 \/ whole_gives W css r.
Lemma entire_valid r : entire r -> perm_valid (pb_p r) = true /\ exists b, pb_b r = Some b.
Proof.
  intros [->|(cs & s & _ & _ & E)]; [|now apply (parse_parts W s)]. apply pbr_valid_iff in V as (d & n & b & E). injection E as ->. split; [reflexivity|now exists b].
Qed.
Definition ok_cur (r : pbrec) (k : list qop) : Prop :=
  match k with
  | [] => True
  | [QP p; QB b] => entire (MkPB p b) /\ entire r
  | [QB b] => entire (MkPB (pb_p r) b)
  | [QTextB p] => entire r /\ p = pb_p r
  | [QP _] => False
  | [_] => entire r
  | _ => False
  end.
Definition ok_texts (g : qgo) : Prop := forall t, In t (qtexts g) -> exists v b, entire v /\ pb_b v = Some b /\ t = rule_shown W (pb_p v) b.
Definition ok_todo (g : qgo) : Prop := exists cs a, In cs css /\ cs = a ++ qtodo g.
Lemma pb_eta r : MkPB (pb_p r) (pb_b r) = r. Proof. now destruct r. Qed.
Lemma gstep_turn r g : (qcur g = [] -> entire r) -> ok_cur r (qcur g) -> ok_texts g -> ok_todo g ->
  let r' := fst (gstep r g) in let g' := snd (gstep r g) in
  ok_cur r' (qcur g') /\ ok_texts g' /\ ok_todo g' /\ (qcur g' = [] -> entire r').
Proof.
  intros N C T D r' g'. unfold r', g', q_gstep. clear r' g'.
  destruct (qcur g) as [|o k] eqn:Cg.
  - specialize (N eq_refl). destruct (qtodo g) as [|c t] eqn:E; cbn [fst snd].
    + rewrite Cg. cbn. now repeat split.
    + assert (D' : ok_todo (MkQg t (call_ops W c) (qtexts g))).
      { destruct D as (cs & a & I & ->). exists (a ++ qtodo g), (a ++ [c]). cbn [qtodo]. rewrite E in *. split; [assumption|now rewrite <- app_assoc]. }
      cbn [qcur]. split; [|repeat split; trivial].
      destruct D as (cs & a & I & Ecs). assert (J : In c cs) by (rewrite Ecs, E; apply in_or_app; right; now left).
      destruct (Wh cs I c J) as [->|(s & v & -> & P)]; cbn [call_ops set_ops]; [exact N|]. rewrite P. cbn [ok_cur]. split; [|assumption].
      right. exists cs, s. split; [assumption|]. split; [assumption|]. now rewrite pb_eta.
  - assert (Go : forall k', ok_cur r k' -> (k' = [] -> False) -> let g' := MkQg (qtodo g) k' (qtexts g) in
                 ok_cur r (qcur g') /\ ok_texts g' /\ ok_todo g' /\ (qcur g' = [] -> entire r)).
    { intros k' K Z g'. unfold g'. cbn [qcur]. repeat split; trivial. intros A. now destruct (Z A). }
    destruct o.
    + destruct k as [|[] [|]]; cbn [ok_cur] in C; try contradiction. cbn [fst snd qcur ok_cur pb_p]. destruct C as [C _]. repeat split; trivial. discriminate.
    + destruct k; cbn [ok_cur] in C; try contradiction. cbn [fst snd qcur ok_cur]. now repeat split.
    + destruct k; cbn [ok_cur] in C; try contradiction. destruct (perm_is_zero _); cbn [fst snd]; apply Go; trivial; discriminate.
    + destruct k; cbn [ok_cur] in C; try contradiction. destruct (entire_valid r C) as [Pv [b B]]. rewrite B. cbn [fst snd]. apply Go; trivial; discriminate.
    + destruct k; cbn [ok_cur] in C; try contradiction. destruct (entire_valid r C) as [Pv [b B]]. rewrite Pv. cbn [fst snd]. apply Go; trivial; discriminate.
    + destruct k; cbn [ok_cur] in C; try contradiction. destruct (entire_valid r C) as [Pv [b B]]. rewrite B. cbn [fst snd]. apply Go; trivial; discriminate.
    + destruct k; cbn [ok_cur] in C; try contradiction. cbn [fst snd]. apply Go; [now split|discriminate].
    + destruct k; cbn [ok_cur] in C; try contradiction. destruct C as [C ->]. destruct (entire_valid r C) as [Pv [b B]]. cbn [fst snd qcur ok_cur].
      split; [exact I|]. split; [|split; trivial]. intros t J. cbn [qtexts] in J. apply in_app_or in J as [J|[<-|[]]]; [now apply T|].
      exists r, b. split; [assumption|]. split; [assumption|]. unfold rule_shown. now rewrite B.
Qed.
Lemma turns_run q : q_turns W (q_start r0 css) q -> let st := sched (q_start r0 css) q in
  (forall g, In g (qgos st) -> ok_cur (qrule st) (qcur g) /\ ok_texts g /\ ok_todo g) /\
  ((forall g, In g (qgos st) -> qcur g = []) -> entire (qrule st)).
Proof.
  induction q as [|i q IH] using rev_ind; intros Tu.
  - cbn. split; [|now left]. intros g H. apply in_map_iff in H as (cs & <- & I). cbn [qcur]. split; [exact I0 || exact Logic.I|]. split; [intros t []|]. exists cs, []. now split.
  - assert (Tq : q_turns W (q_start r0 css) q). { intros a b ->. apply (Tu a (b ++ [i])). now rewrite <- app_assoc. }
    specialize (IH Tq). cbn zeta. assert (Now := Tu q [i] eq_refl). assert (After := Tu (q ++ [i]) [] (eq_sym (app_nil_r _))).
    rewrite q_snoc in After |- *. set (st := sched (q_start r0 css) q) in *. destruct IH as [G Q].
    destruct (nth_error (qgos st) i) as [g0|] eqn:E; [|rewrite q_step_none by assumption; now split].
    destruct (q_step_go W st i g0 E) as (R & N & O). destruct (G g0 (nth_error_In _ _ E)) as (C0 & T0 & D0).
    destruct (qcur g0) as [|o k] eqn:Cg.
    + (* the goroutine begins a call *)
      assert (R0 : fst (gstep (qrule st) g0) = qrule st) by (unfold q_gstep; rewrite Cg; destruct (qtodo g0); reflexivity).
      destruct (qcur (snd (gstep (qrule st) g0))) as [|o k] eqn:Cn.
      * (* and is out of it at once *)
        assert (B : ok_texts (snd (gstep (qrule st) g0)) /\ ok_todo (snd (gstep (qrule st) g0))).
        { unfold q_gstep. rewrite Cg. destruct (qtodo g0) as [|c t] eqn:Ct; cbn [snd]; [now split|]. split; [assumption|].
          destruct D0 as (cs & a & I & ->). exists (a ++ qtodo g0), (a ++ [c]). cbn [qtodo]. rewrite Ct in *. split; [assumption|now rewrite <- app_assoc]. }
        rewrite R, R0. split.
        -- intros g I. apply q_step_in in I as [I|(g1 & E1 & ->)]; [now apply G|]. rewrite E in E1. injection E1 as <-. rewrite Cn. now repeat split.
        -- intros Z. apply Q. intros g I. destruct (In_nth_error _ _ I) as [j J]. destruct (Nat.eq_dec j i) as [->|Dj]; [congruence|].
           apply Z. apply (nth_error_In _ j). now rewrite O.
      * (* nobody else is in a call *)
        assert (Quiet : forall j g, nth_error (qgos st) j = Some g -> qcur g = []).
        { intros j g J. destruct (Nat.eq_dec j i) as [->|Dj]; [congruence|]. destruct (qcur g) as [|o' k'] eqn:Cj; [reflexivity|]. exfalso. apply Dj.
          apply (After j i g (snd (gstep (qrule st) g0))); trivial; [now rewrite O|rewrite Cj; discriminate|rewrite Cn; discriminate]. }
        assert (En : entire (qrule st)). { apply Q. intros g I. destruct (In_nth_error _ _ I) as [j J]. now apply (Quiet j). }
        destruct (gstep_turn (qrule st) g0 (fun _ => En)) as (C' & T' & D' & N'); trivial; [rewrite Cg; exact Logic.I|]. rewrite R. split.
        -- intros g I. apply q_step_in in I as [I|(g1 & E1 & ->)].
           ++ destruct (G g I) as (_ & Tg & Dg). destruct (In_nth_error _ _ I) as [j J]. rewrite (Quiet j g J). now repeat split.
           ++ rewrite E in E1. injection E1 as <-. now repeat split.
        -- intros Z. apply N'. apply Z. now apply (nth_error_In _ i).
    + assert (Quiet : forall j g, j <> i -> nth_error (qgos st) j = Some g -> qcur g = []).
      { intros j g Dj J. destruct (qcur g) as [|o' k'] eqn:Cj; [reflexivity|]. exfalso. apply Dj.
        apply (Now j i g g0); trivial; [rewrite Cj; discriminate|rewrite Cg; discriminate]. }
      destruct (gstep_turn (qrule st) g0) as (C' & T' & D' & N'); trivial; [rewrite Cg; discriminate|now rewrite Cg|]. rewrite R. split.
      * intros g I. destruct (In_nth_error _ _ I) as [j J]. destruct (Nat.eq_dec j i) as [->|Dj].
        -- rewrite N in J. injection J as <-. now repeat split.
        -- rewrite O in J by assumption. rewrite (Quiet j g Dj J). destruct (G g (nth_error_In _ _ J)) as (_ & Tg & Dg). now repeat split.
      * intros Z. apply N'. apply Z. now apply (nth_error_In _ i).
Qed.
End Turns.
(* Goroutines that set the rule from texts and take turns keep it whole: each text returned
   is that of the rule at the start or of one that a text gave, and so is the rule while no
   call runs. *)
Theorem C162_by_turns : forall r css q, pbr_valid (Some r) = true -> (forall cs, In cs css -> whole_calls W cs) ->
  q_turns W (q_start r css) q -> let st := sched (q_start r css) q in
  (forall g t, In g (qgos st) -> In t (qtexts g) ->
     exists v, (v = r \/ whole_gives W css v) /\ t = pbr_string W (Some v)) /\
  ((forall g, In g (qgos st) -> qcur g = []) -> qrule st = r \/ whole_gives W css (qrule st)).
Proof.
  intros r css q V Wh Tu st. destruct (turns_run r css V Wh q Tu) as [G Q]. split; [|exact Q]. intros g t I J.
  destruct (G g I) as (_ & T & _). destruct (T t J) as (v & b & E & B & ->). exists v. split; [exact E|].
  destruct (entire_valid r css V v E) as [P _]. destruct v as [p ob]. cbn [pb_p pb_b] in *. subst ob. unfold pbr_string, pbr_valid, pbr_isZero. cbn [pb_p pb_b].
  rewrite P. destruct p; [discriminate P|]. reflexivity.
Qed.

(* ---- whole rules come apart ---- *)
Local Opaque parsePBR perm_string bctx_string.
(* whatever the rules: a call of String beside one call of Set can return the old permission
   with the new bind rule, or the new permission with the old bind rule *)
Theorem C162_torn : forall r s v b b', pbr_valid (Some r) = true -> pb_b r = Some b ->
  parsePBR W s = Gives (Some v) -> pb_b v = Some b' ->
  (exists q g, let st := sched (q_start r [[QSet [PAStr s]]; [QString]]) q in
     q_returned st /\ In g (qgos st) /\ qtexts g = [rule_shown W (pb_p r) b']) /\
  (exists q g, let st := sched (q_start r [[QSet [PAStr s]]; [QString]]) q in
     q_returned st /\ In g (qgos st) /\ qtexts g = [rule_shown W (pb_p v) b]).
Proof.
  intros r s v b b' V B P B'. destruct (parse_parts W s v P) as [Pv _].
  apply pbr_valid_iff in V as (d & n & b0 & E). injection E as ->. cbn [pb_b] in B. injection B as ->.
  destruct v as [[|d' n'] ob]; [discriminate Pv|]. cbn [pb_b] in B'. subst ob. split.
  - exists [1; 1; 1; 1; 1; 0; 0; 0; 1]. eexists. cbn zeta.
    cbn. rewrite P. cbn. split; [|split; [right; left; reflexivity|reflexivity]]. intros g [<-|[<-|[]]]; now split.
  - exists [0; 0; 1; 1; 1; 1; 1; 1; 0]. eexists. cbn zeta.
    cbn. rewrite P. cbn. split; [|split; [right; left; reflexivity|reflexivity]]. intros g [<-|[<-|[]]]; now split.
Qed.
(* exactly: two goroutines that each set the rule from a text leave the permission of either
   with the bind rule of either, and each of the four can come about *)
Theorem C162_exact : forall r s1 s2 v1 v2, parsePBR W s1 = Gives (Some v1) -> parsePBR W s2 = Gives (Some v2) -> forall v,
  (exists q, let st := sched (q_start r [[QSet [PAStr s1]]; [QSet [PAStr s2]]]) q in q_returned st /\ qrule st = v) <->
  (pb_p v = pb_p v1 \/ pb_p v = pb_p v2) /\ (pb_b v = pb_b v1 \/ pb_b v = pb_b v2).
Proof.
  intros r s1 s2 v1 v2 P1 P2 v. split.
  - intros (q & R & <-). set (st0 := q_start r [[QSet [PAStr s1]]; [QSet [PAStr s2]]]) in *.
    (* a goroutine is before its call, before the first, before the second write, or at the end *)
    set (go := fun w s (n : nat) g => match n with
        | 0 => g = MkQg [QSet [PAStr s]] [] []
        | 1 => g = MkQg [] [QP (pb_p w); QB (pb_b w)] []
        | 2 => g = MkQg [] [QB (pb_b w)] []
        | _ => g = MkQg [] [] [] end).
    assert (Inv : exists n1 n2 g1 g2, qgos (sched st0 q) = [g1; g2] /\ go v1 s1 n1 g1 /\ go v2 s2 n2 g2 /\
       (2 <= n1 \/ 2 <= n2 -> pb_p (qrule (sched st0 q)) = pb_p v1 \/ pb_p (qrule (sched st0 q)) = pb_p v2) /\
       (3 <= n1 \/ 3 <= n2 -> pb_b (qrule (sched st0 q)) = pb_b v1 \/ pb_b (qrule (sched st0 q)) = pb_b v2)).
    { clear R. induction q as [|i q IH] using rev_ind.
      - exists 0, 0. do 2 eexists. cbn. repeat split; lia.
      - rewrite q_snoc. set (st := sched st0 q) in *. destruct IH as (n1 & n2 & g1 & g2 & G & A1 & A2 & IP & IB). unfold q_step. rewrite G.
        destruct i as [|[|i]]; cbn [nth_error]; [| |exists n1, n2, g1, g2; destruct i; cbn [nth_error]; now repeat split].
        + destruct n1 as [|[|[|n1]]]; cbn [go] in A1; subst g1; unfold q_gstep; cbn [qcur qtodo call_ops set_ops]; rewrite ?P1; cbn [qrule qgos wr].
          * exists 1, n2. do 2 eexists. repeat split; trivial; intros [H|H]; try lia; [apply IP|apply IB]; now right.
          * exists 2, n2. do 2 eexists. cbn [pb_p pb_b]. repeat split; trivial; [now left|]. intros [H|H]; [lia|]. apply IB. now right.
          * exists 3, n2. do 2 eexists. cbn [pb_p pb_b]. repeat split; trivial; [|now left]. intros _. apply IP. left. lia.
          * exists (S (S (S n1))), n2. do 2 eexists. repeat split; trivial.
        + destruct n2 as [|[|[|n2]]]; cbn [go] in A2; subst g2; unfold q_gstep; cbn [qcur qtodo call_ops set_ops]; rewrite ?P2; cbn [qrule qgos wr].
          * exists n1, 1. do 2 eexists. repeat split; trivial; try eassumption; intros [H|H]; try lia; [apply IP|apply IB]; now left.
          * exists n1, 2. do 2 eexists. cbn [pb_p pb_b]. repeat split; trivial; try eassumption; [now right|]. intros [H|H]; [|lia]. apply IB. now left.
          * exists n1, 3. do 2 eexists. cbn [pb_p pb_b]. repeat split; trivial; try eassumption; [|now right]. intros _. apply IP. right. lia.
          * exists n1, (S (S (S n2))). do 2 eexists. repeat split; trivial; eassumption. }
    destruct Inv as (n1 & n2 & g1 & g2 & G & A1 & _ & IP & IB). assert (R1 : qtodo g1 = [] /\ qcur g1 = []) by (apply R; rewrite G; now left).
    assert (L : 3 <= n1). { destruct n1 as [|[|[|n1]]]; cbn [go] in A1; subst g1; destruct R1; try discriminate. lia. }
    split; [apply IP|apply IB]; left; lia.
  - intros [HP HB]. destruct v as [p b]. cbn [pb_p pb_b] in *.
    assert (Run : exists q, let st := sched (q_start r [[QSet [PAStr s1]]; [QSet [PAStr s2]]]) q in
      qgos st = [MkQg [] [] []; MkQg [] [] []] /\ qrule st = MkPB p b).
    { destruct HP as [-> | ->], HB as [-> | ->];
      [exists [1; 1; 1; 0; 0; 0]|exists [0; 1; 1; 0; 0; 1]|exists [0; 1; 0; 1; 1; 0]|exists [0; 0; 0; 1; 1; 1]];
      do 3 (cbn; rewrite ?P1, ?P2); now split. }
    destruct Run as (q & G & E). exists q. cbn zeta. split; [|exact E]. intros g. rewrite G. intros [<-|[<-|[]]]; now split.
Qed.
Local Transparent parsePBR perm_string bctx_string.
End T.
(* false of the code: with whole rules set, a text that is of none of them, and a rule in
   the end that is none of them *)
Theorem C162_refuted :
  ~ (forall W r css q, pbr_valid (Some r) = true -> (forall cs, In cs css -> whole_calls W cs) ->
     let st := q_sched W (q_start r css) q in
     forall g t, In g (qgos st) -> In t (qtexts g) -> exists v, (v = r \/ whole_gives W css v) /\ t = pbr_string W (Some v)) /\
  ~ (forall W r css q, pbr_valid (Some r) = true -> (forall cs, In cs css -> whole_calls W cs) ->
     let st := q_sched W (q_start r css) q in
     q_returned st -> qrule st = r \/ whole_gives W css (qrule st)).
Proof.
  destruct theA as [a|] eqn:EA; [|vm_compute in EA; discriminate]. destruct theB as [b|] eqn:EB; [|vm_compute in EB; discriminate].
  assert (PA : parsePBR W0 "A" = Gives (Some a)). { rewrite <- EA. vm_compute. reflexivity. }
  assert (PB : parsePBR W0 "B" = Gives (Some b)). { rewrite <- EB. vm_compute. reflexivity. }
  assert (VA : pbr_valid (Some a) = true). { rewrite <- EA. vm_compute. reflexivity. }
  destruct (parse_parts W0 "A" a PA) as [_ [ba Ba]]. destruct (parse_parts W0 "B" b PB) as [_ [bb Bb]]. split; intros H.
  - destruct (C162_torn W0 a "B" b ba bb VA Ba PB Bb) as [(q & g & R & I & T) _].
    destruct (H W0 a [[QSet [PAStr "B"]]; [QString]] q VA) with (g := g) (t := rule_shown W0 (pb_p a) bb) as (v & D & E); trivial.
    + intros cs [<-|[<-|[]]] c [<-|[]]; [right; exists "B"%string, b; exact (conj eq_refl PB)|now left].
    + rewrite T. now left.
    + assert (K : v = a \/ v = b).
      { destruct D as [->|(cs & s & [<-|[<-|[]]] & [J|[]] & P)]; [now left| |discriminate J]. injection J as <-. rewrite PB in P. injection P as ->. now right. }
      assert (X : rule_shown W0 (pb_p a) bb <> pbr_string W0 (Some a) /\ rule_shown W0 (pb_p a) bb <> pbr_string W0 (Some b)).
      { assert (Ea : Some a = theA) by now symmetry. assert (Eb : Some b = theB) by now symmetry.
        vm_compute in Ea, Eb. injection Ea as ->. injection Eb as ->. cbn [pb_b] in Bb. injection Bb as <-. split; vm_compute; discriminate. }
      destruct X as [X1 X2]. destruct K as [->|K]; [now apply X1|subst v; now apply X2].
  - destruct (proj2 (C162_exact W0 a "A" "B" a b PA PB (MkPB (pb_p a) (pb_b b)))) as (q & R & E); [split; [now left|now right]|].
    destruct (H W0 a [[QSet [PAStr "A"]]; [QSet [PAStr "B"]]] q VA) as [D|(cs & s & I & J & P)]; trivial.
    + intros cs [<-|[<-|[]]] c [<-|[]]; right; [exists "A"%string, a; exact (conj eq_refl PA)|exists "B"%string, b; exact (conj eq_refl PB)].
    + rewrite E in D. assert (Ea : Some a = theA) by now symmetry. assert (Eb : Some b = theB) by now symmetry.
      vm_compute in Ea, Eb. injection Ea as ->. injection Eb as ->. vm_compute in D. discriminate D.
    + rewrite E in P. destruct I as [<-|[<-|[]]]; destruct J as [J|[]]; injection J as <-; [rewrite PA in P|rewrite PB in P]; injection P as P;
      assert (Ea : Some a = theA) by (now symmetry); assert (Eb : Some b = theB) by (now symmetry);
      vm_compute in Ea, Eb; injection Ea as ->; injection Eb as ->; vm_compute in P; discriminate P.
Qed.
Print Assumptions C162_by_turns.
Print Assumptions C162_torn.
Print Assumptions C162_exact.
Print Assumptions C162_refuted.

(* concrete cases *)
Definition ruleA : pbrec := match theA with Some r => r | None => MkPB PNil None end.
Definition ruleB : pbrec := match theB with Some r => r | None => MkPB PNil None end.
Definition three : list (list qcall) :=
  [[QSet [PAStr "B"; PAOther]; QString]; [QSet [PAPerm (PSome true 1); PAPerm PNil; PAPerm (PSome true 2)]]; [QString; QString]].
Example C161_witness :
  let st := q_sched W0 (q_start ruleA three) [2; 2; 2; 2; 0; 2; 0; 1; 1; 2; 0; 0; 0; 0; 0; 0; 0] in
  pbr_valid (Some ruleA) = true /\ qrule st = MkPB (PSome true 1) (pb_b ruleB) /\
  map qtexts (qgos st) =
    [["allow(read) ssf >= ""128"";"%string]; []; ["allow(read,search) userdn = ""ldap:///anyone"";"%string]].
Proof. repeat apply conj; vm_compute; reflexivity. Qed.
(* one goroutine gives permissions, another bind rules *)
Definition idle (g : qgo) : bool := match qtodo g, qcur g with [], [] => true | _, _ => false end.
Definition out_of_call (g : qgo) : bool := match qcur g with [] => true | _ => false end.
Definition apart : list (list qcall) :=
  [[QSet [PAPerm (PSome true 1); PAPerm PNil; PAPerm (PSome true 2)]; QString; QSet [PAPerm (PSome false 4)]]; [QSet [PABind (BCRule (Some cB))]; QString]].
Example C161_sole_witness :
  let st := q_sched W0 (q_start ruleA apart) [0; 1; 0; 0; 1; 1; 0; 0; 0; 0; 0; 0; 0; 1; 1; 1; 1; 1; 1] in
  q_returned st /\ no_perm W0 [QSet [PABind (BCRule (Some cB))]; QString] /\
  pbr_sets W0 (Some ruleA) (sets_of [QSet [PAPerm (PSome true 1); PAPerm PNil; PAPerm (PSome true 2)]; QString; QSet [PAPerm (PSome false 4)]])
    = Some (Some (MkPB (PSome false 4) (pb_b ruleA))) /\
  qrule st = MkPB (PSome false 4) (Some (BCRule (Some cB))).
Proof.
  cbn zeta. split; [|split; [|split; vm_compute; reflexivity]].
  - set (st := q_sched W0 _ _). assert (G : map idle (qgos st) = [true; true]) by (vm_compute; reflexivity).
    intros g I. apply (in_map idle) in I. rewrite G in I. assert (J : idle g = true) by now destruct I as [<-|[<-|[]]].
    unfold idle in J. destruct (qtodo g), (qcur g); try discriminate J. now split.
  - intros xs x p [E|[E|[]]] I; [|discriminate E]. injection E as <-. destruct I as [<-|[]]. intros [E|(s & v & E & _)]; discriminate E.
Qed.
Example C162_by_turns_witness :
  let css := [[QSet [PAStr "B"]]; [QString]] in let q := [0; 0; 0; 1; 1; 1; 1; 1; 1] in
  q_turns W0 (q_start ruleA css) q /\ (forall cs, In cs css -> whole_calls W0 cs) /\
  map qtexts (qgos (q_sched W0 (q_start ruleA css) q)) = [[]; ["deny(write) ssf >= ""128"";"%string]].
Proof.
  cbn zeta. split; [|split; [|vm_compute; reflexivity]].
  - intros a b E i j gi gj Gi Ci Gj Cj.
    assert (B : forall n, n <= 9 -> map out_of_call (qgos (q_sched W0 (q_start ruleA [[QSet [PAStr "B"]]; [QString]]) (firstn n [0; 0; 0; 1; 1; 1; 1; 1; 1])))
      = [Nat.ltb n 1 || Nat.ltb 2 n; Nat.ltb n 4 || Nat.ltb 8 n]%bool).
    { intros n Ln. do 10 (destruct n as [|n]; [vm_compute; reflexivity|]). lia. }
    assert (P : forall n, n <= 9 -> firstn n [0; 0; 0; 1; 1; 1; 1; 1; 1] = a ->
      forall k g, nth_error (qgos (q_sched W0 (q_start ruleA [[QSet [PAStr "B"]]; [QString]]) a)) k = Some g -> qcur g <> [] -> k = if Nat.ltb n 3 then 0 else 1).
    { intros n Ln F k g G C. specialize (B n Ln). rewrite F in B. apply (map_nth_error out_of_call) in G. rewrite B in G.
      assert (Z : out_of_call g = false) by (unfold out_of_call; now destruct (qcur g)). rewrite Z in G.
      do 10 (destruct n as [|n]; [destruct k as [|[|[|k]]]; cbn in G; try discriminate G; reflexivity|]). lia. }
    assert (L : List.length a <= 9). { assert (X := f_equal (@List.length nat) E). rewrite app_length in X. cbn in X. lia. }
    assert (F : firstn (List.length a) [0; 0; 0; 1; 1; 1; 1; 1; 1] = a). { rewrite E, firstn_app, firstn_all, Nat.sub_diag. cbn. apply app_nil_r. }
    now rewrite (P _ L F i gi Gi Ci), (P _ L F j gj Gj Cj).
  - intros cs [<-|[<-|[]]] c [<-|[]]; [right; exists "B"%string, ruleB; split; [reflexivity|vm_compute; reflexivity]|now left].
Qed.
