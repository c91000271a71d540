(* C149, C150: what several goroutines that call Shift and Unshift on one permission lose,
   and what String shows meanwhile. *)
From Coq Require Import String List PeanoNat NArith ZArith Bool Lia.
From Verif Require Import GoStr Shifty MHeap MRights SRights PRights MWord SWord TWord.
Import ListNotations.
Open Scope list_scope.

(* the history of calls that an order of arguments stands for *)
Definition as_calls (h : list (nat * (bool * rarg))) : list perm_call :=
  map (fun p : nat * (bool * rarg) => if fst (snd p) then CShift [snd (snd p)] else CUnshift [snd (snd p)]) h.
Lemma as_calls_edits h : perm_edits (as_calls h) = map snd h.
Proof. induction h as [|[k [[] x]] h IH]; [reflexivity| |]; cbn; now rewrite <- IH. Qed.

Section C149.
Variable sh : shifty.
Hypothesis OK : shifty_ok sh.
Notation lib := (perm_lib sh).
Notation after := (perm_after sh).
Notation run := (word_run _ lib).

(* a list of arguments, one after the other *)
Lemma fold_bit es : forall v r (b : bool), (v < 65536)%N -> (forall e, In e es -> arg_covered (snd e)) ->
  (forall e : bool * rarg, In e es -> mentions (snd e) r = true -> fst e = b) ->
  (N.testbit v (right_pos r) = b \/ exists e, In e es /\ mentions (snd e) r = true) ->
  right_bit r b (fold_left (app1 _ lib) es v).
Proof.
  induction es as [|e es IH]; intros v r b L C M H.
  - destruct H as [H|(e & [] & _)]. now split.
  - cbn [fold_left]. assert (L' : (app1 _ lib v e < 65536)%N).
    { rewrite perm_app. destruct (fst e); [now apply shift1_lt|now apply unshift1_lt]. }
    assert (B : N.testbit (app1 _ lib v e) (right_pos r) = if mentions (snd e) r then fst e else N.testbit v (right_pos r)).
    { rewrite perm_app. assert (Ce : arg_covered (snd e)) by (apply C; now left).
      destruct (fst e); [rewrite shift1_bit by assumption|rewrite unshift1_bit by assumption]; destruct (mentions (snd e) r); reflexivity. }
    apply IH; [exact L'|intros; apply C; now right|intros; apply M; [now right|assumption]|].
    rewrite B. destruct (mentions (snd e) r) eqn:Me; [left; apply M; [now left|exact Me]|].
    destruct H as [H|(e' & [<-|I] & E')]; [now left|congruence|right; eauto].
Qed.
Lemma merges_in {E} (ess : list (list E)) h e : merges ess h -> (In e (map snd h) <-> exists es, In es ess /\ In e es).
Proof.
  intros [L M]. split.
  - intros I. apply in_map_iff in I as ([k e'] & <- & I). specialize (L k e' I). destruct (nth_error ess k) as [es|] eqn:Ek; [|apply nth_error_None in Ek; cbn in *; lia].
    exists es. split; [eapply nth_error_In; eauto|]. rewrite <- (M k es Ek). apply in_map_iff. exists (k, e'). split; [reflexivity|]. apply filter_In. split; [exact I|]. apply Nat.eqb_refl.
  - intros (es & I & J). apply In_nth_error in I as (k & Ek). rewrite <- (M k es Ek) in J. apply in_map_iff in J as (p & <- & J). apply filter_In in J as [J _]. now apply in_map.
Qed.
End C149.

(* Goroutines whose calls of the library do not overlap: the result is that of some order
   of all calls, one after the other, and nothing is lost. *)
Theorem C149_by_turns : forall sh, shifty_ok sh -> forall d v css q, (v < 65536)%N -> all_covered css ->
  in_turns (perm_lib sh) (perm_race v css) q -> done (word_run _ (perm_lib sh) (perm_race v css) q) ->
  (exists h, merges (map perm_edits css) h /\ perm_after sh d v css q = perm_run sh (PSome d v) (as_calls h)) /\
  nothing_lost (held sh (perm_after sh d v css q)) css.
Proof.
  intros sh OK d v css q L C T D. destruct (turns_merge _ _ _ _ _ T D) as (h & M & W).
  assert (E : perm_after sh d v css q = perm_run sh (PSome d v) (as_calls h)).
  { rewrite perm_run_edits, as_calls_edits. unfold perm_after. f_equal. exact W. }
  split; [exists h; now split|].
  assert (Cov : forall e, In e (map snd h) -> arg_covered (snd e)).
  { intros e I. apply (merges_in _ _ _ M) in I as (es & I & J). eapply covered_edit; eauto. }
  assert (G : forall r (b : bool), (exists cs, In cs css /\ (if b then gives_right cs r else takes_right cs r)) ->
     (forall cs, In cs css -> ~ (if b then takes_right cs r else gives_right cs r)) -> held sh (perm_after sh d v css q) r = b).
  { intros r b (cs & Ics & G) N. destruct (fold_bit sh OK (map snd h) v r b L Cov) as [K1 K2].
    - intros e I Me. apply (merges_in _ _ _ M) in I as (es & I & J). apply in_map_iff in I as (cs' & <- & I). apply perm_edits_in in J as (xs & J & K).
      specialize (N cs' I). destruct (fst e), b; try reflexivity; exfalso; apply N; exists xs, (snd e); auto.
    - right. assert (X : exists x, In (b, x) (perm_edits cs) /\ mentions x r = true).
      { destruct b; destruct G as (xs & x & G1 & G2 & G3); exists x; (split; [|exact G3]); apply perm_edits_in; exists xs; now split. }
      destruct X as (x & X1 & X2). exists (b, x). split; [|exact X2]. apply (merges_in _ _ _ M). exists (perm_edits cs). split; [now apply in_map|exact X1].
    - unfold perm_after. change (word_start _ v (map perm_edits css)) with (perm_race v css) in W. rewrite W. rewrite held_bit by assumption. exact K2. }
  intros r. split; [exact (G r true)|exact (G r false)].
Qed.
(* One goroutine. *)
Theorem C149_alone : forall sh d v cs q, done (word_run _ (perm_lib sh) (perm_race v [cs]) q) ->
  perm_after sh d v [cs] q = perm_run sh (PSome d v) cs.
Proof.
  intros sh d v cs q D. assert (T : in_turns (perm_lib sh) (perm_race v [cs]) q).
  { intros a b -> i j gi gj Gi _ Gj _. assert (Len : forall k g, nth_error (workers (word_run _ (perm_lib sh) (perm_race v [cs]) a)) k = Some g -> k = 0%nat).
    { intros k g Gk. assert (X : (k < List.length (workers (word_run _ (perm_lib sh) (perm_race v [cs]) a)))%nat) by (apply nth_error_Some; congruence).
      rewrite run_len in X. cbn in X. lia. }
    rewrite (Len _ _ Gi), (Len _ _ Gj). reflexivity. }
  destruct (turns_merge _ _ _ _ _ T D) as (h & [M1 M2] & W).
  rewrite perm_run_edits. unfold perm_after. f_equal. change (word_start _ v (map perm_edits [cs])) with (perm_race v [cs]) in W. rewrite W. f_equal.
  rewrite <- (M2 0%nat (perm_edits cs) eq_refl). f_equal. clear -M1. induction h as [|[k e] h IH]; [reflexivity|].
  assert (k = 0%nat) by (specialize (M1 k e (or_introl eq_refl)); cbn in M1; lia). subst k. cbn [filter fst Nat.eqb]. f_equal. apply IH.
  intros k e' I. apply (M1 k e'). now right.
Qed.
(* From a moment on at which no call of the library is under way, a right that no call
   still takes stays, and one that no call still gives does not appear. *)
Theorem C149_settled : forall sh, shifty_ok sh -> forall d v css q1 q2 r (b : bool), (v < 65536)%N -> all_covered css ->
  let st := word_run _ (perm_lib sh) (perm_race v css) q1 in
  quiet st -> (forall g x, In g (workers st) -> In (negb b, x) (edits g) -> mentions x r = false) ->
  held sh (perm_after sh d v css q1) r = b -> held sh (perm_after sh d v css (q1 ++ q2)) r = b.
Proof.
  intros sh OK d v css q1 q2 r b L C st Q N H.
  assert (Lt : forall q, (word (word_run _ (perm_lib sh) (perm_race v css) q) < 65536)%N).
  { intros q. apply (start_keeps _ (perm_lib sh) (fun u => (u < 65536)%N) (fun _ => True)); [|exact L|auto].
    intros e u _ Lu. rewrite perm_app. destruct (fst e); [now apply shift1_lt|now apply unshift1_lt]. }
  assert (Cov : forall g e, In g (workers st) -> upcoming _ g e -> arg_covered (snd e)).
  { unfold st. clear -C. induction q1 as [|i q IH] using rev_ind.
    - intros g e I U. cbn in I. apply in_map_iff in I as (es & <- & I). destruct U as [U|(u & U)]; [|discriminate]. eapply covered_edit; eauto.
    - rewrite run_snoc. apply (step_keeps _ _ (fun _ => True) (fun e => arg_covered (snd e))); [auto|split; auto|exact IH]. }
  assert (K : right_bit r b (word (word_run _ (perm_lib sh) st q2))).
  { apply (run_keeps _ _ (right_bit r b) (fun e => arg_covered (snd e) /\ (mentions (snd e) r = true -> fst e = b))).
    - intros e u [C1 C2]. now apply perm_keeps.
    - split; [split; [apply Lt|]|].
      + unfold perm_after in H. rewrite held_bit in H by (assumption || apply Lt). exact H.
      + intros g u e I W. rewrite (Q g I) in W. discriminate.
    - intros g e I U. split; [eapply Cov; eauto|]. intros Me. destruct U as [U|(u & U)]; [|rewrite (Q g I) in U; discriminate].
      destruct (Bool.bool_dec (fst e) b) as [|Ne]; [assumption|]. exfalso. assert (X : fst e = negb b) by (destruct (fst e) eqn:Ef, b; cbn; congruence).
      rewrite (N g (snd e) I) in Me; [discriminate|]. rewrite <- X. now destruct e. }
  unfold perm_after. rewrite run_app. fold st. destruct K as [K1 K2]. now rewrite held_bit.
Qed.
(* Goroutines that give one argument each: some of the rights given are lost, but not all;
   any choice of calls, at least one, can be what is left. *)
Theorem C149_exact : forall sh, shifty_ok sh -> forall d v xs, (v < 65536)%N -> xs <> [] ->
  (forall x, In x xs -> arg_covered x /\ exists r, mentions x r = true) ->
  let css := map (fun x => [CShift [x]]) xs in
  let left_over S q := done (word_run _ (perm_lib sh) (perm_race v css) q) /\
    forall r, held sh (perm_after sh d v css q) r = (held sh (PSome d v) r || existsb (fun x => mentions x r) S)%bool in
  (forall q, done (word_run _ (perm_lib sh) (perm_race v css) q) -> exists S, S <> [] /\ incl S xs /\ left_over S q) /\
  (forall ks S, S <> [] -> NoDup ks -> Forall2 (fun k x => nth_error xs k = Some x) ks S -> exists q, left_over S q).
Proof.
  intros sh OK d v xs L Ne Cx css left_over.
  assert (Ess : map perm_edits css = map (fun e => [e]) (map (pair true) xs)) by (unfold css; rewrite !map_map; reflexivity).
  assert (Lib : forall e, In e (map (pair true) xs) -> perm_lib sh e <> None).
  { intros e I. apply in_map_iff in I as (x & <- & I). destruct (Cx x I) as (_ & r & M). rewrite mentions_num in M. unfold perm_lib. cbn [fst snd].
    destruct x as [z|n|s|]; cbn [arg_num] in M; try discriminate. destruct (rightsNames (lc s)); discriminate. }
  split.
  - intros q D. pose proof D as D0. unfold perm_race in D. rewrite Ess in D.
    pose (Q := fun w => (w < 65536)%N /\ exists S, S <> [] /\ incl S xs /\ forall r, N.testbit w (right_pos r) = (N.testbit v (right_pos r) || existsb (fun x => mentions x r) S)%bool).
    pose (P := fun w => (w < 65536)%N /\ exists S, incl S xs /\ forall r, N.testbit w (right_pos r) = (N.testbit v (right_pos r) || existsb (fun x => mentions x r) S)%bool).
    assert (R : Q (word (word_run _ (perm_lib sh) (word_start _ v (map (fun e => [e]) (map (pair true) xs))) q))).
    { apply (once_left _ _ P Q); [|split; [exact L|exists []; split; [intros x []|intros r; cbn; now rewrite orb_false_r]]|now destruct xs|exact Lib|exact D].
      intros e u I (Lu & S & I1 & I2). apply in_map_iff in I as (x & <- & I). destruct (Cx x I) as [Co _]. rewrite perm_app. cbn [fst snd].
      assert (G : Q (shift1 sh u x)).
      { split; [now apply shift1_lt|]. exists (x :: S). split; [discriminate|]. split; [intros y [<-|Y]; [exact I|now apply I1]|].
        intros r. rewrite shift1_bit by assumption. cbn [existsb]. rewrite I2. now destruct (N.testbit v (right_pos r)), (mentions x r). }
      split; [|exact G]. destruct G as (G1 & S' & _ & G2). now split; [|exists S']. }
    destruct R as (Lw & S & S1 & S2 & S3). exists S. split; [exact S1|]. split; [exact S2|]. split; [exact D0|].
    intros r. unfold perm_after, perm_race. rewrite Ess, !held_bit by assumption. apply S3.
  - intros ks S NS ND F. destruct ks as [|k0 ks]; [inversion F; subst; now destruct NS|].
    destruct (reach _ (perm_lib sh) (map (pair true) xs) v k0 ks (map (pair true) S) Lib ND) as (q & D & W).
    { clear -F. revert F. generalize (k0 :: ks). induction 1; constructor; [|assumption]. now rewrite nth_error_map, H. }
    exists q. unfold left_over. unfold perm_after, perm_race. rewrite Ess. split; [exact D|]. intros r. rewrite W.
    assert (CS : forall x, In x S -> arg_covered x).
    { intros x I. assert (In x xs); [|now apply Cx]. clear -F I. induction F as [|k y l S H F IH]; [destruct I|]. destruct I as [<-|I]; [eapply nth_error_In; eauto|now apply IH]. }
    assert (X : fold_left (app1 _ (perm_lib sh)) (map (pair true) S) v = shift_bits sh v S).
    { unfold shift_bits. clear. revert v. induction S as [|x S IH]; intros v; [reflexivity|]. cbn [map fold_left]. rewrite perm_app. apply IH. }
    rewrite X. rewrite !held_bit by (try assumption; now apply shift_bits_lt). rewrite shift_bits_bit by assumption. apply orb_comm.
Qed.
(* The claim itself is false: a right given is lost; a right taken is there again. *)
Theorem C149_refuted :
  ~ (forall sh, shifty_ok sh -> forall d v css q, (v < 65536)%N -> all_covered css ->
      done (word_run _ (perm_lib sh) (perm_race v css) q) -> nothing_lost (held sh (perm_after sh d v css q)) css) /\
  (let css := [[CShift [ARight ReadAccess]]; [CShift [ARight WriteAccess]]] in
   perm_string shifty_ref (perm_after shifty_ref true 0 css [0; 1; 0; 1]) = "allow(write)"%string) /\
  (let css := [[CUnshift [ARight WriteAccess]]; [CShift [ARight ReadAccess]]] in
   perm_string shifty_ref (perm_after shifty_ref true WriteAccess css [1; 0; 0; 1]) = "allow(read,write)"%string).
Proof.
  split; [|split; reflexivity]. intros H.
  pose (css := [[CShift [ARight ReadAccess]]; [CShift [ARight WriteAccess]]]).
  assert (C : all_covered css).
  { intros cs I c x J K. unfold css in I. cbn in I. destruct I as [<-|[<-|[]]]; destruct J as [<-|[]]; destruct K as [<-|[]]; split; reflexivity. }
  destruct (H shifty_ref shifty_ref_ok true 0%N css [0; 1; 0; 1] eq_refl C) with (r := Read) as [G _].
  - intros g [<-|[<-|[]]]; split; reflexivity.
  - assert (X : held shifty_ref (perm_after shifty_ref true 0 css [0; 1; 0; 1]) Read = false) by reflexivity. rewrite G in X; [discriminate| |].
    + exists [CShift [ARight ReadAccess]]. split; [now left|]. exists [ARight ReadAccess], (ARight ReadAccess). repeat split; now left.
    + intros cs I (xs & x & J & _). unfold css in I. cbn in I. destruct I as [<-|[<-|[]]]; destruct J as [J|[]]; discriminate.
Qed.
Print Assumptions C149_by_turns.
Print Assumptions C149_alone.
Print Assumptions C149_settled.
Print Assumptions C149_exact.
Print Assumptions C149_refuted.
(* Shift(Read) and Shift(Write), first the one, then the other: both are there. *)
Example C149_witness :
  let css := [[CShift [ARight ReadAccess]]; [CShift [ARight WriteAccess]]] in
  all_covered css /\ in_turns (perm_lib shifty_ref) (perm_race 0 css) [1; 1; 0; 0]%nat /\
  done (word_run _ (perm_lib shifty_ref) (perm_race 0 css) [1; 1; 0; 0]%nat) /\
  quiet (word_run _ (perm_lib shifty_ref) (perm_race 0 css) [1; 1]%nat) /\
  perm_string shifty_ref (perm_after shifty_ref true 0 css [1; 1; 0; 0]%nat) = "allow(read,write)"%string /\
  perm_string shifty_ref (perm_after shifty_ref true 0 css [1; 0; 1; 0]%nat) = "allow(read)"%string.
Proof.
  cbn [In]. split; [|split; [|split; [|split; [|split; reflexivity]]]].
  - intros cs I c x J K. cbn in I. destruct I as [<-|[<-|[]]]; destruct J as [<-|[]]; destruct K as [<-|[]]; split; reflexivity.
  - intros a b E i j gi gj Gi Wi Gj Wj.
    destruct a as [|? [|? [|? [|? [|? a]]]]]; cbn in E; inversion E; subst;
      destruct i as [|[|i]]; destruct j as [|[|j]]; try reflexivity; cbn in Gi, Gj; try destruct i; try destruct j; try discriminate;
      injection Gi as <-; injection Gj as <-; cbn in Wi, Wj; congruence.
  - intros g [<-|[<-|[]]]; split; reflexivity.
  - intros g [<-|[<-|[]]]; reflexivity.
Qed.
