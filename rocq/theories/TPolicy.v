(* C144: goroutines that print one attribute filter operation. *)
From Coq Require Import String List PeanoNat Bool Lia Arith.
From Verif Require Import GoStr MFilter MHeap MPolicy SPolicy.
Import ListNotations.
Open Scope string_scope.

Lemma wr_mid {A} (l1 : list A) g g' l2 : wr (l1 ++ g :: l2)%list (List.length l1) g' = (l1 ++ g' :: l2)%list.
Proof. induction l1 as [|a l1 IH]; [reflexivity|]. cbn. now rewrite IH. Qed.

Section Op.
Variable o : afo.
Notation word := (aop_string (afo_op o) ++ "=").
Notation texte k := (times k word (plain o)).
Lemma str_app a b c : ((a ++ b) ++ c = a ++ (b ++ c))%string.
Proof. induction a as [|x a IH]; [reflexivity|]. cbn. now rewrite IH. Qed.
Lemma wrapped_times k : wrapped o (texte k) = texte (S k).
Proof. unfold wrapped. cbn [times]. now rewrite str_app. Qed.
Lemma text_one : texte 1 = afo_string o.
Proof. cbn [times]. now rewrite str_app. Qed.

Fixpoint sum (f : goroutine -> nat) (l : list goroutine) : nat := match l with [] => 0 | g :: t => f g + sum f t end.
Lemma sum_app f a b : sum f (a ++ b)%list = sum f a + sum f b.
Proof. induction a as [|g a IH]; [reflexivity|]. cbn. rewrite IH. lia. Qed.
Definition pend g := match whereat g with Restoring d _ => S d | _ => 0 end.
Definition unw g := List.length (got g) + match whereat g with Restoring _ _ => 1 | _ => 0 end.
Definition tot g := todo g + List.length (got g) + match whereat g with Outside => 0 | _ => 1 end.
Definition okg (p : bool) (R U : nat) (g : goroutine) : Prop :=
  match whereat g with
  | Outside => True
  | Clearing d => d <= R
  | Reading d => d <= R /\ (p = true -> S d <= R)
  | Restoring d s => exists j, s = texte j /\ 1 <= j /\ 2 * (j + d) <= 2 ^ U
  end /\ Forall (fun s => exists j, s = texte j /\ 1 <= j /\ 2 * j <= 2 ^ U) (got g).
Definition inv (n : nat) (st : pstate) : Prop :=
  exists R, R + sum pend (snd st) + 1 <= 2 ^ sum unw (snd st) /\ sum tot (snd st) = n /\
            Forall (okg (fst st) R (sum unw (snd st))) (snd st).

Lemma okg_more p p' R R' U U' g : okg p R U g -> R <= R' -> U <= U' -> (p' = true -> p = true \/ S R <= R') -> okg p' R' U' g.
Proof.
  intros [A B] HR HU HP. assert (E : 2 ^ U <= 2 ^ U') by (apply Nat.pow_le_mono_r; lia). split.
  - destruct (whereat g) as [|d|d|d s]; [exact I|lia| |].
    + destruct A as [A1 A2]. split; [lia|]. intros P. destruct (HP P) as [Q|Q]; [specialize (A2 Q); lia|lia].
    + destruct A as (j & -> & J & K). exists j. repeat split; lia.
  - eapply Forall_impl; [|exact B]. intros s (j & -> & J & K). exists j. repeat split; lia.
Qed.
Lemma okg_all p p' R R' U U' l : Forall (okg p R U) l -> R <= R' -> U <= U' -> (p' = true -> p = true \/ S R <= R') -> Forall (okg p' R' U') l.
Proof. intros A B C D. eapply Forall_impl; [|exact A]. intros g G. eapply okg_more; eassumption. Qed.

Lemma step_inv n st i : inv n st -> inv n (go_step o st i).
Proof.
  intros (R & A & B & C). unfold go_step. destruct (nth_error (snd st) i) as [g|] eqn:E; [|now exists R].
  destruct st as [p gs]. cbn [fst snd] in *. apply nth_error_split in E. destruct E as (l1 & l2 & -> & <-).
  rewrite (sum_app pend), (sum_app unw) in A. rewrite (sum_app tot) in B. rewrite (sum_app unw) in C. cbn [sum] in A, B, C. apply Forall_app in C. destruct C as [C1 C2]. apply Forall_cons_iff in C2. destruct C2 as [Cg C2].
  destruct (go1 o p g) as [p' g'] eqn:G. rewrite wr_mid. unfold inv. cbn [fst snd]. rewrite (sum_app pend), (sum_app unw), (sum_app tot). cbn [sum].
  unfold go1 in G. destruct Cg as [Cw Cr]. destruct g as [td w gt]. cbn [whereat todo got] in *. unfold pend, unw, tot in *. cbn [whereat todo got] in *.
  set (s1 := sum (fun g => List.length (got g) + match whereat g with Restoring _ _ => 1 | _ => 0 end) l1) in *.
  set (s2 := sum (fun g => List.length (got g) + match whereat g with Restoring _ _ => 1 | _ => 0 end) l2) in *.
  destruct w as [|d|d|d s].
  - destruct td as [|td]; injection G as <- <-; cbn [whereat todo got]; exists R; (split; [lia|split; [lia|]]); apply Forall_app; (split; [exact C1|]);
      (constructor; [split; [cbn; try exact I; lia|exact Cr]|exact C2]).
  - injection G as <- <-. cbn [whereat todo got]. exists R. split; [lia|split; [lia|]]. apply Forall_app.
    split; [eapply okg_all; [exact C1|lia|lia|discriminate]|]. constructor; [|eapply okg_all; [exact C2|lia|lia|discriminate]].
    split; [cbn; split; [lia|discriminate]|exact Cr].
  - destruct Cw as [Cw1 Cw2]. destruct p; injection G as <- <-; cbn [whereat todo got].
    + exists R. split; [lia|split; [lia|]]. apply Forall_app. split; [exact C1|]. constructor; [|exact C2]. split; [cbn; now apply Cw2|exact Cr].
    + exists R. assert (PW : 2 ^ (s1 + (List.length gt + 1 + s2)) = 2 * 2 ^ (s1 + (List.length gt + 0 + s2)))
        by (replace (s1 + (List.length gt + 1 + s2)) with (S (s1 + (List.length gt + 0 + s2))) by lia; reflexivity).
      split; [rewrite PW; lia|split; [lia|]]. apply Forall_app. split; [eapply okg_all; [exact C1|lia|lia|discriminate]|].
      constructor; [|eapply okg_all; [exact C2|lia|lia|discriminate]]. split.
      * cbn [whereat]. exists 1. split; [exact (wrapped_times 0)|]. split; [lia|]. rewrite PW. lia.
      * cbn [got]. eapply Forall_impl; [|exact Cr]. intros s (j & -> & J & K). exists j. rewrite PW. repeat split; lia.
  - destruct Cw as (j & -> & J & K). destruct d as [|d]; injection G as <- <-; cbn [whereat todo got].
    + exists (S R). rewrite app_length. cbn [List.length]. split; [|split; [lia|]].
      * replace (s1 + (List.length gt + 1 + 0 + s2)) with (s1 + (List.length gt + 1 + s2)) by lia. lia.
      * replace (s1 + (List.length gt + 1 + 0 + s2)) with (s1 + (List.length gt + 1 + s2)) by lia. apply Forall_app.
        split; [eapply okg_all; [exact C1|lia|lia|intros _; right; lia]|]. constructor; [|eapply okg_all; [exact C2|lia|lia|intros _; right; lia]].
        split; [exact I|]. cbn [got]. apply Forall_app. split; [exact Cr|]. constructor; [|constructor]. exists j. repeat split; lia.
    + exists (S R). split; [lia|split; [lia|]]. apply Forall_app. split; [eapply okg_all; [exact C1|lia|lia|intros _; right; lia]|].
      constructor; [|eapply okg_all; [exact C2|lia|lia|intros _; right; lia]]. split; [|exact Cr].
      cbn [whereat]. exists (S j). split; [apply wrapped_times|]. split; [lia|]. lia.
Qed.
Lemma run_inv n q st : inv n st -> inv n (go_run o st q).
Proof. revert st. induction q as [|i q IH]; intros st A; [exact A|]. apply IH, step_inv, A. Qed.
Lemma start_inv ns : inv (list_sum ns) (go_start ns).
Proof.
  exists 0. unfold go_start. cbn [snd fst].
  assert (P : sum pend (map (fun n => MkGo n Outside []) ns) = 0) by (induction ns; cbn; auto).
  assert (U : sum unw (map (fun n => MkGo n Outside []) ns) = 0) by (induction ns; cbn; auto).
  assert (T : sum tot (map (fun n => MkGo n Outside []) ns) = list_sum ns) by (clear; induction ns as [|a ns IH]; [reflexivity|cbn [map sum]; rewrite IH; change (list_sum (a :: ns)) with (a + list_sum ns); unfold tot; cbn [todo got whereat List.length]; lia]).
  rewrite P, U, T. split; [cbn; auto|split; [reflexivity|]]. apply Forall_forall. intros g G. apply in_map_iff in G. destruct G as (n & <- & _). split; [exact I|constructor].
Qed.
Lemma unw_tot l : sum unw l <= sum tot l.
Proof. induction l as [|g l IH]; [cbn; lia|]. cbn. unfold unw at 1, tot at 1. destruct (whereat g); lia. Qed.
Lemma in_sum_unw g l s : In g l -> In s (got g) -> 1 <= sum unw l.
Proof.
  intros G S. induction l as [|h l IH]; [destruct G|]. cbn. destruct G as [->|G]; [|specialize (IH G); lia].
  unfold unw at 1. destruct (got g); [destruct S|]. cbn. lia.
Qed.

(* Under every schedule every text is the word add= (delete=) before the filters, at least
   once and at most 2^(n-1) times when the goroutines make n calls in all. *)
Theorem C144_exact : forall ns q s, In s (texts o ns q) ->
  exists k, 1 <= k <= 2 ^ (list_sum ns - 1) /\ s = times k (aop_string (afo_op o) ++ "=") (plain o).
Proof.
  intros ns q s IS. unfold texts in IS. apply in_flat_map in IS. destruct IS as (g & G & IS).
  destruct (run_inv _ q _ (start_inv ns)) as (R & _ & T & F). rewrite Forall_forall in F. destruct (F g G) as [_ W].
  rewrite Forall_forall in W. destruct (W s IS) as (j & Ej & J & K). exists j. split; [|exact Ej]. split; [exact J|].
  pose proof (unw_tot (snd (go_run o (go_start ns) q))) as UT. rewrite T in UT.
  assert (E : 2 ^ sum unw (snd (go_run o (go_start ns) q)) <= 2 ^ list_sum ns) by (apply Nat.pow_le_mono_r; lia).
  assert (N1 : 1 <= list_sum ns) by (pose proof (in_sum_unw g _ s G IS); lia).
  replace (list_sum ns) with (S (list_sum ns - 1)) in E by lia. cbn [Nat.pow] in E. lia.
Qed.

(* ---- one at a time ---- *)
Definition alone (st : pstate) : Prop :=
  Forall (fun g => Forall (eq (afo_string o)) (got g) /\
    match whereat g with Outside | Clearing 0 => True | Reading 0 => fst st = false | Restoring 0 s => s = afo_string o | _ => False end) (snd st).
Lemma alone_step st i : alone st ->
  (forall k g j h, nth_error (snd st) k = Some g -> whereat g <> Outside -> nth_error (snd st) j = Some h -> whereat h <> Outside -> k = j) ->
  (forall k g j h, nth_error (snd (go_step o st i)) k = Some g -> whereat g <> Outside -> nth_error (snd (go_step o st i)) j = Some h -> whereat h <> Outside -> k = j) ->
  alone (go_step o st i).
Proof.
  intros A T1 T2. unfold go_step in *. destruct (nth_error (snd st) i) as [g|] eqn:E; [|exact A].
  destruct st as [p gs]. unfold alone in *. cbn [fst snd] in *.
  pose proof (nth_error_split _ _ E) as (l1 & l2 & L & I). 
  assert (O1 : whereat g <> Outside -> Forall (fun h => whereat h = Outside) (l1 ++ l2)%list).
  { intros N. apply Forall_forall. intros h H. destruct (whereat h) eqn:W; [reflexivity| | |]; exfalso.
    all: apply In_nth_error in H; destruct H as (k & H).
    all: assert (X : exists j, nth_error gs j = Some h /\ j <> i) by
      (destruct (Nat.lt_ge_cases k i) as [Q|Q];
       [exists k; split; [rewrite L, nth_error_app1 by lia; rewrite nth_error_app1 in H by lia; exact H|lia]
       |exists (S k); split; [rewrite L, nth_error_app2 by lia; rewrite nth_error_app2 in H by lia; replace (S k - List.length l1) with (S (k - List.length l1)) by lia; exact H|lia]]).
    all: destruct X as (j & X & J); apply J; symmetry; eapply T1; [exact E|exact N|exact X|congruence]. }
  rewrite L, Forall_app, Forall_cons_iff in A. destruct A as (A1 & (Ag & Aw) & A2).
  destruct (go1 o p g) as [p' g'] eqn:G. subst gs i. rewrite wr_mid. cbn [fst snd]. rewrite Forall_app, Forall_cons_iff.
  unfold go1 in G. destruct g as [td w gt]. cbn [whereat todo got] in *.
  assert (Out : forall (l : list goroutine) (q q' : bool), Forall (fun h => whereat h = Outside) l ->
    Forall (fun g => Forall (eq (afo_string o)) (got g) /\ match whereat g with Outside | Clearing 0 => True | Reading 0 => q = false | Restoring 0 s => s = afo_string o | _ => False end) l ->
    Forall (fun g => Forall (eq (afo_string o)) (got g) /\ match whereat g with Outside | Clearing 0 => True | Reading 0 => q' = false | Restoring 0 s => s = afo_string o | _ => False end) l).
  { intros l q q' W F. rewrite Forall_forall in *. intros h H. rewrite (W h H). split; [|exact I]. apply (F h H). }
  destruct w as [|[|d]|[|d]|[|d] s]; try (destruct Aw; fail).
  - destruct td as [|td]; injection G as <- <-; cbn [fst snd]; (split; [exact A1|split; [split; [exact Ag|exact I]|exact A2]]).
  - injection G as <- <-. cbn [fst snd]. specialize (O1 ltac:(discriminate)). apply Forall_app in O1. destruct O1 as [P1 P2].
    split; [eapply Out; [exact P1|exact A1]|split; [split; [exact Ag|reflexivity]|eapply Out; [exact P2|exact A2]]].
  - subst p. injection G as <- <-. cbn [fst snd]. split; [exact A1|split; [split; [exact Ag|]|exact A2]]. cbn [whereat]. reflexivity.
  - subst s. injection G as <- <-. cbn [fst snd]. specialize (O1 ltac:(discriminate)). apply Forall_app in O1. destruct O1 as [P1 P2].
    split; [eapply Out; [exact P1|exact A1]|split; [|eapply Out; [exact P2|exact A2]]]. split; [|exact I]. cbn [got]. apply Forall_app. split; [exact Ag|now constructor].
Qed.
(* Goroutines that take turns get the text of the operation, every time. *)
Theorem C144_in_turn : forall ns q, in_turn o ns q -> forall s, In s (texts o ns q) -> s = afo_string o.
Proof.
  intros ns q H. assert (A : alone (go_run o (go_start ns) q)).
  { revert H. induction q as [|i q IH] using rev_ind; intros H.
    - apply Forall_forall. intros g G. apply in_map_iff in G. destruct G as (n & <- & _). split; [constructor|exact I].
    - unfold go_run. rewrite fold_left_app. cbn [fold_left]. change (fold_left (go_step o) q (go_start ns)) with (go_run o (go_start ns) q).
      apply alone_step.
      + apply IH. intros a b E. subst q. apply (H a (b ++ [i])%list). now rewrite app_assoc.
      + intros k g j h. apply (H q [i] eq_refl).
      + intros k g j h. pose proof (H (q ++ [i])%list []) as X. rewrite app_nil_r in X. specialize (X eq_refl k j g h).
        unfold go_run in X. rewrite fold_left_app in X. cbn [fold_left] in X. intros; now apply X. }
  intros s S. unfold texts in S. apply in_flat_map in S. destruct S as (g & G & S). unfold alone in A. rewrite Forall_forall in A.
  destruct (A g G) as [F _]. rewrite Forall_forall in F. symmetry. now apply F.
Qed.

(* ---- the bound is reached ---- *)
(* the goroutines, from the last to run: all inside, none has its text yet *)
Definition waiting (d m : nat) : list goroutine := repeat (MkGo 0 (Reading d) []) m.
Lemma run_app st a b : go_run o st (a ++ b) = go_run o (go_run o st a) b.
Proof. apply fold_left_app. Qed.
Lemma step_at p l1 g l2 : go_step o (p, (l1 ++ g :: l2)%list) (List.length l1) = let '(p', g') := go1 o p g in (p', (l1 ++ g' :: l2)%list).
Proof.
  unfold go_step. cbn [fst snd]. rewrite nth_error_app2, Nat.sub_diag by lia. cbn [nth_error]. destruct (go1 o p g) as [p' g']. now rewrite wr_mid.
Qed.
(* all waiting goroutines read the policy and begin a nested call *)
Lemma nest_all m : forall pre d, exists q, go_run o (true, (pre ++ waiting d m)%list) q = (true, (pre ++ repeat (MkGo 0 (Clearing (S d)) []) m)%list).
Proof.
  induction m as [|m IH]; intros pre d; [exists []; reflexivity|].
  destruct (IH (pre ++ [MkGo 0 (Clearing (S d)) []])%list d) as (q & Q). exists (List.length pre :: q). cbn [waiting repeat]. 
  change (go_run o (true, (pre ++ MkGo 0 (Reading d) [] :: repeat (MkGo 0 (Reading d) []) m)%list) (List.length pre :: q))
    with (go_run o (go_step o (true, (pre ++ MkGo 0 (Reading d) [] :: repeat (MkGo 0 (Reading d) []) m)%list) (List.length pre)) q).
  rewrite step_at. cbn. rewrite <- !app_assoc in Q. cbn [app] in Q. unfold waiting in Q. exact Q.
Qed.
Lemma clear_all m : forall p pre d, exists q, go_run o (p, (pre ++ repeat (MkGo 0 (Clearing d) []) m)%list) q = (match m with O => p | _ => false end, (pre ++ waiting d m)%list).
Proof.
  induction m as [|m IH]; intros p pre d; [exists []; reflexivity|].
  destruct (IH false (pre ++ [MkGo 0 (Reading d) []])%list d) as (q & Q). exists (List.length pre :: q). cbn [repeat].
  change (go_run o (p, (pre ++ MkGo 0 (Clearing d) [] :: repeat (MkGo 0 (Clearing d) []) m)%list) (List.length pre :: q))
    with (go_run o (go_step o (p, (pre ++ MkGo 0 (Clearing d) [] :: repeat (MkGo 0 (Clearing d) []) m)%list) (List.length pre)) q).
  rewrite step_at. cbn. rewrite <- !app_assoc in Q. cbn [app] in Q. rewrite Q. f_equal. now destruct m.
Qed.
(* one goroutine returns from d + 1 nested calls; the others nest that often *)
Lemma unwind m : forall d e j pre, exists q p,
  go_run o (false, (pre ++ MkGo 0 (Restoring d (texte j)) [] :: waiting e m)%list) q =
  (p, (pre ++ MkGo 0 Outside [texte (j + d)] :: waiting (e + S d) m)%list) /\ (m <> 0 -> p = false).
Proof.
  induction d as [|d IH]; intros e j pre.
  - destruct (nest_all m (pre ++ [MkGo 0 Outside [texte j]])%list e) as (q1 & Q1). destruct (clear_all m true (pre ++ [MkGo 0 Outside [texte j]])%list (S e)) as (q2 & Q2).
    exists ([List.length pre] ++ q1 ++ q2)%list. rewrite !run_app. cbn [go_run fold_left]. rewrite step_at. cbn [go1 whereat todo got app].
    rewrite <- !app_assoc in Q1, Q2. cbn [app] in Q1, Q2. rewrite Q1, Q2. replace (e + 1) with (S e) by lia. replace (j + 0) with j by lia.
    eexists. split; [reflexivity|]. intros N. now destruct m.
  - destruct (nest_all m (pre ++ [MkGo 0 (Restoring d (texte (S j))) []])%list e) as (q1 & Q1).
    destruct (clear_all m true (pre ++ [MkGo 0 (Restoring d (texte (S j))) []])%list (S e)) as (q2 & Q2).
    destruct m as [|m].
    + assert (X : forall d j p pre, exists q, go_run o (p, (pre ++ [MkGo 0 (Restoring d (texte j)) []])%list) q = (true, (pre ++ [MkGo 0 Outside [texte (j + d)]])%list)).
      { clear. induction d as [|d IH]; intros j p pre.
        - exists [List.length pre]. cbn [go_run fold_left]. rewrite step_at. cbn [go1 whereat todo got app]. now replace (j + 0) with j by lia.
        - destruct (IH (S j) true pre) as (q & Q). exists (List.length pre :: q).
          change (go_run o (p, (pre ++ [MkGo 0 (Restoring (S d) (texte j)) []])%list) (List.length pre :: q))
            with (go_run o (go_step o (p, (pre ++ [MkGo 0 (Restoring (S d) (texte j)) []])%list) (List.length pre)) q).
          rewrite step_at. cbn [go1 whereat todo got]. rewrite wrapped_times, Q. now replace (S j + d) with (j + S d) by lia. }
      destruct (X (S d) j false pre) as (q & Q). exists q, true. split; [exact Q|congruence].
    + destruct (IH (S e) (S j) pre) as (q3 & p & Q3 & P). exists ([List.length pre] ++ q1 ++ q2 ++ q3)%list, p. split; [|exact P]. rewrite !run_app. cbn [go_run fold_left].
      rewrite step_at. cbn [go1 whereat todo got]. rewrite wrapped_times. rewrite <- !app_assoc in Q1, Q2. cbn [app] in Q1, Q2. rewrite Q1, Q2.
      rewrite Q3. replace (S j + d) with (j + S d) by lia. now replace (S e + S d) with (e + S (S d)) by lia.
Qed.
Lemma reach m : forall e pre, exists q p pre', List.length pre' = List.length pre + m /\
  go_run o (false, (pre ++ waiting e (S m))%list) q = (p, (pre' ++ [MkGo 0 Outside [texte (2 ^ m * (e + 1))]])%list).
Proof.
  induction m as [|m IH]; intros e pre.
  - destruct (unwind 0 e e 1 pre) as (q & p & Q & _). exists (List.length pre :: q), p, pre. split; [lia|].
    cbn [waiting repeat]. change (go_run o (false, (pre ++ [MkGo 0 (Reading e) []])%list) (List.length pre :: q))
      with (go_run o (go_step o (false, (pre ++ [MkGo 0 (Reading e) []])%list) (List.length pre)) q).
    rewrite step_at. cbn [go1 whereat todo got]. change (plain o) with (texte 0). rewrite wrapped_times. cbn [waiting repeat] in Q. rewrite Q.
    cbn [Nat.pow]. now replace (1 * (e + 1)) with (1 + e) by lia.
  - destruct (unwind (S m) e e 1 pre) as (q1 & p1 & Q1 & P1). specialize (P1 ltac:(lia)). subst p1.
    destruct (IH (e + S e) (pre ++ [MkGo 0 Outside [texte (1 + e)]])%list) as (q2 & p2 & pre' & L & Q2).
    exists (List.length pre :: q1 ++ q2)%list, p2, pre'. split; [rewrite L, app_length; cbn; lia|].
    change (waiting e (S (S m))) with (MkGo 0 (Reading e) [] :: waiting e (S m)).
    change (go_run o (false, (pre ++ MkGo 0 (Reading e) [] :: waiting e (S m))%list) (List.length pre :: q1 ++ q2))
      with (go_run o (go_step o (false, (pre ++ MkGo 0 (Reading e) [] :: waiting e (S m))%list) (List.length pre)) (q1 ++ q2)).
    rewrite step_at. cbn [go1 whereat todo got]. rewrite run_app. change (plain o) with (texte 0). rewrite wrapped_times. rewrite Q1.
    rewrite <- app_assoc in Q2. cbn [app] in Q2. rewrite Q2.
    replace (2 ^ S m * (e + 1)) with (2 ^ m * (e + S e + 1)) by (rewrite Nat.pow_succ_r'; ring). reflexivity.
Qed.
Lemma enter m : forall pre, exists q, go_run o (true, (pre ++ repeat (MkGo 1 Outside []) m)%list) q = (true, (pre ++ repeat (MkGo 0 (Clearing 0) []) m)%list).
Proof.
  induction m as [|m IH]; intros pre; [exists []; reflexivity|].
  destruct (IH (pre ++ [MkGo 0 (Clearing 0) []])%list) as (q & Q). exists (List.length pre :: q). cbn [repeat].
  change (go_run o (true, (pre ++ MkGo 1 Outside [] :: repeat (MkGo 1 Outside []) m)%list) (List.length pre :: q))
    with (go_run o (go_step o (true, (pre ++ MkGo 1 Outside [] :: repeat (MkGo 1 Outside []) m)%list) (List.length pre)) q).
  rewrite step_at. cbn. rewrite <- !app_assoc in Q. exact Q.
Qed.
Lemma start_repeat n : map (fun n => MkGo n Outside []) (repeat 1 n) = repeat (MkGo 1 Outside []) n.
Proof. induction n as [|n IH]; [reflexivity|]. cbn [repeat map]. now rewrite IH. Qed.
(* The bound is reached: n goroutines that call String once each can get the word
   2^(n-1) times. *)
Theorem C144_reached : forall n, 1 <= n ->
  exists q, In (times (2 ^ (n - 1)) (aop_string (afo_op o) ++ "=") (plain o)) (texts o (repeat 1 n) q).
Proof.
  intros n N. destruct n as [|m]; [lia|]. replace (S m - 1) with m by lia.
  destruct (enter (S m) []) as (q1 & Q1). destruct (clear_all (S m) true [] 0) as (q2 & Q2). destruct (reach m 0 []) as (q3 & p & pre & _ & Q3).
  exists (q1 ++ q2 ++ q3)%list. unfold texts. rewrite !run_app.
  assert (G : go_start (repeat 1 (S m)) = (true, repeat (MkGo 1 Outside []) (S m))) by (unfold go_start; now rewrite start_repeat).
  rewrite G. cbn [app] in Q1, Q2, Q3. rewrite Q1, Q2, Q3. cbn [snd]. rewrite flat_map_app. apply in_or_app. right. cbn [flat_map got app].
  left. now replace (2 ^ m * (0 + 1)) with (2 ^ m) by lia.
Qed.
(* False: two goroutines, one call each; the other text is one that no operation prints
   with these filters. *)
Theorem C144_refuted :
  ~ (forall ns q s, In s (texts o ns q) -> s = afo_string o) /\
  (exists q, texts o [1; 1] q = [afo_string o; aop_string (afo_op o) ++ "=" ++ afo_string o]).
Proof.
  assert (W : texts o [1; 1] [0; 1; 0; 1; 0; 0; 1; 1; 1; 1; 1; 1] = [afo_string o; aop_string (afo_op o) ++ "=" ++ afo_string o]) by reflexivity.
  split; [|now eexists; exact W]. intros H.
  assert (E : aop_string (afo_op o) ++ "=" ++ afo_string o = afo_string o) by (apply (H [1; 1] [0; 1; 0; 1; 0; 0; 1; 1; 1; 1; 1; 1]); rewrite W; right; now left).
  apply (f_equal String.length) in E. clear -E. assert (L : forall a b, String.length (a ++ b) = String.length a + String.length b)
    by (induction a as [|c a IH]; intros b; [reflexivity|cbn; now rewrite IH]). rewrite !L in E. cbn in E. lia.
Qed.
(* ---- every call returns ---- *)
Lemma len_app a b : String.length (a ++ b) = String.length a + String.length b.
Proof. induction a as [|c a IH]; [reflexivity|cbn; now rewrite IH]. Qed.
Lemma len_times k : String.length (texte k) = k * String.length word + String.length (plain o).
Proof. induction k as [|k IH]; [reflexivity|]. cbn [times]. rewrite len_app, IH. lia. Qed.
Lemma texte_inj j k : texte j = texte k -> j = k.
Proof.
  intros E. apply (f_equal String.length) in E. rewrite !len_times in E. assert (W : 1 <= String.length word) by (rewrite len_app; cbn; lia).
  revert E W. generalize (String.length word) (String.length (plain o)). intros w p E W. nia.
Qed.
Lemma unw_tot1 g l : In g l -> match whereat g with Clearing _ | Reading _ => True | _ => False end -> sum unw l + 1 <= sum tot l.
Proof.
  intros G W. induction l as [|h l IH]; [destruct G|]. cbn [sum]. destruct G as [->|G].
  - pose proof (unw_tot l). unfold unw at 1, tot at 1. destruct (whereat g); try destruct W; lia.
  - specialize (IH G). unfold unw at 1, tot at 1. destruct (whereat h); lia.
Qed.
Definition most (n : nat) : nat := 3 * 2 ^ (n - 1) + 1.
(* statements of the call under way *)
Definition spent (g : goroutine) (c : nat) : Prop :=
  match whereat g with
  | Outside => c = 0
  | Clearing d => c = 2 * d + 1
  | Reading d => c = 2 * d + 2
  | Restoring d s => exists j, s = texte j /\ c = 2 * (j + d) + j
  end.
Lemma spent_le n st g c : inv n st -> In g (snd st) -> spent g c -> c < most n.
Proof.
  intros (R & A & T & F) G S. pose proof (unw_tot (snd st)) as UT. rewrite Forall_forall in F. destruct (F g G) as [W _]. unfold most, spent in *.
  pose proof (unw_tot1 g (snd st) G) as U1. rewrite T in *.
  destruct (whereat g) as [|d|d|d s].
  - lia.
  - specialize (U1 I). assert (E : 2 ^ sum unw (snd st) <= 2 ^ (n - 1)) by (apply Nat.pow_le_mono_r; lia). lia.
  - specialize (U1 I). assert (E : 2 ^ sum unw (snd st) <= 2 ^ (n - 1)) by (apply Nat.pow_le_mono_r; lia). lia.
  - destruct W as (j & -> & J & K). destruct S as (k & S & ->). apply texte_inj in S. subst k.
    assert (E : 2 ^ sum unw (snd st) <= 2 ^ n) by (apply Nat.pow_le_mono_r; lia).
    assert (N : 1 <= n). { destruct n; [|lia]. cbn in E. lia. }
    replace n with (S (n - 1)) in E by lia. rewrite Nat.pow_succ_r' in E. lia.
Qed.
Definition paid (n : nat) (ns : list nat) (q : list nat) (gs : list goroutine) : Prop :=
  List.length gs = List.length ns /\
  forall i g m, nth_error gs i = Some g -> nth_error ns i = Some m ->
    tot g = m /\ ((todo g = 0 /\ whereat g = Outside) \/ exists c, spent g c /\ count_occ Nat.eq_dec q i <= List.length (got g) * most n + c).
Lemma wr_len {A} (l : list A) i x : List.length (wr l i x) = List.length l.
Proof. revert i. induction l as [|a l IH]; intros [|i]; cbn; auto. Qed.
Lemma wr_same {A} (l : list A) i a x : nth_error l i = Some a -> nth_error (wr l i x) i = Some x.
Proof. revert i. induction l as [|b l IH]; intros [|i]; cbn; try discriminate; auto. Qed.
Lemma wr_other {A} (l : list A) i j x : i <> j -> nth_error (wr l i x) j = nth_error l j.
Proof. revert i j. induction l as [|a l IH]; intros [|i] [|j] N; cbn; try reflexivity; [congruence|]. apply IH. congruence. Qed.
Lemma paid_step n ns q st i : inv n st -> paid n ns q (snd st) -> paid n ns (q ++ [i]) (snd (go_step o st i)).
Proof.
  intros V (L & P). unfold go_step. destruct (nth_error (snd st) i) as [g|] eqn:E.
  - destruct (go1 o (fst st) g) as [p' g'] eqn:G. cbn [snd]. split; [now rewrite wr_len|]. intros k h m. rewrite count_occ_app. cbn [count_occ].
    destruct (Nat.eq_dec i k) as [<-|N].
    + rewrite (wr_same _ _ _ _ E). intros [= <-] M. destruct (P i g m E M) as (T & D). clear P.
      assert (B : forall c, spent g c -> c < most n) by (intros c; apply (spent_le n st); [exact V|eapply nth_error_In; exact E]).
      unfold go1 in G. destruct g as [td w gt]. unfold spent, tot in *. cbn [whereat todo got] in *.
      destruct w as [|d|d|d s].
      * destruct td as [|td]; injection G as <- <-; cbn [whereat todo got]; [split; [lia|]; now left|]. split; [lia|]. right.
        destruct D as [[D _]|(c & -> & D)]; [discriminate|]. exists 1. split; [reflexivity|lia].
      * injection G as <- <-; cbn [whereat todo got]. split; [lia|]. right. destruct D as [[_ D]|(c & -> & D)]; [discriminate|]. exists (2 * d + 2). split; [reflexivity|lia].
      * destruct D as [[_ D]|(c & -> & D)]; [discriminate|]. destruct (fst st); injection G as <- <-; cbn [whereat todo got]; (split; [lia|]); right.
        -- exists (2 * S d + 1). split; [reflexivity|lia].
        -- exists (2 * (1 + d) + 1). split; [exists 1; split; [exact (wrapped_times 0)|lia]|lia].
      * destruct D as [[_ D]|(c & (j & -> & ->) & D)]; [discriminate|]. specialize (B _ (ex_intro _ j (conj eq_refl eq_refl))).
        destruct d as [|d]; injection G as <- <-; cbn [whereat todo got].
        -- split; [rewrite app_length; cbn; lia|]. destruct td as [|td]; [now left|]. right. exists 0. split; [reflexivity|]. rewrite app_length. cbn [List.length].
           replace ((List.length gt + 1) * most n) with (List.length gt * most n + most n) by ring. lia.
        -- split; [lia|]. right. exists (2 * (S j + d) + S j). split; [exists (S j); split; [apply wrapped_times|reflexivity]|lia].
    + rewrite (wr_other _ _ _ _ N). intros H M. destruct (P k h m H M) as (T & D). split; [exact T|]. destruct D as [D|(c & S & D)]; [now left|]. right. exists c. split; [exact S|lia].
  - split; [exact L|]. intros k h m H M. rewrite count_occ_app. cbn [count_occ]. destruct (Nat.eq_dec i k) as [->|N]; [congruence|].
    destruct (P k h m H M) as (T & D). split; [exact T|]. destruct D as [D|(c & S & D)]; [now left|]. right. exists c. split; [exact S|lia].
Qed.
(* No schedule keeps a call for ever: with n calls in all, a goroutine that has m of them
   to make has all its m texts once it has moved m * (3 * 2^(n-1) + 1) times. *)
Theorem C144_returns : forall ns q i m, nth_error ns i = Some m ->
  m * (3 * 2 ^ (list_sum ns - 1) + 1) <= count_occ Nat.eq_dec q i ->
  exists g, nth_error (snd (go_run o (go_start ns) q)) i = Some g /\ List.length (got g) = m.
Proof.
  intros ns q i m M C. assert (V : paid (list_sum ns) ns q (snd (go_run o (go_start ns) q))).
  { clear C. induction q as [|k q IH] using rev_ind.
    - split; [apply map_length|]. intros k g n G N. cbn [go_run fold_left go_start snd] in G. rewrite nth_error_map, N in G. injection G as <-.
      split; [unfold tot; cbn; lia|]. right. exists 0. split; [reflexivity|cbn; lia].
    - rewrite run_app. cbn [go_run fold_left]. apply paid_step; [apply run_inv, start_inv|exact IH]. }
  destruct V as (L & P). destruct (nth_error (snd (go_run o (go_start ns) q)) i) as [g|] eqn:G.
  - exists g. split; [reflexivity|]. destruct (P i g m G M) as (T & [(Z & W)|(c & S & D)]).
    + unfold tot in T. rewrite Z, W in T. lia.
    + pose proof (spent_le _ _ g c (run_inv _ q _ (start_inv ns)) (nth_error_In _ _ G) S) as B. unfold most in *. unfold tot in T.
      destruct (Nat.lt_ge_cases (List.length (got g)) m) as [X|X]; [|lia]. exfalso.
      assert (Y : (List.length (got g) + 1) * (3 * 2 ^ (list_sum ns - 1) + 1) <= m * (3 * 2 ^ (list_sum ns - 1) + 1)) by (apply Nat.mul_le_mono_r; lia). lia.
  - apply nth_error_None in G. assert (X : i < List.length ns) by (apply nth_error_Some; congruence). lia.
Qed.
End Op.
Example C144_witness :
  let o := AFO [AOOp AddOp; AOStr "cn:(cn=a)"] in
  afo_string o = "add=cn:(cn=a)" /\ in_turn o [1; 1] [0; 0; 0; 0; 1; 1; 1; 1] /\
  texts o [1; 1] [0; 0; 0; 0; 1; 1; 1; 1] = ["add=cn:(cn=a)"; "add=cn:(cn=a)"] /\
  texts o [1; 1] [0; 1; 0; 1; 0; 0; 1; 1; 1; 1; 1; 1] = ["add=cn:(cn=a)"; "add=add=cn:(cn=a)"].
Proof.
  split; [reflexivity|]. split; [|split; reflexivity].
  intros a b E i j gi gj Gi Wi Gj Wj.
  assert (A : a = firstn (List.length a) [0; 0; 0; 0; 1; 1; 1; 1]) by (rewrite E, firstn_app, firstn_all, Nat.sub_diag, firstn_O; now rewrite app_nil_r).
  assert (L : List.length a <= 8) by (apply (f_equal (@List.length nat)) in E; rewrite app_length in E; cbn in E; lia).
  revert A L. generalize (List.length a). intros n -> L. clear E.
  do 9 (destruct n as [|n]; [
    destruct i as [|[|i]]; destruct j as [|[|j]]; cbn in Gi, Gj; try reflexivity; try (destruct i; discriminate Gi); try (destruct j; discriminate Gj);
      injection Gi as <-; injection Gj as <-; cbn in Wi, Wj; congruence|]). lia.
Qed.
Print Assumptions C144_exact.
Print Assumptions C144_in_turn.
Print Assumptions C144_reached.
Print Assumptions C144_refuted.
Print Assumptions C144_returns.
