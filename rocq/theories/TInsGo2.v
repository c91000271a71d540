(* C173, the label; C174: what is printed beside one call of Set. *)
From Coq Require Import String List PeanoNat Bool Lia.
From Verif Require Import GoStr MHeap MInsGo SInsGo PWhole TInsGo.
Import ListNotations.
Open Scope list_scope.
Open Scope nat_scope.

Lemma label_run w v css q : (ilab v <> EmptyString -> ilab (inow (i_sched w (i_start v css) q)) <> EmptyString) /\
  forall j g x xs, nth_error (igos (i_sched w (i_start v css) q)) j = Some g -> iph g = IWriting x xs -> x <> EmptyString.
Proof.
  induction q as [|y q IH] using rev_ind.
  - split; [trivial|]. intros j g x xs E P. apply i_start_at in E as (cs & _ & ->). discriminate P.
  - rewrite i_snoc. set (st := i_sched w (i_start v css) q) in *. destruct IH as [Lb Wr].
    destruct (nth_error (igos st) y) as [g0|] eqn:Y; [|rewrite i_step_none by assumption; now split].
    destruct (i_step_go w st y g0 Y) as (H & N & O). split.
    + intros Ne. specialize (Lb Ne). rewrite H. unfold i_gstep. destruct (iph g0) as [|[|[x|t|p] xs]|x xs|l|l ts] eqn:Ph; cbn [fst ilab]; trivial; [destruct (itodo g0) as [|[]]; assumption|]. now apply (Wr y g0 x xs).
    + intros j g x xs E P. destruct (Nat.eq_dec j y) as [->|D]; [|rewrite O in E by assumption; now apply (Wr j g x xs)]. rewrite N in E. injection E as <-. revert P. unfold i_gstep.
      destruct (iph g0) as [|[|[x0|t|p] xs0]|x0 xs0|l|l ts] eqn:Ph; cbn [snd iph]; try discriminate.
      * destruct (itodo g0) as [|[]]; cbn [snd iph]; [congruence|discriminate|discriminate].
      * destruct x0 as [|c x0]; [discriminate|]. destruct ((0 <? String.length (String c x0)) && (String.length (ilab (inow st)) =? 0)); [|discriminate]. now intros [= <- _].
Qed.
(* A label is never taken away. *)
Theorem C173_label : forall w v css q q', ilab (inow (i_sched w (i_start v css) q)) <> EmptyString -> ilab (inow (i_sched w (i_start v css) (q ++ q'))) <> EmptyString.
Proof.
  intros w v css q q' Ne. induction q' as [|y q' IH] using rev_ind; [now rewrite app_nil_r|]. rewrite app_assoc, i_snoc. assert (Wr := proj2 (label_run w v css (q ++ q'))). set (st := i_sched w (i_start v css) (q ++ q')) in *.
  destruct (nth_error (igos st) y) as [g0|] eqn:Y; [|now rewrite i_step_none]. destruct (i_step_go w st y g0 Y) as (-> & _ & _). unfold i_gstep.
  destruct (iph g0) as [|[|[x|t|p] xs]|x xs|l|l ts] eqn:Ph; cbn [fst ilab]; trivial; [destruct (itodo g0) as [|[]]; assumption|]. now apply (Wr y g0 x xs).
Qed.
Print Assumptions C173_label.

(* ---- C174: one call of Set beside one of String ---- *)
Lemma firstn_next {A} n (l : list A) a r : skipn n l = a :: r -> firstn (S n) l = firstn n l ++ [a] /\ skipn (S n) l = r /\ n < List.length l.
Proof.
  revert l. induction n as [|n IH]; intros l H.
  - destruct l as [|b l]; [discriminate H|]. cbn in H. injection H as -> ->. cbn. split; [reflexivity|]. split; [reflexivity|lia].
  - destruct l as [|b l]; [discriminate H|]. destruct (IH l H) as (A1 & A2 & A3). cbn [firstn skipn List.length] in *. split; [now rewrite A1|]. split; [exact A2|lia].
Qed.
Lemma firstn_left {A} n (a b : list A) : n = List.length a -> firstn n (a ++ b) = a.
Proof. intros ->. rewrite firstn_app, Nat.sub_diag, firstn_all, firstn_O. apply app_nil_r. Qed.
Section One.
Variables (w : ipol) (v : iins) (xs : list iarg).
Notation at_ q := (i_sched w (i_start v [[ISet xs]; [IString]]) q).
(* the instruction when n arguments have been dealt with *)
Definition stage (n : nat) : iins := i_args w v (firstn n xs).
Lemma stage_next n a r : skipn n xs = a :: r -> stage (S n) = i_arg w (stage n) a.
Proof. intros H. destruct (firstn_next n xs a r H) as (E & _ & _). unfold stage, i_args. rewrite E, fold_left_app. reflexivity. Qed.
Definition w_at (n : nat) (g : igo) : Prop :=
  g = MkIg [ISet xs] IIdle [] /\ n = 0 \/ g = MkIg [] (ISetting (skipn n xs)) [] /\ n <= List.length xs \/
  (exists x r, g = MkIg [] (IWriting x r) [] /\ skipn n xs = IL x :: r /\ i_arg w (stage n) (IL x) = MkIi x (itrs (stage n)) (ipbs (stage n))) \/
  g = MkIg [] IIdle [IDone] /\ n = List.length xs.
Definition r_at (n : nat) (g : igo) : Prop :=
  g = MkIg [IString] IIdle [] \/ (exists j, j <= n /\ g = MkIg [] (ILab (ilab (stage j))) []) \/
  (exists j k, j <= k /\ k <= n /\ g = MkIg [] (ITar (ilab (stage j)) (itrs (stage k))) []) \/
  exists j k m, j <= k /\ k <= m /\ m <= n /\ g = MkIg [] IIdle [IText (ilab (stage j)) (itrs (stage k)) (ipbs (stage m))].
Lemma r_more n g : r_at n g -> r_at (S n) g.
Proof.
  intros [->|[(j & A & ->)|[(j & k & A & B & ->)|(j & k & m & A & B & C & ->)]]]; [now left|right; left; exists j|right; right; left; exists j, k|right; right; right; exists j, k, m]; repeat split; lia.
Qed.
Definition one_ok (st : istate) : Prop := exists n g0 g1, n <= List.length xs /\ igos st = [g0; g1] /\ inow st = stage n /\ w_at n g0 /\ r_at n g1.
Lemma one_runs q : one_ok (at_ q).
Proof.
  induction q as [|i q IH] using rev_ind.
  - exists 0, (MkIg [ISet xs] IIdle []), (MkIg [IString] IIdle []). split; [lia|]. split; [reflexivity|]. split; [reflexivity|]. split; now left.
  - rewrite i_snoc. destruct IH as (n & g0 & g1 & Ln & G & V & W & R). unfold i_step. rewrite G, V. destruct i as [|[|i]]; cbn [nth_error].
    + destruct W as [[-> ->]|[[-> _]|[(x & r & -> & Sk & La)|[-> En]]]]; unfold i_gstep; cbn [iph itodo ires_of].
      * exists 0. eexists _, g1. split; [lia|]. split; [reflexivity|]. split; [reflexivity|]. split; [right; left; now split|assumption].
      * destruct (skipn n xs) as [|a r] eqn:Sk.
        -- exists n. eexists _, g1. split; [lia|]. split; [reflexivity|]. split; [reflexivity|]. split; [|assumption]. right. right. right. split; [reflexivity|].
           assert (Z : List.length (skipn n xs) = 0) by now rewrite Sk. rewrite skipn_length in Z. lia.
        -- destruct (firstn_next n xs a r Sk) as (_ & Sk' & Lt). assert (Nx := stage_next n a r Sk). destruct a as [x|t|p].
           ++ rewrite label_arg in Nx. assert (La := label_arg w (stage n) x). destruct ((0 <? String.length x) && (String.length (ilab (stage n)) =? 0)) eqn:C.
              ** exists n. eexists _, g1. split; [lia|]. split; [reflexivity|]. split; [reflexivity|]. split; [|assumption]. right. right. left. now exists x, r.
              ** exists (S n). eexists _, g1. split; [lia|]. split; [reflexivity|]. split; [now rewrite Nx|]. split; [|now apply r_more]. right. left. rewrite Sk'. split; [reflexivity|lia].
           ++ exists (S n). eexists _, g1. split; [lia|]. split; [reflexivity|]. split; [now rewrite Nx|]. split; [|now apply r_more]. right. left. rewrite Sk'. split; [reflexivity|lia].
           ++ exists (S n). eexists _, g1. split; [lia|]. split; [reflexivity|]. split; [now rewrite Nx|]. split; [|now apply r_more]. right. left. rewrite Sk'. split; [reflexivity|lia].
      * destruct (firstn_next n xs _ r Sk) as (_ & Sk' & Lt). assert (Nx := stage_next n _ r Sk). rewrite La in Nx.
        exists (S n). eexists _, g1. split; [lia|]. split; [reflexivity|]. split; [now rewrite Nx|]. split; [|now apply r_more]. right. left. rewrite Sk'. split; [reflexivity|lia].
      * exists n. eexists _, g1. split; [lia|]. split; [reflexivity|]. split; [reflexivity|]. split; [|assumption]. right. right. right. now split.
    + exists n, g0. destruct R as [->|[(j & A & ->)|[(j & k & A & B & ->)|(j & k & m & A & B & C & ->)]]]; unfold i_gstep; cbn [iph itodo ires_of];
        (eexists; split; [assumption|]; split; [reflexivity|]; split; [reflexivity|]; split; [assumption|]).
      * right. left. exists n. split; [lia|reflexivity].
      * right. right. left. exists j, n. split; [lia|]. split; [lia|reflexivity].
      * right. right. right. exists j, k, n. split; [lia|]. split; [lia|]. split; [lia|reflexivity].
      * right. right. right. exists j, k, m. now repeat split.
    + assert (nth_error (@nil igo) i = None) as -> by now destruct i. exists n, g0, g1. now repeat split.
Qed.
(* the setter goes on to a stage *)
Lemma adv1 n g1 a r : skipn n xs = a :: r ->
  exists q, i_sched w (MkIs (stage n) [MkIg [] (ISetting (skipn n xs)) []; g1]) q = MkIs (stage (S n)) [MkIg [] (ISetting (skipn (S n) xs)) []; g1].
Proof.
  intros Sk. destruct (firstn_next n xs a r Sk) as (_ & Sk' & _). assert (Nx := stage_next n a r Sk). rewrite Sk, Sk'. destruct a as [x|t|p].
  - rewrite label_arg in Nx. destruct ((0 <? String.length x) && (String.length (ilab (stage n)) =? 0)) eqn:C.
    + exists [0; 0]. unfold i_sched. cbn [fold_left]. unfold i_step at 2. cbn [igos nth_error inow]. unfold i_gstep. cbn [iph itodo ires_of]. rewrite C, Nx. reflexivity.
    + exists [0]. unfold i_sched. cbn [fold_left]. unfold i_step. cbn [igos nth_error inow]. unfold i_gstep. cbn [iph itodo ires_of]. rewrite C, Nx. reflexivity.
  - exists [0]. rewrite Nx. reflexivity.
  - exists [0]. rewrite Nx. reflexivity.
Qed.
Lemma adv n m g1 : n <= m -> m <= List.length xs ->
  exists q, i_sched w (MkIs (stage n) [MkIg [] (ISetting (skipn n xs)) []; g1]) q = MkIs (stage m) [MkIg [] (ISetting (skipn m xs)) []; g1].
Proof.
  intros A B. induction m as [|m IH]; [replace n with 0 by lia; now exists []|]. destruct (Nat.eq_dec n (S m)) as [->|D]; [now exists []|].
  destruct IH as [q Q]; [lia|lia|]. destruct (skipn m xs) as [|a r] eqn:Sk; [assert (Z : List.length (skipn m xs) = 0) by (now rewrite Sk); rewrite skipn_length in Z; lia|].
  destruct (adv1 m g1 a r Sk) as [q' Q']. exists (q ++ q'). rewrite i_app, Q, <- Sk. exact Q'.
Qed.
End One.
(* What String beside one call of Set prints is exactly: the label after some of the arguments,
   the target rules after some more, the permission-bind rules after some more. *)
Theorem C174_exact : forall w v xs l ts ps,
  (exists q g, nth_error (igos (i_sched w (i_start v [[ISet xs]; [IString]]) q)) 1 = Some g /\ ires_of g = [IText l ts ps]) <->
  exists a b c d, xs = a ++ b ++ c ++ d /\ l = ilab (i_args w v a) /\ ts = itrs (i_args w v (a ++ b)) /\ ps = ipbs (i_args w v (a ++ b ++ c)).
Proof.
  intros w v xs l ts ps. split.
  - intros (q & g & E & R). destruct (one_runs w v xs q) as (n & g0 & g1 & Ln & G & _ & _ & Q). rewrite G in E. injection E as ->.
    destruct Q as [->|[(j & _ & ->)|[(j & k & _ & _ & ->)|(j & k & m & A & B & C & ->)]]]; try discriminate R. injection R as <- <- <-.
    exists (firstn j xs), (firstn (k - j) (skipn j xs)), (firstn (m - k) (skipn k xs)), (skipn m xs).
    assert (F : forall i j, i <= j -> firstn i xs ++ firstn (j - i) (skipn i xs) = firstn j xs).
    { intros i0 j0 H. rewrite <- (firstn_skipn i0 (firstn j0 xs)). rewrite firstn_firstn, Nat.min_l by assumption. now rewrite skipn_firstn_comm. }
    assert (F1 := F j k A). assert (F2 := F k m B). unfold stage. rewrite !app_assoc, F1, F2, firstn_skipn. now repeat split.
  - intros (a & b & c & d & -> & -> & -> & ->). set (xs := a ++ b ++ c ++ d).
    set (j := List.length a). set (k := j + List.length b). set (m := k + List.length c).
    assert (Lx : List.length xs = m + List.length d) by (unfold xs, m, k, j; rewrite !app_length; lia).
    assert (Fj : firstn j xs = a) by now apply firstn_left.
    assert (Fk : firstn k xs = a ++ b) by (unfold xs; rewrite app_assoc; apply firstn_left; unfold k, j; now rewrite app_length).
    assert (Fm : firstn m xs = a ++ b ++ c).
    { unfold xs. replace (a ++ b ++ c ++ d) with ((a ++ b ++ c) ++ d) by now rewrite <- !app_assoc. apply firstn_left. unfold m, k, j. rewrite !app_length. lia. }
    destruct (adv w v xs 0 j (MkIg [IString] IIdle []) ltac:(lia) ltac:(lia)) as [q1 Q1].
    destruct (adv w v xs j k (MkIg [] (ILab (ilab (stage w v xs j))) []) ltac:(lia) ltac:(lia)) as [q2 Q2].
    destruct (adv w v xs k m (MkIg [] (ITar (ilab (stage w v xs j)) (itrs (stage w v xs k))) []) ltac:(lia) ltac:(lia)) as [q3 Q3].
    exists ([0] ++ q1 ++ [1] ++ q2 ++ [1] ++ q3 ++ [1]). rewrite i_app. change (i_sched w (i_start v [[ISet xs]; [IString]]) [0]) with (MkIs (stage w v xs 0) [MkIg [] (ISetting (skipn 0 xs)) []; MkIg [IString] IIdle []]).
    rewrite i_app, Q1, i_app. change (i_sched w (MkIs (stage w v xs j) [MkIg [] (ISetting (skipn j xs)) []; MkIg [IString] IIdle []]) [1]) with (MkIs (stage w v xs j) [MkIg [] (ISetting (skipn j xs)) []; MkIg [] (ILab (ilab (stage w v xs j))) []]).
    rewrite i_app, Q2, i_app. change (i_sched w (MkIs (stage w v xs k) [MkIg [] (ISetting (skipn k xs)) []; MkIg [] (ILab (ilab (stage w v xs j))) []]) [1]) with (MkIs (stage w v xs k) [MkIg [] (ISetting (skipn k xs)) []; MkIg [] (ITar (ilab (stage w v xs j)) (itrs (stage w v xs k))) []]).
    rewrite i_app, Q3. eexists. split; [reflexivity|]. cbn [ires_of app]. unfold stage. now rewrite Fj, Fk, Fm.
Qed.
(* Given first the permission-bind rules and then the target rules, an instruction is printed
   as it is after some of them. *)
Lemma args_pbs w v ps : ilab (i_args w v (map IP ps)) = ilab v /\ itrs (i_args w v (map IP ps)) = itrs v.
Proof. revert v. induction ps as [|p ps IH]; intros v; [now split|]. exact (IH (i_arg w v (IP p))). Qed.
Lemma args_trs w v ts : ilab (i_args w v (map IT ts)) = ilab v /\ ipbs (i_args w v (map IT ts)) = ipbs v.
Proof. revert v. induction ts as [|t ts IH]; intros v; [now split|]. exact (IH (i_arg w v (IT t))). Qed.
Theorem C174_order : forall w v pbs trs q g l ts ps, nth_error (igos (i_sched w (i_start v [[ISet (map IP pbs ++ map IT trs)]; [IString]]) q)) 1 = Some g -> ires_of g = [IText l ts ps] ->
  exists a b, map IP pbs ++ map IT trs = a ++ b /\ MkIi l ts ps = i_args w v a.
Proof.
  intros w v pbs trs q g l ts ps E R. destruct (proj1 (C174_exact w v (map IP pbs ++ map IT trs) l ts ps) ltac:(now exists q, g)) as (a & b & c & d & X & L & T & P).
  assert (St : forall n, exists p t, firstn n (map IP pbs ++ map IT trs) = map IP p ++ map IT t /\ p = firstn n pbs /\ t = firstn (n - List.length pbs) trs).
  { intros n. exists (firstn n pbs), (firstn (n - List.length pbs) trs). rewrite firstn_app, map_length, !firstn_map. now repeat split. }
  assert (Ev : forall p t, ilab (i_args w v (map IP p ++ map IT t)) = ilab v /\ itrs (i_args w v (map IP p ++ map IT t)) = itrs (i_args w v (map IT t)) /\ ipbs (i_args w v (map IP p ++ map IT t)) = ipbs (i_args w v (map IP p))).
  { intros p t. unfold i_args. rewrite fold_left_app. destruct (args_pbs w v p) as [A1 A2]. destruct (args_trs w (i_args w v (map IP p)) t) as [B1 B2]. unfold i_args in *.
    split; [congruence|]. split; [|assumption]. clear - A2. revert A2. generalize (fold_left (i_arg w) (map IP p) v) as u. revert v. induction t as [|z t IH]; intros v u H; [exact H|]. cbn [map fold_left]. apply IH. cbn. now rewrite H. }
  set (k := List.length (a ++ b)). set (m := List.length (a ++ b ++ c)).
  assert (Km : k <= m) by (unfold k, m; rewrite !app_length; lia).
  assert (Fa : a = firstn (List.length a) (map IP pbs ++ map IT trs)) by (rewrite X; symmetry; now apply firstn_left).
  assert (Fk : a ++ b = firstn k (map IP pbs ++ map IT trs)) by (rewrite X, app_assoc; symmetry; now apply firstn_left).
  assert (Fm : a ++ b ++ c = firstn m (map IP pbs ++ map IT trs)) by (rewrite X; replace (a ++ b ++ c ++ d) with ((a ++ b ++ c) ++ d) by (now rewrite <- !app_assoc); symmetry; now apply firstn_left).
  destruct (St (List.length a)) as (p0 & t0 & S0 & _ & _), (St k) as (p1 & t1 & S1 & P1 & T1), (St m) as (p2 & t2 & S2 & P2 & T2).
  rewrite Fa, S0 in L. rewrite Fk, S1 in T. rewrite Fm, S2 in P. rewrite (proj1 (Ev p0 t0)) in L. rewrite (proj1 (proj2 (Ev p1 t1))) in T. rewrite (proj2 (proj2 (Ev p2 t2))) in P.
  set (n := if m <=? List.length pbs then m else if k <=? List.length pbs then List.length pbs else k).
  exists (firstn n (map IP pbs ++ map IT trs)), (skipn n (map IP pbs ++ map IT trs)). split; [now rewrite firstn_skipn|].
  destruct (St n) as (p3 & t3 & S3 & P3 & T3). rewrite S3. destruct (Ev p3 t3) as (E1 & E2 & E3).
  assert (Tt : t3 = t1). { subst. unfold n. destruct (m <=? List.length pbs) eqn:C1; [apply Nat.leb_le in C1; now replace (m - List.length pbs) with 0 by lia; replace (k - List.length pbs) with 0 by lia|]. destruct (k <=? List.length pbs) eqn:C2; [apply Nat.leb_le in C2; rewrite Nat.sub_diag; now replace (k - List.length pbs) with 0 by lia|reflexivity]. }
  assert (Pp : p3 = p2). { subst. unfold n. destruct (m <=? List.length pbs) eqn:C1; [reflexivity|]. apply Nat.leb_gt in C1. rewrite (firstn_all2 (n := m)) by lia. destruct (k <=? List.length pbs) eqn:C2; [now rewrite firstn_all|]. apply Nat.leb_gt in C2. rewrite firstn_all2 by lia. reflexivity. }
  rewrite L, T, P, <- Tt, <- Pp, <- E1, <- E2, <- E3. now destruct (i_args w v (map IP p3 ++ map IT t3)).
Qed.
(* An instruction is printed as it is at one moment: false.  A target rule and a permission that
   one call gives can be printed as the permission without the target. *)
Theorem C174_refuted : forall w v t p, takeT w (itrs v) t = true -> takeP w (ipbs v) p = true ->
  exists q g, nth_error (igos (i_sched w (i_start v [[ISet [IT t; IP p]]; [IString]]) q)) 1 = Some g /\ ires_of g = [IText (ilab v) (itrs v) (ipbs v ++ [p])] /\
  forall q', inow (i_sched w (i_start v [[ISet [IT t; IP p]]; [IString]]) q') <> MkIi (ilab v) (itrs v) (ipbs v ++ [p]).
Proof.
  intros w v t p Ht Hp. destruct (proj2 (C174_exact w v [IT t; IP p] (ilab v) (itrs v) (ipbs v ++ [p]))) as (q & g & E & R).
  - exists [], [], [IT t; IP p], []. split; [reflexivity|]. split; [reflexivity|]. split; [reflexivity|]. cbn. now rewrite Hp.
  - exists q, g. split; [assumption|]. split; [assumption|]. intros q' H. destruct (one_runs w v [IT t; IP p] q') as (n & g0 & g1 & Ln & _ & V & _ & _). rewrite V in H. unfold stage, i_args in H. destruct v as [l ts ps]. cbn [itrs ipbs ilab] in *.
    assert (Nt : forall A (x : A) (r : list A), r ++ [x] <> r) by (intros A x r Q; apply (f_equal (@List.length A)) in Q; rewrite app_length in Q; cbn in Q; lia).
    destruct n as [|[|[|n]]]; cbn in H, Ln; [| | |lia]; rewrite ?Ht, ?Hp in H; injection H; intros; try (now elim (Nt _ t ts)); now elim (Nt _ p ps).
Qed.
Print Assumptions C174_exact.
Print Assumptions C174_order.
Print Assumptions C174_refuted.

(* ---- concrete cases ---- *)
Example C173_witness : let w := MkIp (fun ts t => negb (existsb (String.eqb t) ts)) (fun ps p => negb (existsb (String.eqb p) ps)) in
  let t := "( target = ""ldap:///ou=People"" )"%string in let p := "allow(read) userdn = ""ldap:///self"";"%string in
  let st := i_sched w (i_start (MkIi "" [] []) [[ISet [IL "a"; IT t; IP p; IT t; IL "b"]; IString]; [IString]]) [0; 1; 0; 0; 1; 0; 0; 0; 0; 1; 0; 0; 0; 0] in
  Forall i_returned (igos st) /\ inow st = MkIi "a" [t] [p] /\ map i_said (igos st) = [[MkIi "a" [t] [p]]; [MkIi "" [] [p]]].
Proof. vm_compute. split; [|now split]. repeat constructor. Qed.
