(* C175, C176: what String of a day list or of an inheritance shows while other goroutines
   call Shift and Unshift on it. *)
From Coq Require Import String List PeanoNat NArith ZArith Bool Lia.
From Verif Require Import GoStr GoStrFacts Shifty PRights MHeap MKw MTime STime PTime MAttr MLevels SAttr PAttr MWord SWord TWord MSeen SSeen.
Import ListNotations.
Open Scope list_scope.

Section Days.
Variable sh : shifty.
Hypothesis OK : shifty_ok sh.
Lemma dbits_small v css q k : small v -> (forall cs, In cs css -> dcalls_ok cs) -> small (dow_bits_at sh v css q k).
Proof.
  intros L C. apply (start_keeps _ (dow_lib sh) small (fun e => darg_ok (snd e))); [|exact L|].
  - intros e u A S. rewrite dow_app. destruct (fst e); [now apply dshift1_small|now apply dunshift1_small].
  - intros es e I J. apply in_map_iff in I as (cs & <- & I). apply dow_edits_in in J as (xs & J & K).
    apply (C cs I (if fst e then DShift xs else DUnshift xs) (snd e) K). now destruct (fst e).
Qed.
Lemma day_bit u d : small u -> dow_positive sh (Some u) (day_const d) = N.testbit u (day_pos d).
Proof. intros Su. apply (dpositive_state sh OK (Some u) (fun d => N.testbit u (day_pos d))). exact (conj Su (fun d => eq_refl)). Qed.
Lemma days_seen (vs : N -> N) : (forall i, small (vs i)) ->
  dow_string_seen sh vs = text_of_days (days_where (fun d => dow_positive sh (Some (vs (day_pos d))) (day_const d))).
Proof.
  intros S. unfold dow_string_seen, text_of_days, days_where.
  rewrite (filter_ext_in _ (fun i => N.testbit (vs i) i)).
  2:{ intros i Hi. destruct (S i) as [L _]. apply (OK 8%N (vs i) L). unfold bits8 in Hi. cbn [In] in Hi. lia. }
  rewrite (filter_ext _ (fun d => N.testbit (vs (day_pos d)) (day_pos d))) by (intros d; now apply day_bit).
  destruct (S 0%N) as [_ Z]. unfold bits8, all_days. cbn [filter day_pos]. rewrite Z.
  destruct (N.testbit (vs 1%N) 1), (N.testbit (vs 2%N) 2), (N.testbit (vs 3%N) 3), (N.testbit (vs 4%N) 4), (N.testbit (vs 5%N) 5),
    (N.testbit (vs 6%N) 6), (N.testbit (vs 7%N) 7); reflexivity.
Qed.
Lemma made_small h0 v : dcalls_ok h0 -> dow_run sh (DoW sh []) h0 = Some v -> small v.
Proof.
  intros H0 R. assert (D := drun_state sh OK h0 (DoW sh []) (fun _ => false)). rewrite R in D. destruct D as [S _]; [|exact H0|exact S].
  split; [split; reflexivity|]. intros d'. now destruct d'.
Qed.
End Days.
Section Levels.
Variable sh : shifty.
Hypothesis OK : shifty_ok sh.
Lemma lbits_small v css q k : lsmall v -> (forall cs, In cs css -> lcalls_ok cs) -> lsmall (inh_bits_at sh v css q k).
Proof.
  intros L C. apply (start_keeps _ (inh_lib sh) lsmall (fun e => larg_ok (snd e))); [|exact L|].
  - intros [b x] u A S. cbn [snd] in A. destruct b.
    + change (app1 _ (inh_lib sh) u (true, x)) with (lvl_shift sh u [x]). apply (lshift_all sh OK [x] u S). now intros y [<-|[]].
    + change (app1 _ (inh_lib sh) u (false, x)) with (lvl_unshift sh u [x]). apply (lunshift_all sh OK [x] u S). now intros y [<-|[]].
  - intros es e I J. apply in_map_iff in I as (cs & <- & I). apply inh_edits_in in J as (xs & J & K).
    apply (C cs I (if fst e then IShift xs else IUnshift xs) (snd e) K). now destruct (fst e).
Qed.
Lemma loop_levels (vs : N -> N) : (forall i, lsmall (vs i)) ->
  map (fun i => lvl_string levelNumbers (2 ^ i)) (filter (fun i => sh_positive sh 16 (vs i) (Z.of_N (2 ^ i))) bits12)
  = map digit (levels_where (fun n => N.testbit (vs (n + 1)%N) (n + 1))).
Proof.
  intros S. rewrite (filter_ext_in _ (fun i => N.testbit (vs i) i)).
  2:{ intros i Hi. destruct (S i) as [L _]. apply (OK 16%N (vs i)); [lia|]. unfold bits12 in Hi. cbn [In] in Hi. lia. }
  assert (H11 : N.testbit (vs 11%N) 11 = false).
  { destruct (S 11%N) as [Hv _]. destruct (N.eq_dec (vs 11%N) 0) as [->|]; [easy|]. apply N.bits_above_log2. apply N.log2_lt_pow2; [lia|exact Hv]. }
  destruct (S 0%N) as [_ H0]. unfold bits12, levels_where, all_levels. cbn [filter]. rewrite H0, H11.
  change (0 + 1)%N with 1%N. change (1 + 1)%N with 2%N. change (2 + 1)%N with 3%N. change (3 + 1)%N with 4%N.
  change (4 + 1)%N with 5%N. change (5 + 1)%N with 6%N. change (6 + 1)%N with 7%N. change (7 + 1)%N with 8%N.
  change (8 + 1)%N with 9%N. change (9 + 1)%N with 10%N.
  destruct (N.testbit (vs 1%N) 1), (N.testbit (vs 2%N) 2), (N.testbit (vs 3%N) 3), (N.testbit (vs 4%N) 4), (N.testbit (vs 5%N) 5),
    (N.testbit (vs 6%N) 6), (N.testbit (vs 7%N) 7), (N.testbit (vs 8%N) 8), (N.testbit (vs 9%N) 9), (N.testbit (vs 10%N) 10); reflexivity.
Qed.
Lemma made_lsmall a init h0 v : abtv_isZero a = false -> lcalls_ok (IShift init :: h0) -> inh_run sh (Inherit sh a init) h0 = Some (MkInh v a) -> lsmall v.
Proof.
  intros Ha H0 R.
  destruct (lrun sh OK (IShift init :: h0) a 0%N (fun _ => false) Ha) as (v' & E & S & _); [split; easy|intros m _; apply N.bits_0|exact H0|].
  change (inh_run sh (Some (MkInh 0 a)) (IShift init :: h0)) with (inh_run sh (inh_shift sh (Some (MkInh 0 a)) init) h0) in E.
  unfold inh_shift in E. cbn [in_abtv in_levels] in E. rewrite Ha in E. cbn [in_abtv in_levels] in E. unfold Inherit in R. rewrite R in E. now injection E as <-.
Qed.
End Levels.

(* ---- days ---- *)
(* Exactly what is shown: each day is shown if it is in the list at the moment its own bit is
   read. *)
Theorem C176_days_exact : forall sh, shifty_ok sh -> forall h0 v css q t, dcalls_ok h0 -> dow_run sh (DoW sh []) h0 = Some v ->
  (forall cs, In cs css -> dcalls_ok cs) ->
  dow_string_at sh v css q t = text_of_days (days_where (fun d => day_at sh v css q (t (day_pos d)) d)).
Proof.
  intros sh OK h0 v css q t H0 R C. apply days_seen; [exact OK|]. intros i. apply dbits_small; [exact OK| |exact C]. now apply (made_small sh OK h0).
Qed.
(* Whatever the schedule, the text consists of days; one that nobody gives does not appear,
   one that nobody takes does not disappear. *)
Theorem C175_days : forall sh, shifty_ok sh -> forall h0 v css q t, dcalls_ok h0 -> dow_run sh (DoW sh []) h0 = Some v ->
  (forall cs, In cs css -> dcalls_ok cs) ->
  exists ds, dow_string_at sh v css q t = text_of_days ds /\
    (forall d, (forall cs, In cs css -> ~ gives_day cs d) -> dow_positive sh (Some v) (day_const d) = false -> ~ In d ds) /\
    (forall d, (forall cs, In cs css -> ~ takes_day cs d) -> dow_positive sh (Some v) (day_const d) = true -> In d ds).
Proof.
  intros sh OK h0 v css q t H0 R C. exists (days_where (fun d => day_at sh v css q (t (day_pos d)) d)).
  split; [now apply (C176_days_exact sh OK h0)|]. unfold days_where.
  split; intros d T P; rewrite filter_In;
    destruct (C148_days sh OK h0 v css (firstn (t (day_pos d)) q) d H0 R C) as [A B].
  - specialize (A T P). intros [_ K]. unfold day_at, dow_bits_at in K. unfold dow_after in A. congruence.
  - split; [now destruct d; cbn; auto 10|]. exact (B T P).
Qed.
(* Nothing changes during the call: the text is that of the list. *)
Theorem C175_days_still : forall sh v css q t k, (forall i, dow_bits_at sh v css q (t i) = dow_bits_at sh v css q k) ->
  dow_string_at sh v css q t = dow_string sh (Some (dow_bits_at sh v css q k)).
Proof.
  intros sh v css q t k H. unfold dow_string_at, dow_string_seen, dow_string, days_set.
  now rewrite (filter_ext _ (fun i => sh_positive sh 8 (dow_bits_at sh v css q k) (Z.of_N (2 ^ i)))) by (intros i; now rewrite H).
Qed.
(* Only one day changes during the call: the text is that of the moment its bit is read. *)
Theorem C175_days_one : forall sh, shifty_ok sh -> forall h0 v css q t d0, dcalls_ok h0 -> dow_run sh (DoW sh []) h0 = Some v ->
  (forall cs, In cs css -> dcalls_ok cs) ->
  (forall d i j, d <> d0 -> day_at sh v css q (t i) d = day_at sh v css q (t j) d) ->
  dow_string_at sh v css q t = dow_string sh (Some (dow_bits_at sh v css q (t (day_pos d0)))).
Proof.
  intros sh OK h0 v css q t d0 H0 R C S.
  rewrite <- (C175_days_still sh v css q (fun _ => t (day_pos d0)) (t (day_pos d0))) by reflexivity.
  rewrite !(C176_days_exact sh OK h0) by assumption. f_equal. unfold days_where. apply filter_ext. intros d.
  destruct (N.eq_dec (day_pos d) (day_pos d0)) as [E|E]; [now rewrite E|]. apply S. intros ->. now apply E.
Qed.
(* Eq and Ne make a rule if and only if some day is in the list when its own bit is read: if a
   day stays in it they do, if no day ever was in it they do not. *)
Theorem C176_rule_exact : forall sh, shifty_ok sh -> forall h0 v css q t, dcalls_ok h0 -> dow_run sh (DoW sh []) h0 = Some v ->
  (forall cs, In cs css -> dcalls_ok cs) ->
  (dow_made_at sh v css q t = true <-> exists d, day_at sh v css q (t (day_pos d)) d = true).
Proof.
  intros sh OK h0 v css q t H0 R C. unfold dow_made_at. rewrite (C176_days_exact sh OK h0) by assumption.
  assert (I : forall d, In d (days_where (fun d => day_at sh v css q (t (day_pos d)) d)) <-> day_at sh v css q (t (day_pos d)) d = true).
  { intros d. unfold days_where. rewrite filter_In. split; [now intros [_ K]|]. intros K. split; [now destruct d; cbn; auto 10|exact K]. }
  destruct (days_where (fun d => day_at sh v css q (t (day_pos d)) d)) as [|d ds].
  - split; [discriminate|]. intros (d & K). now apply I in K.
  - split; [|intros _]; [intros _; exists d; apply I; now left|]. apply negb_true_iff, String.eqb_neq. unfold text_of_days. destruct ds as [|d' ds]; [now destruct d|]. cbn [map]. rewrite join_cons. now destruct d.
Qed.
Theorem C175_days_rule : forall sh, shifty_ok sh -> forall h0 v css q t, dcalls_ok h0 -> dow_run sh (DoW sh []) h0 = Some v ->
  (forall cs, In cs css -> dcalls_ok cs) ->
  (forall d, dow_positive sh (Some v) (day_const d) = true -> (forall cs, In cs css -> ~ takes_day cs d) -> dow_made_at sh v css q t = true) /\
  ((forall d, dow_positive sh (Some v) (day_const d) = false) -> (forall d cs, In cs css -> ~ gives_day cs d) -> dow_made_at sh v css q t = false).
Proof.
  intros sh OK h0 v css q t H0 R C. assert (X := C176_rule_exact sh OK h0 v css q t H0 R C).
  assert (K := fun d => C148_days sh OK h0 v css (firstn (t (day_pos d)) q) d H0 R C). split.
  - intros d P T. apply X. exists d. now apply (K d).
  - intros P T. destruct (dow_made_at sh v css q t) eqn:E; [|reflexivity]. destruct (proj1 X eq_refl) as (d & D).
    destruct (K d) as [A _]. specialize (A (T d) (P d)). unfold day_at, dow_bits_at in D. unfold dow_after in A. congruence.
Qed.
(* ---- levels ---- *)
(* Exactly what is shown: no level at the first read is shown as level 0; otherwise each level
   is shown if it is there at the moment its own bit is read. *)
Theorem C176_levels_exact : forall sh, shifty_ok sh -> forall fp a s init h0 v css q t0 t, abtv_isZero a = false -> abtv_string a = Some s ->
  lcalls_ok (IShift init :: h0) -> inh_run sh (Inherit sh a init) h0 = Some (MkInh v a) -> (forall cs, In cs css -> lcalls_ok cs) ->
  ((forall n, (n < 10)%N -> level_at sh a v css q t0 n = false) -> inh_string_at sh fp a v css q t0 t = text_of_levels s [0%N]) /\
  ((exists n, (n < 10)%N /\ level_at sh a v css q t0 n = true) ->
     inh_string_at sh fp a v css q t0 t = text_of_levels s (levels_where (fun n => level_at sh a v css q (t (n + 1)%N) n))).
Proof.
  intros sh OK fp a s init h0 v css q t0 t Ha Hs H0 R C.
  assert (S : forall k, lsmall (inh_bits_at sh v css q k)) by (intros k; apply lbits_small; [exact OK| |exact C]; now apply (made_lsmall sh OK a init h0)).
  assert (B : forall k n, (n < 10)%N -> level_at sh a v css q k n = N.testbit (inh_bits_at sh v css q k) (n + 1)) by (intros k n L; destruct (S k); apply positive_bit; auto).
  unfold inh_string_at, text_of_levels. rewrite Ha, Hs. unfold levels_string_seen. split.
  - intros Z. destruct (N.eq_dec (inh_bits_at sh v css q t0) 0) as [E|E]; [now rewrite E|]. exfalso.
    destruct (lsmall_nonzero _ (S t0) E) as (n & L & T). rewrite <- B in T by exact L. rewrite Z in T by exact L. discriminate.
  - intros (n & L & T). rewrite B in T by exact L. replace (0 <? inh_bits_at sh v css q t0)%N with true.
    + rewrite (loop_levels sh OK) by (intros i; apply S). unfold levels_where.
      rewrite (filter_ext_in (fun n => level_at sh a v css q (t (n + 1)%N) n) (fun n => N.testbit (inh_bits_at sh v css q (t (n + 1)%N)) (n + 1))); [reflexivity|].
      intros m Hm. apply B. unfold all_levels in Hm. cbn [In] in Hm. lia.
    + symmetry. apply N.ltb_lt. destruct (N.eq_dec (inh_bits_at sh v css q t0) 0) as [E|E]; [rewrite E, N.bits_0 in T; discriminate|lia].
Qed.
Theorem C175_levels : forall sh, shifty_ok sh -> forall fp a s init h0 v css q t0 t, abtv_isZero a = false -> abtv_string a = Some s ->
  lcalls_ok (IShift init :: h0) -> inh_run sh (Inherit sh a init) h0 = Some (MkInh v a) -> (forall cs, In cs css -> lcalls_ok cs) ->
  exists ns, inh_string_at sh fp a v css q t0 t = text_of_levels s ns /\
    (forall n, In n ns -> (n < 10)%N) /\
    (forall n, (0 < n < 10)%N -> (forall cs, In cs css -> ~ gives_level cs n) -> inh_positive sh (Some (MkInh v a)) (LLevel (level_const n)) = false -> ~ In n ns) /\
    (forall n, (n < 10)%N -> (forall cs, In cs css -> ~ takes_level cs n) -> inh_positive sh (Some (MkInh v a)) (LLevel (level_const n)) = true -> In n ns).
Proof.
  intros sh OK fp a s init h0 v css q t0 t Ha Hs H0 R C.
  destruct (C176_levels_exact sh OK fp a s init h0 v css q t0 t Ha Hs H0 R C) as [Z E].
  assert (K : forall n k, (n < 10)%N -> ((forall cs, In cs css -> ~ gives_level cs n) -> inh_positive sh (Some (MkInh v a)) (LLevel (level_const n)) = false -> level_at sh a v css q k n = false) /\
     ((forall cs, In cs css -> ~ takes_level cs n) -> inh_positive sh (Some (MkInh v a)) (LLevel (level_const n)) = true -> level_at sh a v css q k n = true))
    by (intros n k L; exact (C148_levels sh OK a init h0 v css (firstn k q) n Ha H0 R C L)).
  assert (I : forall n, (n < 10)%N -> In n all_levels) by (intros n L; now apply lt10).
  assert (I' : forall n, In n all_levels -> (n < 10)%N) by (intros n L; unfold all_levels in L; cbn [In] in L; lia).
  destruct (existsb (level_at sh a v css q t0) all_levels) eqn:X.
  - apply existsb_exists in X as (n0 & X & Y). exists (levels_where (fun n => level_at sh a v css q (t (n + 1)%N) n)). unfold levels_where.
    split; [apply E; exists n0; auto|]. split; [intros n N; apply filter_In in N as [N _]; auto|]. split.
    + intros n [_ L] T P M. apply filter_In in M as [_ M]. destruct (K n (t (n + 1)%N) L) as [A _]. now rewrite (A T P) in M.
    + intros n L T P. apply filter_In. split; [auto|]. now apply (K n (t (n + 1)%N) L).
  - assert (N0 : forall n, (n < 10)%N -> level_at sh a v css q t0 n = false).
    { intros n L. destruct (level_at sh a v css q t0 n) eqn:Y; [|reflexivity]. rewrite <- X. symmetry. apply existsb_exists. exists n. auto. }
    exists [0%N]. split; [now apply Z|]. split; [intros n [<-|[]]; reflexivity|]. split; [intros n [L _] _ _ [<-|[]]; now apply N.lt_irrefl in L|].
    intros n L T P. destruct (K n t0 L) as [_ A]. specialize (N0 n L). rewrite (A T P) in N0. discriminate.
Qed.
Theorem C175_levels_still : forall sh fp a v css q t0 t, (forall i, inh_bits_at sh v css q (t i) = inh_bits_at sh v css q t0) ->
  inh_string_at sh fp a v css q t0 t = inh_string sh fp (Some (MkInh (inh_bits_at sh v css q t0) a)).
Proof.
  intros sh fp a v css q t0 t H. unfold inh_string_at, levels_string_seen, inh_string, levels_string. cbn [in_abtv in_levels].
  now rewrite (filter_ext _ (fun i => sh_positive sh 16 (inh_bits_at sh v css q t0) (Z.of_N (2 ^ i)))) by (intros i; now rewrite H).
Qed.
(* Only one level changes during the call, and there is a level at the first read and at the
   read of that one: the text is that of the latter moment. *)
Theorem C175_levels_one : forall sh, shifty_ok sh -> forall fp a s init h0 v css q t0 t n0, abtv_isZero a = false -> abtv_string a = Some s ->
  lcalls_ok (IShift init :: h0) -> inh_run sh (Inherit sh a init) h0 = Some (MkInh v a) -> (forall cs, In cs css -> lcalls_ok cs) ->
  (n0 < 10)%N -> (forall n i j, (n < 10)%N -> n <> n0 -> level_at sh a v css q (t i) n = level_at sh a v css q (t j) n) ->
  (exists n, (n < 10)%N /\ level_at sh a v css q t0 n = true) -> (exists n, (n < 10)%N /\ level_at sh a v css q (t (n0 + 1)%N) n = true) ->
  inh_string_at sh fp a v css q t0 t = inh_string sh fp (Some (MkInh (inh_bits_at sh v css q (t (n0 + 1)%N)) a)).
Proof.
  intros sh OK fp a s init h0 v css q t0 t n0 Ha Hs H0 R C L0 S A B.
  rewrite <- (C175_levels_still sh fp a v css q (t (n0 + 1)%N) (fun _ => t (n0 + 1)%N)) by reflexivity.
  rewrite (proj2 (C176_levels_exact sh OK fp a s init h0 v css q t0 t Ha Hs H0 R C) A).
  rewrite (proj2 (C176_levels_exact sh OK fp a s init h0 v css q (t (n0 + 1)%N) (fun _ => t (n0 + 1)%N) Ha Hs H0 R C) B).
  f_equal. unfold levels_where. apply filter_ext_in. intros n I. assert (L : (n < 10)%N) by (unfold all_levels in I; cbn [In] in I; lia).
  destruct (N.eq_dec n n0) as [->|D]; [reflexivity|now apply S].
Qed.
(* ---- C149 for days and levels ---- *)
Definition as_dcalls (h : list (nat * (bool * darg))) : list dow_call :=
  map (fun p : nat * (bool * darg) => if fst (snd p) then DShift [snd (snd p)] else DUnshift [snd (snd p)]) h.
Definition as_lcalls (h : list (nat * (bool * larg))) : list inh_call :=
  map (fun p : nat * (bool * larg) => if fst (snd p) then IShift [snd (snd p)] else IUnshift [snd (snd p)]) h.
(* Goroutines whose calls of the library do not overlap: the result is that of some order of
   all calls, one after the other. *)
Theorem C149_days : forall sh v css q, let st := word_start _ v (map dow_edits css) in
  in_turns (dow_lib sh) st q -> done (word_run _ (dow_lib sh) st q) ->
  exists h, merges (map dow_edits css) h /\ dow_after sh v css q = dow_run sh (Some v) (as_dcalls h).
Proof.
  intros sh v css q st T D. destruct (turns_merge _ _ _ _ _ T D) as (h & M & W). exists h. split; [exact M|].
  unfold dow_after. rewrite W. clear. revert v. induction h as [|[k e] h IH]; intros v; [reflexivity|].
  cbn [map snd fold_left as_dcalls dow_run]. rewrite IH, dow_app. unfold dow_run, as_dcalls. destruct e as [[] x]; reflexivity.
Qed.
Theorem C149_levels : forall sh a v css q, abtv_isZero a = false -> let st := word_start _ v (map inh_edits css) in
  in_turns (inh_lib sh) st q -> done (word_run _ (inh_lib sh) st q) ->
  exists h, merges (map inh_edits css) h /\ inh_after sh a v css q = inh_run sh (Some (MkInh v a)) (as_lcalls h).
Proof.
  intros sh a v css q Ha st T D. destruct (turns_merge _ _ _ _ _ T D) as (h & M & W). exists h. split; [exact M|].
  unfold inh_after. rewrite W. clear - Ha. revert v. induction h as [|[k e] h IH]; intros v; [reflexivity|].
  cbn [map snd fold_left]. rewrite IH. unfold inh_run, as_lcalls. destruct e as [[] x]; cbn [map fst snd fold_left]; f_equal; unfold inh_step, inh_shift, inh_unshift; cbn [in_abtv in_levels]; rewrite Ha; reflexivity.
Qed.
(* Otherwise changes are lost: of two goroutines that each add a day or a level, one adds
   nothing. *)
Theorem C149_days_refuted :
  ~ (forall sh, shifty_ok sh -> forall h0 v css q d, dcalls_ok h0 -> dow_run sh (DoW sh []) h0 = Some v -> (forall cs, In cs css -> dcalls_ok cs) ->
      done (word_run _ (dow_lib sh) (word_start _ v (map dow_edits css)) q) ->
      (exists cs, In cs css /\ gives_day cs d) -> (forall cs, In cs css -> ~ takes_day cs d) -> dow_positive sh (dow_after sh v css q) (day_const d) = true) /\
  dow_string shifty_ref (dow_after shifty_ref 0 [[DShift [DStr "sun"]]; [DShift [DStr "mon"]]] [0; 1; 0; 1]%nat) = "Mon"%string /\
  (let a := MkABTV BindUAT (Some (pair_of "manager" (WType USERDN))) in
   inh_string shifty_ref "" (inh_after shifty_ref a 0 [[IShift [LInt 1]]; [IShift [LInt 2]]] [0; 1; 0; 1]%nat) = "parent[2].manager#USERDN"%string).
Proof.
  split; [|split; reflexivity]. intros H.
  assert (X := H shifty_ref shifty_ref_ok [] 0%N [[DShift [DStr "sun"]]; [DShift [DStr "mon"]]] [0; 1; 0; 1]%nat DSun). discriminate X.
  - intros c x [].
  - reflexivity.
  - intros cs [<-|[<-|[]]] c x [<-|[]] [<-|[]]; exact I.
  - intros g [<-|[<-|[]]]; now split.
  - exists [DShift [DStr "sun"]]. split; [now left|]. exists [DStr "sun"], (DStr "sun"). split; [now left|]. split; [now left|reflexivity].
  - intros cs [<-|[<-|[]]] (xs & x & [K|[]] & _); discriminate.
Qed.
Print Assumptions C149_days.
Print Assumptions C149_levels.
Print Assumptions C149_days_refuted.
(* ---- C176 ---- *)
(* The claim is false: a text that is that of no moment of the run; the mark of an empty list,
   though a day is in it at every moment; no level, though one is there at every moment. *)
Theorem C176_refuted :
  ~ (forall sh, shifty_ok sh -> forall h0 v css q t, dcalls_ok h0 -> dow_run sh (DoW sh []) h0 = Some v -> (forall cs, In cs css -> dcalls_ok cs) -> in_order 0 t ->
      exists k, dow_string_at sh v css q t = dow_string sh (Some (dow_bits_at sh v css q k))) /\
  ~ (forall sh, shifty_ok sh -> forall fp a s init h0 v css q t0 t, abtv_isZero a = false -> abtv_string a = Some s ->
      lcalls_ok (IShift init :: h0) -> inh_run sh (Inherit sh a init) h0 = Some (MkInh v a) -> (forall cs, In cs css -> lcalls_ok cs) -> in_order t0 t ->
      exists k, inh_string_at sh fp a v css q t0 t = inh_string sh fp (Some (MkInh (inh_bits_at sh v css q k) a))) /\
  (let t (i : N) := if (i =? 1)%N then 0%nat else 4%nat in
   dow_string_at shifty_ref 10 [[DUnshift [DStr "sun"]; DShift [DStr "mon"]]] [0; 0; 0; 0]%nat t = "Sun,Mon,Tues"%string /\
   dow_string_at shifty_ref 4 [[DShift [DStr "sun"]; DUnshift [DStr "mon"]]] [0; 0; 0; 0]%nat t = "<invalid_days>"%string /\
   forall k, exists d, day_at shifty_ref 4 [[DShift [DStr "sun"]; DUnshift [DStr "mon"]]] [0; 0; 0; 0]%nat k d = true) /\
  (let t (i : N) := if (i <=? 1)%N then 0%nat else 4%nat in let css := [[IShift [LInt 0]; IUnshift [LInt 1]]] in
   let a := MkABTV BindUAT (Some (pair_of "manager" (WType USERDN))) in
   inh_string_at shifty_ref "" a 4 css [0; 0; 0; 0]%nat 0 t = "parent[].manager#USERDN"%string /\
   forall k, exists n, (n < 10)%N /\ level_at shifty_ref a 4 css [0; 0; 0; 0]%nat k n = true).
Proof.
  assert (O : in_order 0 (fun i : N => if (i <=? 1)%N then 0%nat else 4%nat)).
  { split; intros; repeat match goal with |- context[(?a <=? 1)%N] => destruct (N.leb_spec a 1) end; lia. }
  split; [|split; [|split; [split; [reflexivity|split; [reflexivity|]]|split; [reflexivity|]]]].
  - intros H. destruct (H shifty_ref shifty_ref_ok [DShift [DStr "sun"; DStr "tues"]] 10%N [[DUnshift [DStr "sun"]; DShift [DStr "mon"]]] [0; 0; 0; 0]%nat
      (fun i => if (i <=? 1)%N then 0%nat else 4%nat)) as (k & K).
    + intros c x [<-|[]] [<-|[<-|[]]]; exact I.
    + reflexivity.
    + intros cs [<-|[]] c x [<-|[<-|[]]] [<-|[]]; exact I.
    + exact O.
    + do 4 (destruct k as [|k]; [discriminate K|]). unfold dow_bits_at in K. destruct k; discriminate K.
  - intros H. pose (a := MkABTV BindUAT (Some (pair_of "manager" (WType USERDN)))).
    destruct (H shifty_ref shifty_ref_ok ""%string a "manager#USERDN"%string [LInt 1] [] 4%N [[IShift [LInt 0]; IUnshift [LInt 1]]] [0; 0; 0; 0]%nat 0%nat
      (fun i => if (i <=? 1)%N then 0%nat else 4%nat)) as (k & K).
    + reflexivity.
    + reflexivity.
    + intros c x [<-|[]] [<-|[]]. cbn. lia.
    + reflexivity.
    + intros cs [<-|[]] c x [<-|[<-|[]]] [<-|[]]; cbn; lia.
    + exact O.
    + do 4 (destruct k as [|k]; [discriminate K|]). unfold inh_bits_at in K. destruct k; discriminate K.
  - intros k. do 2 (destruct k as [|k]; [now exists DMon|]). do 2 (destruct k as [|k]; [now exists DSun|]). exists DSun. now destruct k.
  - intros k. do 2 (destruct k as [|k]; [now exists 1%N|]). do 2 (destruct k as [|k]; [now exists 0%N|]). exists 0%N. now destruct k.
Qed.

(* The hypotheses are met: a list of Monday and Friday, one goroutine that adds Sunday and
   takes Friday while another prints it; an inheritance of level 1. *)
Example C175_witness : dcalls_ok [DShift [DStr "mon"; DDay 64]] /\ dow_run shifty_ref (DoW shifty_ref []) [DShift [DStr "mon"; DDay 64]] = Some 68%N /\
  dcalls_ok [DShift [DInt 1]; DUnshift [DStr "friday"]] /\
  dow_string_at shifty_ref 68 [[DShift [DInt 1]; DUnshift [DStr "friday"]]] [0; 0; 0; 0]%nat (fun i => N.to_nat i) = "Mon"%string /\
  dow_string_at shifty_ref 68 [[DShift [DInt 1]; DUnshift [DStr "friday"]]] [0; 0; 0; 0]%nat (fun _ => 2%nat) = "Sun,Mon,Fri"%string.
Proof.
  split; [intros c x [<-|[]] [<-|[<-|[]]]; cbn; try exact I; split; [lia|reflexivity]|]. split; [reflexivity|].
  split; [intros c x [<-|[<-|[]]] [<-|[]]; exact I|]. split; reflexivity.
Qed.
Example C175_levels_witness : let a := MkABTV BindUAT (Some (pair_of "manager" (WType USERDN))) in
  abtv_isZero a = false /\ abtv_string a = Some "manager#USERDN"%string /\ inh_run shifty_ref (Inherit shifty_ref a [LInt 1]) [] = Some (MkInh 4 a) /\
  inh_string_at shifty_ref "" a 4 [[IShift [LInt 3]]] [0; 0]%nat 0 (fun i => N.to_nat i) = "parent[1,3].manager#USERDN"%string.
Proof. repeat split; reflexivity. Qed.
Print Assumptions C175_days.
Print Assumptions C175_days_still.
Print Assumptions C175_days_one.
Print Assumptions C175_days_rule.
Print Assumptions C176_rule_exact.
Print Assumptions C175_levels.
Print Assumptions C175_levels_still.
Print Assumptions C175_levels_one.
Print Assumptions C176_days_exact.
Print Assumptions C176_levels_exact.
Print Assumptions C176_refuted.
