(* Lemmas on permissions (C01-C04). *)
From Coq Require Import String Ascii List NArith ZArith Bool Lia.
From Verif Require Import GoStr Shifty MRights SRights.
Import ListNotations.
Open Scope string_scope.

Arguments rightsNames : simpl never.
Arguments lc : simpl never.
Arguments String.eqb : simpl never.
Arguments text_names : simpl never.

Ltac eqb_cases s :=
  repeat match goal with
  | |- context [String.eqb ?a s] => destruct (String.eqb_spec a s) as [<-|?]
  | |- context [String.eqb s ?a] => destruct (String.eqb_spec s a) as [->|?]
  end.

Lemma shifty_ref_ok : shifty_ok shifty_ref.
Proof.
  intros w v Hv. unfold shifty_ref; cbn [sh_shift sh_unshift sh_positive].
  assert (Hlor : forall x, (x < 2 ^ w)%N -> (N.lor v x < 2 ^ w)%N).
  { intros x Hx. destruct (N.eq_dec (N.lor v x) 0) as [E|E].
    - rewrite E. lia.
    - apply N.log2_lt_pow2; [lia|].
      rewrite N.log2_lor.
      destruct (N.eq_dec v 0) as [->|Ev].
      + rewrite N.lor_0_l in E. rewrite N.max_r by (cbn; lia). apply N.log2_lt_pow2; lia.
      + destruct (N.eq_dec x 0) as [->|Ex].
        * rewrite N.max_l by (cbn; lia). apply N.log2_lt_pow2; lia.
        * apply N.max_lub_lt; apply N.log2_lt_pow2; lia. }
  assert (Hldiff : forall x, (N.ldiff v x < 2 ^ w)%N).
  { intros x. apply N.le_lt_trans with v; [|assumption]. apply N.ldiff_le.
    apply N.bits_inj. intros n. rewrite !N.ldiff_spec, N.bits_0.
    destruct (N.testbit v n); reflexivity || (destruct (N.testbit x n); reflexivity). }
  split; [|split].
  - intros x H0 H1. rewrite N2Z.id.
    replace (0 <? Z.of_N x)%Z with true by (symmetry; apply Z.ltb_lt; lia).
    replace (x <? 2 ^ w)%N with true by (symmetry; apply N.ltb_lt; lia).
    split; reflexivity.
  - intros i Hi. rewrite N2Z.id.
    destruct (N.testbit v i) eqn:E.
    + apply negb_true_iff, N.eqb_neq. intros H.
      assert (N.testbit (N.land v (2 ^ i)) i = true) by
        (rewrite N.land_spec, E, N.pow2_bits_true; reflexivity).
      rewrite H, N.bits_0 in H0. discriminate.
    + apply negb_false_iff, N.eqb_eq. apply N.bits_inj. intros n.
      rewrite N.land_spec, N.bits_0, N.pow2_bits_eqb.
      destruct (N.eqb_spec i n) as [->|]; [rewrite E|]; [reflexivity|apply andb_false_r].
  - intros z. split.
    + destruct ((0 <? z)%Z && (Z.to_N z <? 2 ^ w)%N) eqn:E; [|assumption].
      apply andb_true_iff in E as [_ E]. apply Hlor. apply N.ltb_lt. assumption.
    + destruct ((0 <? z)%Z && (Z.to_N z <? 2 ^ w)%N); [apply Hldiff|assumption].
Qed.

Lemma shifty_clear_ok : shifty_ok shifty_clear.
Proof.
  intros w v Hv. destruct (shifty_ref_ok w v Hv) as (H1 & H2 & H3).
  split; [|split].
  - intros x A B. destruct (H1 x A B) as [E1 E2]. split; [|exact E2].
    unfold shifty_clear; cbn [sh_shift]. rewrite N2Z.id.
    replace (0 <? Z.of_N x)%Z with true by (symmetry; apply Z.ltb_lt; lia).
    replace (x <? 2 ^ w)%N with true by (symmetry; apply N.ltb_lt; lia). reflexivity.
  - intros i Hi. unfold shifty_clear; cbn [sh_positive]. rewrite N2Z.id.
    destruct (N.testbit v i) eqn:E.
    + apply N.eqb_eq. apply N.bits_inj. intros n.
      rewrite N.land_spec, N.pow2_bits_eqb.
      destruct (N.eqb_spec i n) as [->|]; [rewrite E; reflexivity|apply andb_false_r].
    + apply N.eqb_neq. intros H.
      assert (N.testbit (N.land v (2 ^ i)) i = true)
        by (rewrite H; apply N.pow2_bits_true).
      rewrite N.land_spec, E in H0. discriminate.
  - intros z. split; [|apply H3].
    unfold shifty_clear; cbn [sh_shift].
    destruct (0 <? z)%Z eqn:Ez; [|lia].
    specialize (H3 z). unfold shifty_ref in H3; cbn [sh_shift] in H3.
    rewrite Ez in H3. cbn [andb] in H3. apply H3.
Qed.

(* --- single bits --- *)
Lemma right_const_pos r : right_const r = (2 ^ right_pos r)%N.
Proof. destruct r; reflexivity. Qed.
Lemma right_pos_lt r : (right_pos r < 10)%N.
Proof. destruct r; reflexivity. Qed.

Lemma text_names_lookup s r :
  text_names s r = match rightsNames (lc s) with
                   | Some p => N.testbit p (right_pos r)
                   | None => false
                   end.
Proof.
  unfold text_names, rightsNames, rightsMap. cbn [lookup_name].
  generalize (lc s) as t. intros t.
  destruct r; cbn [right_name right_eqb right_pos]; eqb_cases t; try reflexivity; exfalso; congruence.
Qed.

Lemma rightsNames_bound t p : rightsNames t = Some p -> (p < 1024)%N /\ (p = 0%N -> t = "none").
Proof.
  unfold rightsNames, rightsMap. cbn [lookup_name].
  eqb_cases t; intros E; inversion E; subst; split; intros; try reflexivity; discriminate.
Qed.

Definition arg_num (x : rarg) : option N :=
  match x with
  | AInt z => Some (Z.to_N z)
  | ARight n => Some n
  | AStr s => rightsNames (lc s)
  | AOther => None
  end.

Lemma arg_num_covered x n : arg_covered x -> arg_num x = Some n -> (0 < n < 65536)%N.
Proof.
  destruct x; cbn; intros H E.
  - inversion E; lia.
  - inversion E; lia.
  - apply rightsNames_bound in E as [A B].
    destruct (N.eq_dec n 0) as [->|]; [exfalso; apply H, B; reflexivity|lia].
  - discriminate.
Qed.
Lemma arg_num_named x n : arg_named x -> arg_num x = Some n -> (0 < n < 1024)%N.
Proof.
  destruct x; cbn; intros H E.
  - inversion E; lia.
  - inversion E; lia.
  - apply rightsNames_bound in E as [A B].
    destruct (N.eq_dec n 0) as [->|]; [exfalso; apply H, B; reflexivity|lia].
  - discriminate.
Qed.
Lemma arg_named_covered x : arg_named x -> arg_covered x.
Proof. destruct x; cbn; auto; lia. Qed.

Lemma mentions_num x r :
  mentions x r = match arg_num x with Some n => N.testbit n (right_pos r) | None => false end.
Proof. destruct x; try reflexivity. apply text_names_lookup. Qed.

Section Sh.
Variable sh : shifty.
Hypothesis OK : shifty_ok sh.

Lemma shift1_num v x : (v < 65536)%N -> arg_covered x ->
  shift1 sh v x = match arg_num x with Some n => N.lor v n | None => v end.
Proof.
  intros Hv Hx. destruct (OK 16%N v Hv) as (H & _ & _).
  destruct (arg_num x) as [n|] eqn:E.
  - assert (B := arg_num_covered _ _ Hx E). destruct (H n) as [H1 _]; [lia|exact (proj2 B)|].
    destruct x as [z|m|s|]; cbn in *; try discriminate.
    + inversion E; subst. rewrite Z2N.id in H1 by lia. exact H1.
    + inversion E; subst. exact H1.
    + rewrite E. exact H1.
  - destruct x; cbn in *; try discriminate; [rewrite E|]; reflexivity.
Qed.

Lemma unshift1_num v x : (v < 65536)%N -> arg_covered x ->
  unshift1 sh v x = match arg_num x with Some n => N.ldiff v n | None => v end.
Proof.
  intros Hv Hx. destruct (OK 16%N v Hv) as (H & _ & _).
  destruct (arg_num x) as [n|] eqn:E.
  - assert (B := arg_num_covered _ _ Hx E). destruct (H n) as [_ H1]; [lia|exact (proj2 B)|].
    destruct x as [z|m|s|]; cbn in *; try discriminate.
    + inversion E; subst. rewrite Z2N.id in H1 by lia. exact H1.
    + inversion E; subst. exact H1.
    + rewrite E. exact H1.
  - destruct x; cbn in *; try discriminate; [rewrite E|]; reflexivity.
Qed.

Lemma shift1_lt v x : (v < 65536)%N -> (shift1 sh v x < 65536)%N.
Proof.
  intros Hv. destruct (OK 16%N v Hv) as (_ & _ & H).
  destruct x; cbn; try apply H; try assumption.
  destruct (rightsNames (lc s)); [apply H|assumption].
Qed.
Lemma unshift1_lt v x : (v < 65536)%N -> (unshift1 sh v x < 65536)%N.
Proof.
  intros Hv. destruct (OK 16%N v Hv) as (_ & _ & H).
  destruct x; cbn; try apply H; try assumption.
  destruct (rightsNames (lc s)); [apply H|assumption].
Qed.

Lemma shift1_bit v x r : (v < 65536)%N -> arg_covered x ->
  N.testbit (shift1 sh v x) (right_pos r) = mentions x r || N.testbit v (right_pos r).
Proof.
  intros Hv Hx. rewrite shift1_num, mentions_num by assumption.
  destruct (arg_num x); [rewrite N.lor_spec; apply orb_comm|reflexivity].
Qed.
Lemma unshift1_bit v x r : (v < 65536)%N -> arg_covered x ->
  N.testbit (unshift1 sh v x) (right_pos r) = negb (mentions x r) && N.testbit v (right_pos r).
Proof.
  intros Hv Hx. rewrite unshift1_num, mentions_num by assumption.
  destruct (arg_num x); [rewrite N.ldiff_spec; apply andb_comm|reflexivity].
Qed.

Lemma shift_bits_lt xs v : (v < 65536)%N -> (shift_bits sh v xs < 65536)%N.
Proof. revert v. induction xs; cbn; intros; [assumption|apply IHxs, shift1_lt; assumption]. Qed.
Lemma unshift_bits_lt xs v : (v < 65536)%N -> (unshift_bits sh v xs < 65536)%N.
Proof. revert v. induction xs; cbn; intros; [assumption|apply IHxs, unshift1_lt; assumption]. Qed.

Lemma shift_bits_bit xs v r : (v < 65536)%N -> (forall x, In x xs -> arg_covered x) ->
  N.testbit (shift_bits sh v xs) (right_pos r) =
  existsb (fun x => mentions x r) xs || N.testbit v (right_pos r).
Proof.
  revert v. induction xs as [|x xs IH]; intros v Hv H; [reflexivity|].
  cbn [shift_bits fold_left existsb]. fold (shift_bits sh (shift1 sh v x) xs).
  rewrite IH; [|apply shift1_lt; assumption|intros; apply H; right; assumption].
  rewrite shift1_bit; [|assumption|apply H; left; reflexivity].
  destruct (mentions x r), (existsb (fun y => mentions y r) xs); reflexivity.
Qed.
Lemma unshift_bits_bit xs v r : (v < 65536)%N -> (forall x, In x xs -> arg_covered x) ->
  N.testbit (unshift_bits sh v xs) (right_pos r) =
  negb (existsb (fun x => mentions x r) xs) && N.testbit v (right_pos r).
Proof.
  revert v. induction xs as [|x xs IH]; intros v Hv H; [reflexivity|].
  cbn [unshift_bits fold_left existsb]. fold (unshift_bits sh (unshift1 sh v x) xs).
  rewrite IH; [|apply unshift1_lt; assumption|intros; apply H; right; assumption].
  rewrite unshift1_bit; [|assumption|apply H; left; reflexivity].
  destruct (mentions x r), (existsb (fun y => mentions y r) xs); reflexivity.
Qed.

(* --- histories --- *)
Lemma run_some h d v : (v < 65536)%N ->
  exists v', perm_run sh (PSome d v) h = PSome d v' /\ (v' < 65536)%N.
Proof.
  revert v. induction h as [|c h IH]; intros v Hv; [exists v; split; [reflexivity|assumption]|].
  destruct c as [xs|xs]; cbn.
  - apply IH, shift_bits_lt, Hv.
  - apply IH, unshift_bits_lt, Hv.
Qed.

Lemma run_bit h d v r : (v < 65536)%N -> calls_ok arg_covered h ->
  exists v', perm_run sh (PSome d v) h = PSome d v' /\ (v' < 65536)%N /\
             N.testbit v' (right_pos r) = granted (N.testbit v (right_pos r)) h r.
Proof.
  revert v. induction h as [|c h IH]; intros v Hv H; [exists v; auto|].
  assert (Hc : forall x, In x (call_args c) -> arg_covered x).
  { intros x Hx. apply (H c x); [left; reflexivity|assumption]. }
  assert (Hh : calls_ok arg_covered h).
  { intros c' x A B. apply (H c' x); [right; assumption|assumption]. }
  destruct c as [xs|xs]; cbn [perm_run fold_left perm_step perm_shift perm_unshift];
    cbn [call_args] in Hc.
  - destruct (IH (shift_bits sh v xs)) as (v' & A & B & C); [apply shift_bits_lt, Hv|exact Hh|].
    exists v'. split; [exact A|split; [exact B|]]. rewrite C. cbn [granted call_args is_shift].
    rewrite shift_bits_bit by assumption.
    destruct (existsb _ xs); reflexivity.
  - destruct (IH (unshift_bits sh v xs)) as (v' & A & B & C); [apply unshift_bits_lt, Hv|exact Hh|].
    exists v'. split; [exact A|split; [exact B|]]. rewrite C. cbn [granted call_args is_shift].
    rewrite unshift_bits_bit by assumption.
    destruct (existsb _ xs); reflexivity.
Qed.

Lemma positive_bit v r : (v < 65536)%N ->
  positive_int sh v (Z.of_N (right_const r)) = N.testbit v (right_pos r).
Proof.
  intros Hv. unfold positive_int.
  replace ((Z.of_N (right_const r) =? 0)%Z) with false by (destruct r; reflexivity).
  cbn [andb]. rewrite right_const_pos.
  destruct (OK 16%N v Hv) as (_ & H & _). apply H.
  apply N.lt_trans with 10%N; [apply right_pos_lt|reflexivity].
Qed.

Lemma history_positive d init h r :
  calls_ok arg_covered (CShift init :: h) ->
  perm_positive sh (perm_run sh (newPermission sh d init) h) (ARight (right_const r)) =
  granted false (CShift init :: h) r.
Proof.
  intros H.
  destruct (run_bit (CShift init :: h) d 0%N r) as (v & A & B & C); [reflexivity|exact H|].
  change (perm_run sh (newPermission sh d init) h)
    with (perm_run sh (PSome d 0%N) (CShift init :: h)).
  rewrite A. cbn [perm_positive positive_bits]. rewrite positive_bit by assumption. exact C.
Qed.

Lemma positive_by_name p s r : lc s = right_name r ->
  perm_positive sh p (AStr s) = perm_positive sh p (ARight (right_const r)).
Proof.
  intros E. destruct p as [|d v]; [reflexivity|]. cbn. rewrite E.
  destruct r; reflexivity.
Qed.

(* --- printing --- *)
Definition names_of (v : N) : list string :=
  if (v =? 895)%N then ["all"]
  else if (v =? 1023)%N then ["all"; "proxy"]
  else if (v =? 0)%N then ["none"]
  else map (fun i => right_string (2 ^ i)) (filter (N.testbit v) bits16).

Lemma filter_ext_in' {A} (f g : A -> bool) l :
  (forall x, In x l -> f x = g x) -> filter f l = filter g l.
Proof. apply filter_ext_in. Qed.

Lemma perm_right_names_of v : (v < 65536)%N -> perm_right_names sh v = names_of v.
Proof.
  intros Hv. unfold perm_right_names, names_of.
  change AllAccess with 895%N. change NoAccess with 0%N. change ProxyAccess with 128%N.
  destruct (v =? 895)%N; [reflexivity|]. destruct (v =? 1023)%N; [reflexivity|].
  destruct (v =? 0)%N; [reflexivity|].
  f_equal. apply filter_ext_in. intros i Hi. unfold positive_int.
  assert (Hw : (i < 16)%N).
  { cbn in Hi. repeat (destruct Hi as [<-|Hi]; [reflexivity|]). destruct Hi. }
  replace ((Z.of_N (2 ^ i) =? 0)%Z) with false.
  - cbn [andb]. destruct (OK 16%N v Hv) as (_ & H & _). apply H, Hw.
  - symmetry. apply Z.eqb_neq. assert (2 ^ i <> 0)%N by (apply N.pow_nonzero; discriminate). lia.
Qed.
End Sh.

(* enumeration of all 10-bit values *)
Fixpoint upto (n : nat) : list N :=
  match n with O => [] | S m => N.of_nat m :: upto m end.
Lemma upto_in n k : (k < N.of_nat n)%N -> In k (upto n).
Proof.
  induction n as [|n IH]; intros H; [lia|].
  cbn [upto]. destruct (N.eq_dec k (N.of_nat n)) as [->|]; [left; reflexivity|].
  right. apply IH. lia.
Qed.
Lemma upto_forall (f : N -> bool) n :
  forallb f (upto n) = true -> forall k, (k < N.of_nat n)%N -> f k = true.
Proof. intros H k Hk. rewrite forallb_forall in H. apply H, upto_in, Hk. Qed.

Definition bits_set (v : N) (r : right) : bool := N.testbit v (right_pos r).

Fixpoint list_eqb (a b : list string) : bool :=
  match a, b with
  | [], [] => true
  | x :: a', y :: b' => (String.eqb x y && list_eqb a' b')%bool
  | _, _ => false
  end.
Lemma list_eqb_eq a b : list_eqb a b = true -> a = b.
Proof.
  revert b. induction a as [|x a IH]; destruct b as [|y b]; cbn; intros H; try discriminate; [reflexivity|].
  apply andb_true_iff in H as [H1 H2]. apply String.eqb_eq in H1. subst. f_equal. apply IH, H2.
Qed.

Lemma names_of_spec v : (v < 1024)%N -> names_of v = spec_names (bits_set v).
Proof.
  intros Hv. apply list_eqb_eq.
  exact (upto_forall (fun v => list_eqb (names_of v) (spec_names (bits_set v))) 1024
           ltac:(vm_compute; reflexivity) v Hv).
Qed.

Lemma forallb_ext' {A} (f g : A -> bool) l : (forall x, f x = g x) -> forallb f l = forallb g l.
Proof. intros H. induction l; cbn; [reflexivity|rewrite H, IHl; reflexivity]. Qed.

Lemma spec_names_ext g g' : (forall r, g r = g' r) -> spec_names g = spec_names g'.
Proof.
  intros H. unfold spec_names.
  rewrite (forallb_ext' (fun r => eqb (g r) (negb (right_eqb r Proxy)))
                        (fun r => eqb (g' r) (negb (right_eqb r Proxy)))) by (intros; rewrite H; reflexivity).
  rewrite (forallb_ext' g g') by assumption.
  rewrite (forallb_ext' (fun r => negb (g r)) (fun r => negb (g' r))) by (intros; rewrite H; reflexivity).
  rewrite (filter_ext g g') by assumption. reflexivity.
Qed.

Lemma lor_lt_pow2 w v x : (v < 2 ^ w)%N -> (x < 2 ^ w)%N -> (N.lor v x < 2 ^ w)%N.
Proof.
  intros Hv Hx. destruct (N.eq_dec (N.lor v x) 0) as [E|E]; [rewrite E; lia|].
  apply N.log2_lt_pow2; [lia|]. rewrite N.log2_lor.
  destruct (N.eq_dec v 0) as [->|Ev].
  - rewrite N.lor_0_l in E. rewrite N.max_r by (cbn; lia). apply N.log2_lt_pow2; lia.
  - destruct (N.eq_dec x 0) as [->|Ex].
    + rewrite N.max_l by (cbn; lia). apply N.log2_lt_pow2; lia.
    + apply N.max_lub_lt; apply N.log2_lt_pow2; lia.
Qed.
Lemma ldiff_le_l v x : (N.ldiff v x <= v)%N.
Proof.
  apply N.ldiff_le. apply N.bits_inj. intros n. rewrite !N.ldiff_spec, N.bits_0.
  destruct (N.testbit v n), (N.testbit x n); reflexivity.
Qed.

Section Sh2.
Variable sh : shifty.
Hypothesis OK : shifty_ok sh.

Lemma named_run_lt h d v : (v < 1024)%N -> calls_ok arg_named h ->
  exists v', perm_run sh (PSome d v) h = PSome d v' /\ (v' < 1024)%N.
Proof.
  revert v. induction h as [|c h IH]; intros v Hv H; [exists v; auto|].
  assert (Hc : forall x, In x (call_args c) -> arg_named x)
    by (intros x Hx; apply (H c x); [left; reflexivity|assumption]).
  assert (Hh : calls_ok arg_named h)
    by (intros c' x A B; apply (H c' x); [right; assumption|assumption]).
  destruct c as [xs|xs]; cbn [perm_run fold_left perm_step perm_shift perm_unshift]; cbn [call_args] in Hc;
    apply IH; try exact Hh; clear IH H Hh; revert v Hv Hc; induction xs as [|x xs IHx]; intros v Hv Hc;
    try exact Hv; cbn [shift_bits unshift_bits fold_left]; apply IHx;
    try (intros; apply Hc; right; assumption).
  - rewrite shift1_num by (try assumption; try lia; apply arg_named_covered, Hc; left; reflexivity).
    destruct (arg_num x) eqn:E; [|assumption].
    assert (B := arg_num_named _ _ (Hc x (or_introl eq_refl)) E).
    apply (lor_lt_pow2 10%N); [exact Hv|exact (proj2 B)].
  - rewrite unshift1_num by (try assumption; try lia; apply arg_named_covered, Hc; left; reflexivity).
    destruct (arg_num x) eqn:E; [|assumption].
    apply N.le_lt_trans with v; [apply ldiff_le_l|assumption].
Qed.

Lemma calls_named_covered h : calls_ok arg_named h -> calls_ok arg_covered h.
Proof. intros H c x A B. apply arg_named_covered, (H c x A B). Qed.

Lemma history_text d init h :
  calls_ok arg_named (CShift init :: h) ->
  perm_string sh (perm_run sh (newPermission sh d init) h) =
  spec_text d (granted false (CShift init :: h)).
Proof.
  intros H.
  change (perm_run sh (newPermission sh d init) h)
    with (perm_run sh (PSome d 0%N) (CShift init :: h)).
  destruct (named_run_lt (CShift init :: h) d 0%N) as (v & A & B); [reflexivity|exact H|].
  rewrite A. cbn [perm_string]. rewrite perm_right_names_of by (try assumption; lia).
  rewrite names_of_spec by assumption.
  unfold spec_text, perm_sprintf. cbn [perm_disposition].
  rewrite (spec_names_ext (bits_set v) (granted false (CShift init :: h))).
  - destruct d; reflexivity.
  - intros r. destruct (run_bit sh OK (CShift init :: h) d 0%N r) as (v' & A' & _ & C);
      [reflexivity|apply calls_named_covered, H|].
    rewrite A' in A. inversion A; subst. unfold bits_set. rewrite C. reflexivity.
Qed.
End Sh2.

(* --- reading tokens --- *)
Definition tokens_covered (toks : list string) : Prop :=
  forall t, In t toks -> lc t <> "none".

Lemma rightsNames_none : rightsNames "none" = Some 0%N.
Proof. reflexivity. Qed.

Section Sh3.
Variable sh : shifty.
Hypothesis OK : shifty_ok sh.

Lemma unpack_loop toks a : (a < 1024)%N -> tokens_covered toks ->
  exists a', fold_left (unpack_step sh) toks (a, a) = (a', a') /\ (a' < 1024)%N /\
    forall r, N.testbit a' (right_pos r) =
              existsb (fun t => text_names t r) toks || N.testbit a (right_pos r).
Proof.
  revert a. induction toks as [|t toks IH]; intros a Ha H; [exists a; auto|].
  cbn [fold_left]. unfold unpack_step at 2. cbn [fst snd].
  assert (Hc : arg_covered (AStr t)) by (apply H; left; reflexivity).
  assert (S := shift1_num sh OK a (AStr t) ltac:(lia) Hc). cbn [arg_num] in S.
  destruct (rightsNames (lc t)) as [p|] eqn:E.
  - rewrite S. destruct (rightsNames_bound _ _ E) as [Hp _].
    destruct (IH (N.lor a p)) as (a' & A & B & C).
    + apply (lor_lt_pow2 10%N); assumption.
    + intros t' Ht. apply H. right. assumption.
    + exists a'. split; [exact A|split; [exact B|]]. intros r. rewrite C. cbn [existsb].
      rewrite text_names_lookup, E, N.lor_spec.
      destruct (N.testbit p (right_pos r)), (N.testbit a (right_pos r)),
        (existsb (fun t' => text_names t' r) toks); reflexivity.
  - destruct (IH a Ha) as (a' & A & B & C).
    + intros t' Ht. apply H. right. assumption.
    + exists a'. split; [exact A|split; [exact B|]]. intros r. rewrite C. cbn [existsb].
      rewrite text_names_lookup, E. reflexivity.
Qed.

Lemma read_tokens d toks : tokens_covered toks ->
  exists v, unpackageAntlrPermission sh {| ap_allow := Some d; ap_rights := toks |} = Some (PSome d v)
    /\ (v < 1024)%N
    /\ forall r, perm_positive sh (PSome d v) (ARight (right_const r)) =
                 existsb (fun t => text_names t r) toks.
Proof.
  intros H. destruct (unpack_loop toks 0%N) as (v & A & B & C); [reflexivity|exact H|].
  exists v. unfold unpackageAntlrPermission. cbn [ap_rights ap_allow]. rewrite A.
  rewrite N.eqb_refl. split; [reflexivity|]. split; [exact B|]. intros r.
  cbn [perm_positive positive_bits]. rewrite (positive_bit sh OK) by lia.
  rewrite C, N.bits_0. apply orb_false_r.
Qed.
End Sh3.

From Verif Require Import GoStrFacts.

(* --- the text determines the permission --- *)
Lemma names_decode v r : (v < 1024)%N ->
  existsb (fun t => text_names t r) (names_of v) = bits_set v r.
Proof.
  intros Hv.
  assert (H := upto_forall
    (fun v => forallb (fun r => eqb (existsb (fun t => text_names t r) (names_of v)) (bits_set v r)) all_rights)
    1024 ltac:(vm_compute; reflexivity) v Hv).
  cbv beta in H. rewrite forallb_forall in H. apply eqb_prop, H. destruct r; cbn; tauto.
Qed.

Lemma names_clean v : (v < 1024)%N ->
  names_of v <> [] /\ forall x, In x (names_of v) -> no_byte "," x = true.
Proof.
  intros Hv.
  assert (H := upto_forall
    (fun v => (negb (list_eqb (names_of v) []) && forallb (no_byte ",") (names_of v))%bool)
    1024 ltac:(vm_compute; reflexivity) v Hv).
  cbv beta in H. apply andb_true_iff in H as [A B]. split.
  - intros E. rewrite E in A. discriminate.
  - rewrite forallb_forall in B. exact B.
Qed.

(* every set of rights is one of the 1024 values *)
Definition bits_of (g : right -> bool) : N :=
  fold_right (fun r acc => if g r then N.lor (2 ^ right_pos r) acc else acc) 0%N all_rights.
Lemma bits_of_spec g : (bits_of g < 1024)%N /\ forall r, bits_set (bits_of g) r = g r.
Proof.
  unfold bits_of, bits_set, all_rights. cbn [fold_right].
  destruct (g Read) eqn:?, (g Write) eqn:?, (g Add) eqn:?, (g Delete) eqn:?, (g Search) eqn:?,
    (g Compare) eqn:?, (g SelfWrite) eqn:?, (g Proxy) eqn:?, (g Import) eqn:?, (g Export) eqn:?;
    (split; [vm_compute; reflexivity|intros []; symmetry; assumption]).
Qed.

Lemma spec_names_bits g : spec_names g = names_of (bits_of g).
Proof.
  destruct (bits_of_spec g) as [A B]. rewrite names_of_spec by assumption.
  apply spec_names_ext. intros r. symmetry. apply B.
Qed.

Lemma spec_text_inj d g d' g' : spec_text d g = spec_text d' g' ->
  d = d' /\ forall r, g r = g' r.
Proof.
  unfold spec_text. intros H.
  assert (D : d = d') by (destruct d, d'; try reflexivity; discriminate H).
  subst d'. split; [reflexivity|].
  apply app_inj_l in H. apply (app_inj_l "(") in H. apply app_inj_r in H.
  rewrite !spec_names_bits in H.
  destruct (bits_of_spec g) as [A B], (bits_of_spec g') as [A' B'].
  destruct (names_clean _ A) as [C1 C2], (names_clean _ A') as [C1' C2'].
  apply join_inj in H; try assumption.
  intros r. rewrite <- B, <- B', <- !names_decode by assumption. rewrite H. reflexivity.
Qed.

(* --- reading back, any bit library --- *)
Lemma unpack_fst sh toks a b :
  fst (fold_left (unpack_step sh) toks (a, b)) =
  fold_left (fun acc t => match rightsNames (lc t) with Some p => N.lor acc p | None => acc end) toks a.
Proof.
  revert a b. induction toks as [|t toks IH]; intros a b; [reflexivity|].
  cbn [fold_left]. unfold unpack_step at 2. cbn [fst snd].
  destruct (rightsNames (lc t)); apply IH.
Qed.
Lemma or_names_bit toks a r :
  N.testbit (fold_left (fun acc t => match rightsNames (lc t) with Some p => N.lor acc p | None => acc end) toks a)
            (right_pos r) = existsb (fun t => text_names t r) toks || N.testbit a (right_pos r).
Proof.
  revert a. induction toks as [|t toks IH]; intros a; [reflexivity|].
  cbn [fold_left existsb]. rewrite IH, text_names_lookup.
  destruct (rightsNames (lc t)) as [p|].
  - rewrite N.lor_spec. destruct (N.testbit p (right_pos r)), (N.testbit a (right_pos r)),
      (existsb (fun t' => text_names t' r) toks); reflexivity.
  - reflexivity.
Qed.
Lemma or_names_lt toks a : (a < 1024)%N ->
  (fold_left (fun acc t => match rightsNames (lc t) with Some p => N.lor acc p | None => acc end) toks a < 1024)%N.
Proof.
  revert a. induction toks as [|t toks IH]; intros a Ha; [exact Ha|].
  cbn [fold_left]. apply IH. destruct (rightsNames (lc t)) eqn:E; [|exact Ha].
  apply (lor_lt_pow2 10%N); [exact Ha|]. apply (rightsNames_bound _ _ E).
Qed.

Lemma read_sound sh ap p : unpackageAntlrPermission sh ap = Some p ->
  exists d v, ap_allow ap = Some d /\ p = PSome d v /\ (v < 1024)%N /\
    forall r, bits_set v r = existsb (fun t => text_names t r) (ap_rights ap).
Proof.
  unfold unpackageAntlrPermission. intros H.
  assert (F := unpack_fst sh (ap_rights ap) 0%N 0%N).
  destruct (fold_left (unpack_step sh) (ap_rights ap) (0, 0)%N) as [bits rint]. cbn [fst] in F.
  destruct (N.eqb_spec bits rint) as [E|]; [|discriminate].
  destruct (ap_allow ap) as [d|]; [|discriminate]. inversion H; subst p.
  exists d, rint. split; [reflexivity|]. split; [reflexivity|]. rewrite <- E, F. split.
  - apply or_names_lt. reflexivity.
  - intros r. unfold bits_set. rewrite or_names_bit, N.bits_0. apply orb_false_r.
Qed.

Lemma bits_set_inj v v' : (v < 1024)%N -> (v' < 1024)%N ->
  (forall r, bits_set v r = bits_set v' r) -> v = v'.
Proof.
  intros Hv Hv' H. apply N.bits_inj. intros n.
  destruct (N.lt_ge_cases n 10) as [L|L].
  - assert (exists r, right_pos r = n) as [r <-]; [|apply H].
    assert (n = 0 \/ n = 1 \/ n = 2 \/ n = 3 \/ n = 4 \/ n = 5 \/ n = 6 \/ n = 7 \/ n = 8 \/ n = 9)%N
      as C by lia.
    repeat destruct C as [->|C]; try subst n;
    [exists Read|exists Write|exists Add|exists Delete|exists Search|exists Compare|
     exists SelfWrite|exists Proxy|exists Import|exists Export]; reflexivity.
  - assert (B : forall x, (x < 1024)%N -> N.testbit x n = false).
    { intros x Hx. destruct (N.eq_dec x 0) as [->|]; [apply N.bits_0|].
      apply N.bits_above_log2. apply N.lt_le_trans with 10%N; [|exact L].
      apply N.log2_lt_pow2; [lia|exact Hx]. }
    rewrite (B v Hv), (B v' Hv'). reflexivity.
Qed.

Lemma names_none_iff v : (v < 1024)%N -> (exists t, In t (names_of v) /\ lc t = "none") -> v = 0%N.
Proof.
  intros Hv [t [A B]].
  assert (H := upto_forall
    (fun v => ((v =? 0)%N || forallb (fun t => negb (String.eqb (lc t) "none")) (names_of v))%bool)
    1024 ltac:(vm_compute; reflexivity) v Hv).
  cbv beta in H. apply orb_true_iff in H as [H|H]; [apply N.eqb_eq; exact H|].
  rewrite forallb_forall in H. specialize (H t A). rewrite B in H. discriminate.
Qed.

Lemma round_trip sh d v : shifty_ok sh -> (v < 1024)%N ->
  exists body, perm_string sh (PSome d v) = perm_disposition (PSome d v) ++ "(" ++ body ++ ")" /\
    ((v <> 0)%N -> unpackageAntlrPermission sh {| ap_allow := Some d; ap_rights := split1 "," body |} = Some (PSome d v)) /\
    (forall p, unpackageAntlrPermission sh {| ap_allow := Some d; ap_rights := split1 "," body |} = Some p -> p = PSome d v).
Proof.
  intros OK Hv. exists (join "," (names_of v)). split; [|].
  - cbn [perm_string]. rewrite (perm_right_names_of sh OK) by lia. reflexivity.
  - destruct (names_clean v Hv) as [C1 C2]. rewrite (split1_join "," (names_of v) C1 C2).
    assert (S : forall p, unpackageAntlrPermission sh {| ap_allow := Some d; ap_rights := names_of v |} = Some p -> p = PSome d v).
    { intros p H. apply read_sound in H as (d' & v' & A & -> & B & C). cbn in A. inversion A; subst d'.
      f_equal. apply bits_set_inj; try assumption. intros r. rewrite C. apply names_decode, Hv. }
    split; [|exact S]. intros N0.
    destruct (read_tokens sh OK d (names_of v)) as (v' & A & _ & _).
    + intros t Ht E. apply N0, names_none_iff; [assumption|]. exists t. auto.
    + rewrite A. f_equal. apply S, A.
Qed.
