(* Lemmas on days and clock times (C09-C12). *)
From Coq Require Import String Ascii List PeanoNat NArith ZArith Bool Lia.
From Verif Require Import GoStr GoStrFacts Shifty MMisc MTime STime PRights.
Import ListNotations.
Open Scope string_scope.

Arguments lc : simpl never.
Arguments matchStrDoW : simpl never.
Arguments day_spellings : simpl never.

Lemma strInSlice_in s l : strInSlice s l = true <-> In s l.
Proof.
  induction l as [|x l IH]; cbn [strInSlice In]; [easy|].
  rewrite orb_true_iff, IH, String.eqb_eq. intuition congruence.
Qed.

Lemma matchStr_some s : (exists d, names_day s d /\ matchStrDoW s = day_const d) \/
  ((forall d, ~ names_day s d) /\ matchStrDoW s = 0%N).
Proof.
  unfold names_day, matchStrDoW.
  repeat match goal with
  | |- context [if strInSlice ?a ?l then _ else _] =>
      let E := fresh "E" in destruct (strInSlice a l) eqn:E
  end.
  1: left; exists DSun. 2: left; exists DMon. 3: left; exists DTue. 4: left; exists DWed.
  5: left; exists DThu. 6: left; exists DFri. 7: left; exists DSat.
  8: { right. split; [|easy]. intros d H. apply strInSlice_in in H.
       destruct d; unfold day_spellings in H; congruence. }
  all: split; [|reflexivity]; apply strInSlice_in; assumption.
Qed.
Lemma names_day_inj s d d' : names_day s d -> names_day s d' -> d = d'.
Proof.
  unfold names_day. generalize (lc s). intros l H H'.
  destruct d, d'; try reflexivity; exfalso; unfold day_spellings in *; cbn [In] in *;
    repeat destruct H as [<-|H]; try contradiction;
    repeat destruct H' as [H'|H']; try contradiction; discriminate H'.
Qed.
Lemma matchStr_iff s d : matchStrDoW s = day_const d <-> names_day s d.
Proof.
  destruct (matchStr_some s) as [(d' & H & ->)|[H ->]].
  - split; [intros E|intros H'; f_equal; now apply (names_day_inj s)].
    assert (d' = d) as <- by (destruct d', d; congruence || discriminate E). easy.
  - split; [destruct d; discriminate|]. intros H'. now apply H in H'.
Qed.
Lemma matchStr_zero s : matchStrDoW s = 0%N <-> forall d, ~ names_day s d.
Proof.
  destruct (matchStr_some s) as [(d' & H & ->)|[H ->]]; split; try easy.
  - destruct d'; discriminate.
  - intros H'. now apply H' in H.
Qed.
Lemma matchInt_some z : (exists d, z = day_num d /\ matchIntDoW z = day_const d) \/
  ((forall d, z <> day_num d) /\ matchIntDoW z = 0%N).
Proof.
  unfold matchIntDoW.
  repeat match goal with
  | |- context [if (?a =? ?l)%Z then _ else _] =>
      let E := fresh "E" in destruct (Z.eqb_spec a l) as [E|E]
  end.
  1: left; exists DSun. 2: left; exists DMon. 3: left; exists DTue. 4: left; exists DWed.
  5: left; exists DThu. 6: left; exists DFri. 7: left; exists DSat.
  8: { right. split; [|easy]. intros []; assumption. }
  all: split; [assumption|reflexivity].
Qed.

Lemma dmentions_str s d : dmentions (DStr s) d = true <-> names_day s d.
Proof.
  cbn [dmentions]. unfold names_day. rewrite existsb_exists. split.
  - intros (x & Hi & E). apply String.eqb_eq in E as ->. easy.
  - intros H. exists (lc s). split; [easy|]. apply String.eqb_refl.
Qed.

(* the number shifted for an argument *)
Definition darg_num (x : darg) : option N :=
  match x with
  | DInt z => if (matchIntDoW z =? 0)%N then None else Some (matchIntDoW z)
  | DStr s => if (matchStrDoW s =? 0)%N then None else Some (matchStrDoW s)
  | DDay n => Some n
  | DOther => None
  end.
Lemma day_const_pos d : day_const d = (2 ^ day_pos d)%N.
Proof. now destruct d. Qed.
Lemma testbit_const d d' : N.testbit (day_const d) (day_pos d') = (day_num d =? day_num d')%Z.
Proof. now destruct d, d'. Qed.
Lemma darg_mentions x d :
  dmentions x d = match darg_num x with Some n => N.testbit n (day_pos d) | None => false end.
Proof.
  destruct x as [z|s|n|]; cbn [dmentions darg_num]; try reflexivity.
  - destruct (matchInt_some z) as [(d' & -> & ->)|[H ->]].
    + replace (day_const d' =? 0)%N with false by now destruct d'. now rewrite testbit_const.
    + apply Z.eqb_neq, H.
  - change (existsb _ _) with (dmentions (DStr s) d).
    destruct (matchStr_some s) as [(d' & H & ->)|[H ->]].
    + replace (day_const d' =? 0)%N with false by now destruct d'. rewrite testbit_const.
      apply eq_true_iff_eq. rewrite dmentions_str, Z.eqb_eq. split; intros H'.
      * now rewrite (names_day_inj s d' d).
      * assert (d' = d) as <- by (destruct d', d; congruence || discriminate H'). easy.
    + destruct (dmentions (DStr s) d) eqn:E; [|easy]. apply dmentions_str in E. now apply H in E.
Qed.
Lemma darg_num_ok x n : darg_ok x -> darg_num x = Some n -> (0 < n < 256)%N /\ N.testbit n 0 = false.
Proof.
  destruct x as [z|s|m|]; cbn [darg_ok darg_num]; intros H E.
  - destruct (matchInt_some z) as [(d' & -> & H')|[_ H']]; rewrite H' in E; [|discriminate].
    destruct d'; injection E as <-; split; easy.
  - destruct (matchStr_some s) as [(d' & _ & H')|[_ H']]; rewrite H' in E; [|discriminate].
    destruct d'; injection E as <-; split; easy.
  - injection E as <-. easy.
  - discriminate.
Qed.

Definition small (v : N) : Prop := (v < 256)%N /\ N.testbit v 0 = false.

Section Contract.
Variable sh : shifty.
Hypothesis OK : shifty_ok sh.

Lemma dshift1_num v x : (v < 256)%N -> darg_ok x ->
  dow_shift1 sh v x = match darg_num x with Some n => N.lor v n | None => v end.
Proof.
  intros Hv Hx. assert (H := darg_num_ok x). destruct (OK 8%N v Hv) as (A & _).
  destruct x as [z|s|n|]; cbn [dow_shift1 darg_num] in *; unfold noDay; try reflexivity.
  - destruct (matchIntDoW z =? 0)%N; [easy|]. specialize (H _ Hx eq_refl). now apply A.
  - destruct (matchStrDoW s =? 0)%N; [easy|]. specialize (H _ Hx eq_refl). now apply A.
  - specialize (H _ Hx eq_refl). now apply A.
Qed.
Lemma dunshift1_num v x : (v < 256)%N -> darg_ok x ->
  dow_unshift1 sh v x = match darg_num x with Some n => N.ldiff v n | None => v end.
Proof.
  intros Hv Hx. assert (H := darg_num_ok x). destruct (OK 8%N v Hv) as (A & _).
  destruct x as [z|s|n|]; cbn [dow_unshift1 darg_num] in *; unfold noDay; try reflexivity.
  - destruct (matchIntDoW z =? 0)%N; [easy|]. specialize (H _ Hx eq_refl). now apply A.
  - destruct (matchStrDoW s =? 0)%N; [easy|]. specialize (H _ Hx eq_refl). now apply A.
  - specialize (H _ Hx eq_refl). now apply A.
Qed.
Lemma dshift1_small v x : small v -> darg_ok x -> small (dow_shift1 sh v x).
Proof.
  intros [Hv H0] Hx. rewrite dshift1_num by easy. destruct (darg_num x) as [n|] eqn:E; [|now split].
  apply darg_num_ok in E as [E1 E2]; [|easy]. split.
  - apply (lor_lt_pow2 8%N); [exact Hv|apply E1].
  - rewrite N.lor_spec, H0, E2. easy.
Qed.
Lemma dunshift1_small v x : small v -> darg_ok x -> small (dow_unshift1 sh v x).
Proof.
  intros [Hv H0] Hx. rewrite dunshift1_num by easy. destruct (darg_num x) as [n|] eqn:E; [|now split].
  split.
  - assert (H := ldiff_le_l v n). lia.
  - rewrite N.ldiff_spec, H0. easy.
Qed.
Lemma dshift1_bit v x d : small v -> darg_ok x ->
  N.testbit (dow_shift1 sh v x) (day_pos d) = (dmentions x d || N.testbit v (day_pos d))%bool.
Proof.
  intros [Hv _] Hx. rewrite dshift1_num, darg_mentions by easy. destruct (darg_num x); [|easy].
  rewrite N.lor_spec. apply orb_comm.
Qed.
Lemma dunshift1_bit v x d : small v -> darg_ok x ->
  N.testbit (dow_unshift1 sh v x) (day_pos d) = (negb (dmentions x d) && N.testbit v (day_pos d))%bool.
Proof.
  intros [Hv _] Hx. rewrite dunshift1_num, darg_mentions by easy. destruct (darg_num x); [|easy].
  rewrite N.ldiff_spec. apply andb_comm.
Qed.
Lemma dshift_all xs v : small v -> (forall x, In x xs -> darg_ok x) ->
  small (fold_left (dow_shift1 sh) xs v) /\
  forall d, N.testbit (fold_left (dow_shift1 sh) xs v) (day_pos d) =
            if existsb (fun x => dmentions x d) xs then true else N.testbit v (day_pos d).
Proof.
  revert v. induction xs as [|x xs IH]; intros v Hv H; [split; easy|].
  cbn [fold_left existsb]. destruct (IH (dow_shift1 sh v x)) as [I1 I2].
  - apply dshift1_small; [easy|]. apply H. now left.
  - intros y Hy. apply H. now right.
  - split; [easy|]. intros d. rewrite I2, dshift1_bit; [|easy|apply H; now left].
    destruct (dmentions x d), (existsb _ xs); reflexivity.
Qed.
Lemma dunshift_all xs v : small v -> (forall x, In x xs -> darg_ok x) ->
  small (fold_left (dow_unshift1 sh) xs v) /\
  forall d, N.testbit (fold_left (dow_unshift1 sh) xs v) (day_pos d) =
            if existsb (fun x => dmentions x d) xs then false else N.testbit v (day_pos d).
Proof.
  revert v. induction xs as [|x xs IH]; intros v Hv H; [split; easy|].
  cbn [fold_left existsb]. destruct (IH (dow_unshift1 sh v x)) as [I1 I2].
  - apply dunshift1_small; [easy|]. apply H. now left.
  - intros y Hy. apply H. now right.
  - split; [easy|]. intros d. rewrite I2, dunshift1_bit; [|easy|apply H; now left].
    destruct (dmentions x d), (existsb _ xs); reflexivity.
Qed.

(* the state after a history: nothing, or a number whose bits are the days *)
Definition dstate (o : dow) (g : day -> bool) : Prop :=
  match o with
  | None => forall d, g d = false
  | Some v => small v /\ forall d, N.testbit v (day_pos d) = g d
  end.
Lemma drun_state h : forall o g, dstate o g -> dcalls_ok h ->
  dstate (dow_run sh o h) (fun d => day_in (g d) h d).
Proof.
  induction h as [|c h IH]; intros o g Hs Hh; [exact Hs|].
  assert (Hc : forall x, In x (dcall_args c) -> darg_ok x) by (intros; apply (Hh c); [now left|easy]).
  assert (Hr : dcalls_ok h) by (intros c' x Hi; apply Hh; now right).
  change (dow_run sh o (c :: h)) with (dow_run sh (dow_step sh o c) h).
  apply (IH _ (fun d => if existsb (fun x => dmentions x d) (dcall_args c) then is_dshift c else g d)); [|easy].
  destruct c as [xs|xs]; cbn [dow_step dcall_args is_dshift] in *.
  - unfold dow_shift, dstate.
    assert (Hv : small (match o with Some v => v | None => 0%N end)) by (destruct o; [apply Hs|split; easy]).
    destruct (dshift_all xs _ Hv Hc) as [A B]. split; [exact A|]. intros d. rewrite B.
    destruct (existsb _ xs); [easy|]. destruct o; [apply Hs|]. rewrite (Hs d). now destruct d.
  - unfold dow_unshift, dstate. destruct o as [v|].
    + destruct (dunshift_all xs v (proj1 Hs) Hc) as [A B]. split; [exact A|]. intros d. rewrite B.
      destruct (existsb _ xs); [easy|]. apply Hs.
    + intros d. rewrite (Hs d). now destruct (existsb _ xs).
Qed.

Lemma dpositive_state o g d : dstate o g -> dow_positive sh o (day_const d) = g d.
Proof.
  destruct o as [v|]; cbn [dow_positive dstate]; [|now intros ->].
  intros [[Hv _] <-]. rewrite day_const_pos. apply (OK 8%N v Hv). now destruct d.
Qed.

Lemma days_set_bits v : (v < 256)%N -> days_set sh v = filter (N.testbit v) bits8.
Proof.
  intros Hv. unfold days_set. apply filter_ext_in'. intros i Hi. apply (OK 8%N v Hv).
  unfold bits8 in Hi. cbn [In] in Hi. repeat destruct Hi as [<-|Hi]; easy.
Qed.
Lemma days_set_state v g : small v -> (forall d, N.testbit v (day_pos d) = g d) ->
  days_set sh v = map day_pos (filter g all_days).
Proof.
  intros [Hv H0] Hg. rewrite days_set_bits by easy. unfold bits8, all_days.
  cbn [filter]. rewrite H0. rewrite <- !Hg.
  change (N.testbit v 1) with (N.testbit v (day_pos DSun)).
  change (N.testbit v 2) with (N.testbit v (day_pos DMon)).
  change (N.testbit v 3) with (N.testbit v (day_pos DTue)).
  change (N.testbit v 4) with (N.testbit v (day_pos DWed)).
  change (N.testbit v 5) with (N.testbit v (day_pos DThu)).
  change (N.testbit v 6) with (N.testbit v (day_pos DFri)).
  change (N.testbit v 7) with (N.testbit v (day_pos DSat)).
  rewrite !Hg.
  destruct (g DSun), (g DMon), (g DTue), (g DWed), (g DThu), (g DFri), (g DSat); reflexivity.
Qed.
Lemma dlen_state o g : dstate o g -> dow_len sh o = List.length (filter g all_days).
Proof.
  destruct o as [v|]; cbn [dow_len dstate].
  - intros [Hv Hg]. rewrite (days_set_state v g Hv Hg). apply map_length.
  - intros H. unfold all_days. cbn [filter]. now rewrite !H.
Qed.
Definition days_text (g : day -> bool) : string :=
  match filter g all_days with [] => badDoW | l => join "," (map day_name l) end.
Lemma days_text_ne g : (exists d, g d = true) -> days_text g <> badDoW.
Proof.
  intros [d Hg]. unfold days_text, all_days. cbn [filter].
  destruct (g DSun) eqn:?, (g DMon) eqn:?, (g DTue) eqn:?, (g DWed) eqn:?, (g DThu) eqn:?, (g DFri) eqn:?, (g DSat) eqn:?;
    try (vm_compute; discriminate).
  destruct d; congruence.
Qed.
Lemma dstring_state o g : dstate o g -> dow_string sh o = days_text g.
Proof.
  destruct o as [v|]; cbn [dow_string dstate]; unfold days_text.
  - intros [Hv Hg]. rewrite (days_set_state v g Hv Hg).
    destruct (filter g all_days) as [|d l]; [easy|].
    cbn [map]. f_equal. f_equal; [now destruct d|]. rewrite map_map.
    apply map_ext. now intros [].
  - intros H. unfold all_days. cbn [filter]. now rewrite !H.
Qed.

(* parsing *)
Lemma parse_loop X : forall v, small v ->
  match parseDoW_loop sh v X with
  | None => ~ Forall (fun i => exists d, names_day i d) X
  | Some v' => Forall (fun i => exists d, names_day i d) X /\ small v' /\
      forall d, N.testbit v' (day_pos d) = true <->
                N.testbit v (day_pos d) = true \/ Exists (fun i => names_day i d) X
  end.
Proof.
  induction X as [|x X IH]; intros v Hv; cbn [parseDoW_loop].
  - split; [constructor|]. split; [easy|]. intros d. split; [now left|].
    intros [H|H]; [easy|inversion H].
  - destruct (matchStr_some x) as [(d0 & Hd & ->)|[Hn ->]].
    + replace (day_const d0 =? noDay)%N with false by now destruct d0.
      assert (OKd : darg_ok (DDay (day_const d0))) by (destruct d0; split; easy).
      specialize (IH _ (dshift1_small v _ Hv OKd)).
      destruct (parseDoW_loop sh _ X) as [v'|].
      * destruct IH as (A & B & C). split; [constructor; [now exists d0|easy]|]. split; [easy|].
        intros d. rewrite C, dshift1_bit, orb_true_iff, Exists_cons by easy.
        assert (E : dmentions (DDay (day_const d0)) d = true <-> names_day x d).
        { cbn [dmentions]. rewrite testbit_const, Z.eqb_eq. split; intros H'.
          - assert (d0 = d) as <- by (destruct d0, d; congruence || discriminate H'). easy.
          - now rewrite (names_day_inj x d0 d). }
        rewrite E. tauto.
      * intros H. inversion H. now apply IH.
    + change (0 =? noDay)%N with true. cbv iota. intros H. inversion H as [|? ? [d Hd] _]. now apply (Hn d).
Qed.

Lemma parse_spec s :
  match parseDoW sh s with
  | None => ~ Forall (fun i => exists d, names_day i d) (day_items s)
  | Some o => Forall (fun i => exists d, names_day i d) (day_items s) /\
     (exists v, o = Some v /\ small v) /\
     forall d, dow_positive sh o (day_const d) = true <-> Exists (fun i => names_day i d) (day_items s)
  end.
Proof.
  unfold parseDoW. change (split1 "," (remove_byte " " s)) with (day_items s).
  assert (H := parse_loop (day_items s) 0%N (conj eq_refl eq_refl)).
  destruct (parseDoW_loop sh 0 (day_items s)) as [v|]; [|exact H].
  destruct H as (A & B & C).
  assert (C' : forall d, N.testbit v (day_pos d) = true <-> Exists (fun i => names_day i d) (day_items s)).
  { intros d. rewrite C. destruct d; intuition discriminate. }
  assert (ST : dstate (Some v) (fun d => N.testbit v (day_pos d))) by (split; easy).
  assert (V : dow_valid sh (Some v) = true).
  { unfold dow_valid. rewrite (dstring_state _ _ ST).
    assert (NE : exists d, N.testbit v (day_pos d) = true).
    { assert (day_items s <> []) by apply split1_nonnil.
      destruct (day_items s) as [|x X]; [easy|]. inversion A as [|? ? [d Hd] _]. exists d.
      apply C'. now constructor. }
    apply negb_true_iff, String.eqb_neq. now apply days_text_ne. }
  rewrite V. split; [easy|]. split; [now exists v|]. intros d.
  rewrite (dpositive_state _ _ d ST). apply C'.
Qed.

Lemma small_inj v v' : small v -> small v' ->
  (forall d, N.testbit v (day_pos d) = N.testbit v' (day_pos d)) -> v = v'.
Proof.
  intros [Hv H0] [Hv' H0'] H. apply N.bits_inj. intros i.
  destruct (N.lt_ge_cases i 8) as [L|L].
  - assert (E : (i = 0 \/ i = 1 \/ i = 2 \/ i = 3 \/ i = 4 \/ i = 5 \/ i = 6 \/ i = 7)%N) by lia.
    repeat destruct E as [->|E].
    + congruence.
    + apply (H DSun).
    + apply (H DMon).
    + apply (H DTue).
    + apply (H DWed).
    + apply (H DThu).
    + apply (H DFri).
    + subst. apply (H DSat).
  - assert (forall a, (a < 256)%N -> N.testbit a i = false) as Z.
    { intros a Ha. destruct (N.eq_dec a 0) as [->|Hn]; [apply N.bits_0|].
      apply N.bits_above_log2. apply N.lt_le_trans with 8%N; [|easy].
      apply N.log2_lt_pow2; [lia|exact Ha]. }
    now rewrite !Z.
Qed.

(* the printed text of a non-empty set parses to that set *)
Lemma text_items g : filter g all_days <> [] ->
  day_items (days_text g) = map day_name (filter g all_days).
Proof.
  unfold days_text, all_days. cbn [filter].
  destruct (g DSun), (g DMon), (g DTue), (g DWed), (g DThu), (g DFri), (g DSat);
    intros H; try reflexivity. congruence.
Qed.
Lemma name_names d d' : names_day (day_name d) d' <-> d = d'.
Proof.
  split; [|intros <-; destruct d; vm_compute; tauto].
  intros H. apply (names_day_inj (day_name d)); [destruct d; vm_compute; tauto|easy].
Qed.
Lemma text_round_trip o g : dstate o g -> (exists d, g d = true) ->
  parseDoW sh (dow_string sh o) = Some o.
Proof.
  intros ST [d0 Hd0]. rewrite (dstring_state _ _ ST).
  assert (NE : filter g all_days <> []).
  { assert (Hi : In d0 (filter g all_days)) by (apply filter_In; split; [destruct d0; cbn; tauto|easy]).
    intros E. now rewrite E in Hi. }
  assert (H := parse_spec (days_text g)). rewrite text_items in H by easy.
  destruct (parseDoW sh (days_text g)) as [o'|].
  - destruct H as (_ & (v' & -> & Hv') & H). f_equal.
    destruct o as [v|]; [|rewrite ST in Hd0; discriminate]. f_equal. destruct ST as [Hv Hg].
    apply small_inj; [easy..|]. intros d. apply eq_true_iff_eq.
    assert (ST' : dstate (Some v') (fun d => N.testbit v' (day_pos d))) by (split; easy).
    specialize (H d). rewrite (dpositive_state _ _ d ST') in H. rewrite H, Hg.
    rewrite Exists_exists. split.
    + intros (x & Hi & Hx). apply in_map_iff in Hi as (d' & <- & Hi). apply name_names in Hx as ->.
      now apply filter_In in Hi.
    + intros Hd. exists (day_name d). split; [|now apply name_names].
      apply in_map. apply filter_In. split; [destruct d; cbn; tauto|easy].
  - exfalso. apply H. apply Forall_forall. intros x Hi. apply in_map_iff in Hi as (d & <- & _).
    exists d. now apply name_names.
Qed.
End Contract.

(* ---- clock ---- *)
Lemma upto2_forall (f : N -> N -> bool) n m :
  forallb (fun a => forallb (f a) (upto m)) (upto n) = true ->
  forall a b, (a < N.of_nat n)%N -> (b < N.of_nat m)%N -> f a b = true.
Proof.
  intros H a b Ha Hb. rewrite forallb_forall in H. specialize (H a (upto_in _ _ Ha)).
  rewrite forallb_forall in H. apply H, upto_in, Hb.
Qed.

Lemma clock_ok h m : clock h m -> forall r, assertToD_str r (clock_text h m) = (h * 100 + m)%N.
Proof.
  intros H r. unfold assertToD_str.
  destruct H as [[Hh Hm]|[-> ->]]; [|reflexivity].
  assert (E := upto2_forall (fun h m =>
    negb (String.eqb (clock_text h m) "2400") && time_parse_1504 (clock_text h m) &&
    let '(n, ok) := atoi (clock_text h m) in ok && (Z.to_N ((n + 0) mod 65536) =? h * 100 + m)%N) 24 60
    ltac:(vm_compute; reflexivity) h m Hh Hm).
  cbv beta in E. apply andb_true_iff in E as [E E2]. apply andb_true_iff in E as [E0 E1].
  apply negb_true_iff in E0. rewrite E0, E1. destruct (atoi (clock_text h m)) as [n ok].
  apply andb_true_iff in E2 as [-> E2]. now apply N.eqb_eq in E2.
Qed.
Lemma clock_print h m : clock h m -> fmt04d (h * 100 + m) = clock_text h m.
Proof.
  intros [[Hh Hm]|[-> ->]]; [|reflexivity].
  apply String.eqb_eq.
  exact (upto2_forall (fun h m => String.eqb (fmt04d (h * 100 + m)) (clock_text h m)) 24 60
    ltac:(vm_compute; reflexivity) h m Hh Hm).
Qed.
Lemma digit_val_some c d : digit_val c = Some d -> c = ascii_of_N (48 + d) /\ (d < 10)%N.
Proof.
  unfold digit_val, byte_between, byte_of. destruct ((48 <=? N_of_ascii c) && (N_of_ascii c <=? 57))%N eqn:E; [|easy].
  apply andb_true_iff in E as [E1 E2]. apply N.leb_le in E1, E2. intros H. injection H as <-.
  split; [|lia]. replace (48 + (N_of_ascii c - 48))%N with (N_of_ascii c) by lia.
  symmetry. apply ascii_N_embedding.
Qed.
Lemma time_parse_clock s : time_parse_1504 s = true -> exists h m, (h < 24)%N /\ (m < 60)%N /\ s = clock_text h m.
Proof.
  destruct s as [|a [|b [|c [|d [|? ?]]]]]; try discriminate. cbn [time_parse_1504].
  destruct (digit_val a) as [a'|] eqn:Ea; [|discriminate].
  destruct (digit_val b) as [b'|] eqn:Eb; [|discriminate].
  destruct (digit_val c) as [c'|] eqn:Ec; [|discriminate].
  destruct (digit_val d) as [d'|] eqn:Ed; [|discriminate].
  intros H. apply andb_true_iff in H as [H1 H2]. apply N.ltb_lt in H1, H2.
  apply digit_val_some in Ea as [-> La], Eb as [-> Lb], Ec as [-> Lc], Ed as [-> Ld].
  exists (a' * 10 + b')%N, (c' * 10 + d')%N. split; [easy|]. split; [easy|].
  unfold clock_text, two_digits.
  rewrite !N.div_add_l, !N.div_small, !N.add_0_r by lia.
  rewrite (N.add_comm (a' * 10) b'), (N.add_comm (c' * 10) d'), !N.mod_add, !N.mod_small by lia.
  reflexivity.
Qed.
Lemma not_clock_zero s r : ~ is_clock s -> assertToD_str r s = r.
Proof.
  intros H. unfold assertToD_str.
  destruct (String.eqb_spec s "2400") as [->|N].
  - exfalso. apply H. exists 24%N, 0%N. split; [right; easy|reflexivity].
  - destruct (time_parse_1504 s) eqn:E; [|easy].
    apply time_parse_clock in E as (h & m & Hh & Hm & ->). exfalso. apply H.
    exists h, m. split; [now left|easy].
Qed.
Lemma is_clock_dec s : is_clock s \/ ~ is_clock s.
Proof.
  destruct (String.eqb_spec s "2400") as [->|N].
  - left. exists 24%N, 0%N. split; [right; easy|reflexivity].
  - destruct (time_parse_1504 s) eqn:E.
    + left. apply time_parse_clock in E as (h & m & Hh & Hm & ->). exists h, m. split; [now left|easy].
    + right. intros (h & m & Hc & ->). destruct Hc as [[Hh Hm]|[-> ->]]; [|now apply N].
      assert (T := upto2_forall (fun h m => time_parse_1504 (clock_text h m)) 24 60
        ltac:(vm_compute; reflexivity) h m Hh Hm). cbv beta in T. congruence.
Qed.
Lemma clock_inj h m h' m' : clock h m -> clock h' m' -> clock_text h m = clock_text h' m' -> h = h' /\ m = m'.
Proof.
  intros H H' E. assert (A := clock_ok h m H 0). assert (A' := clock_ok h' m' H' 0).
  rewrite E, A' in A. destruct H as [[? ?]|[-> ->]], H' as [[? ?]|[-> ->]]; lia.
Qed.
