(* Theorems for C09-C12 (dayofweek and timeofday values). *)
From Coq Require Import String Ascii List PeanoNat NArith ZArith Bool Lia.
From Verif Require Import GoStr Shifty MMisc MTime STime PRights PTime.
Import ListNotations.
Open Scope string_scope.

(* C09: accepted exactly when every item names a day, and then the value holds
   exactly the named days. *)
Theorem C09_accept : forall sh, shifty_ok sh -> forall s,
  (exists d, parseDoW sh s = Some d) <-> Forall (fun i => exists d, names_day i d) (day_items s).
Proof.
  intros sh OK s. assert (H := parse_spec sh OK s). destruct (parseDoW sh s) as [o|].
  - split; [intros _; apply H|now exists o].
  - split; [intros [? ?]; discriminate|contradiction].
Qed.
Theorem C09_days : forall sh, shifty_ok sh -> forall s o, parseDoW sh s = Some o ->
  forall d, dow_positive sh o (day_const d) = true <-> Exists (fun i => names_day i d) (day_items s).
Proof. intros sh OK s o E. assert (H := parse_spec sh OK s). rewrite E in H. apply H. Qed.
(* order, case, spelling and repetition do not matter: the value depends only on
   the set of days named *)
Theorem C09_set_only : forall sh, shifty_ok sh -> forall s s' o o',
  parseDoW sh s = Some o -> parseDoW sh s' = Some o' ->
  (forall d, Exists (fun i => names_day i d) (day_items s) <-> Exists (fun i => names_day i d) (day_items s')) ->
  o = o'.
Proof.
  intros sh OK s s' o o' E E' H.
  assert (A := parse_spec sh OK s). assert (A' := parse_spec sh OK s'). rewrite E in A. rewrite E' in A'.
  destruct A as (_ & (v & -> & Hv) & A), A' as (_ & (v' & -> & Hv') & A'). f_equal.
  apply small_inj; [easy..|]. intros d. apply eq_true_iff_eq.
  specialize (A d). specialize (A' d).
  rewrite (dpositive_state sh OK (Some v) (fun d => N.testbit v (day_pos d)) d) in A by (split; easy).
  rewrite (dpositive_state sh OK (Some v') (fun d => N.testbit v' (day_pos d)) d) in A' by (split; easy).
  rewrite A, A'. apply H.
Qed.
(* the same through a bind rule text, which must have exactly one value *)
Theorem C09_rule : forall sh, shifty_ok sh -> forall vals o,
  assertBindDayOfWeek sh vals = Some o <->
  exists v, vals = [v] /\ parseDoW sh (unquote (condenseWHSP v)) = Some o.
Proof.
  intros sh _ vals o. destruct vals as [|v [|? ?]]; cbn [assertBindDayOfWeek].
  - split; [discriminate|intros (? & ? & _); discriminate].
  - split; [intros H; now exists v|intros (v' & E & H)]. now injection E as <-.
  - split; [discriminate|intros (? & ? & _); discriminate].
Qed.
Print Assumptions C09_accept.
Print Assumptions C09_days.
Print Assumptions C09_set_only.
Print Assumptions C09_rule.
Example C09_witness :
  day_items " SUNDAY, 4,wed , thurs" = ["SUNDAY"; "4"; "wed"; "thurs"] /\
  (exists d, parseDoW shifty_ref " SUNDAY, 4,wed , thurs" = Some d) /\
  parseDoW shifty_ref "sun,mond" = None /\ parseDoW shifty_ref "" = None.
Proof. repeat split; try reflexivity. now eexists. Qed.

(* C10: any history, from any start, gives the set by the last-mention rule ... *)
Theorem C10_history : forall sh, shifty_ok sh -> forall h d, dcalls_ok h ->
  dow_positive sh (dow_run sh None h) (day_const d) = day_in false h d.
Proof.
  intros sh OK h d H. apply (dpositive_state sh OK _ (fun d => day_in false h d)).
  now apply (drun_state sh OK h None (fun _ => false)).
Qed.
(* ... its text lists each day once in calendar order ... *)
Theorem C10_text : forall sh, shifty_ok sh -> forall h, dcalls_ok h ->
  filter (day_in false h) all_days <> [] ->
  dow_string sh (dow_run sh None h) = join "," (map day_name (filter (day_in false h) all_days)).
Proof.
  intros sh OK h H NE.
  rewrite (dstring_state sh OK _ (fun d => day_in false h d)) by now apply (drun_state sh OK h None (fun _ => false)).
  unfold days_text. now destruct (filter (fun d => day_in false h d) all_days).
Qed.
(* ... Len counts it ... *)
Theorem C10_len : forall sh, shifty_ok sh -> forall h, dcalls_ok h ->
  dow_len sh (dow_run sh None h) = List.length (filter (day_in false h) all_days).
Proof.
  intros sh OK h H. apply (dlen_state sh OK _ (fun d => day_in false h d)).
  now apply (drun_state sh OK h None (fun _ => false)).
Qed.
(* ... and the text parses back to the same value. *)
Theorem C10_round_trip : forall sh, shifty_ok sh -> forall h, dcalls_ok h ->
  (exists d, day_in false h d = true) ->
  parseDoW sh (dow_string sh (dow_run sh None h)) = Some (dow_run sh None h).
Proof.
  intros sh OK h H NE. apply (text_round_trip sh OK _ (fun d => day_in false h d)); [|easy].
  now apply (drun_state sh OK h None (fun _ => false)).
Qed.
(* The empty set prints a text that does not parse, and is not valid. *)
Theorem C10_empty : forall sh, shifty_ok sh -> forall h, dcalls_ok h ->
  (forall d, day_in false h d = false) ->
  dow_string sh (dow_run sh None h) = "<invalid_days>" /\ dow_valid sh (dow_run sh None h) = false.
Proof.
  intros sh OK h H NE.
  assert (E : dow_string sh (dow_run sh None h) = "<invalid_days>").
  { rewrite (dstring_state sh OK _ (fun d => day_in false h d)) by now apply (drun_state sh OK h None (fun _ => false)).
    unfold days_text, all_days. cbn [filter]. now rewrite !NE. }
  split; [exact E|]. unfold dow_valid. rewrite E. now destruct (dow_run sh None h).
Qed.
Print Assumptions C10_history.
Print Assumptions C10_text.
Print Assumptions C10_len.
Print Assumptions C10_round_trip.
Print Assumptions C10_empty.
Definition demo_days : list dow_call :=
  [DShift [DInt 7; DStr "Monday"; DDay 6]; DUnshift [DStr "sun"; DInt 9; DOther]].
Example C10_witness : dcalls_ok demo_days /\
  filter (day_in false demo_days) all_days = [DMon; DSat].
Proof.
  split; [|reflexivity]. intros c x Hc Hx. cbn in Hc.
  repeat destruct Hc as [<-|Hc]; try contradiction; cbn in Hx;
  repeat destruct Hx as [<-|Hx]; try contradiction; cbn; easy.
Qed.

(* C11: a clock text is kept and printed unchanged ... *)
Theorem C11_round_trip : forall h m, clock h m ->
  tod_string (ToD [TStr (clock_text h m)]) = clock_text h m /\
  (forall old, tod_string (tod_set old (TStr (clock_text h m))) = clock_text h m).
Proof.
  intros h m H. assert (E : tod_string (ToD [TStr (clock_text h m)]) = clock_text h m).
  { cbn [ToD assertToD tod_string]. rewrite clock_ok by easy. now apply clock_print. }
  split; [exact E|intros old; exact E].
Qed.
(* ... the stored numbers are ordered as the times (in minutes) are ... *)
Theorem C11_order : forall h m h' m', clock h m -> clock h' m' ->
  exists n n', ToD [TStr (clock_text h m)] = Some n /\ ToD [TStr (clock_text h' m')] = Some n' /\
  ((n < n')%N <-> (h * 60 + m < h' * 60 + m')%N) /\ (n = n' <-> h * 60 + m = h' * 60 + m')%N.
Proof.
  intros h m h' m' H H'. exists (h * 100 + m)%N, (h' * 100 + m')%N.
  cbn [ToD assertToD]. rewrite !clock_ok by easy. split; [easy|]. split; [easy|].
  destruct H as [[? ?]|[-> ->]], H' as [[? ?]|[-> ->]]; lia.
Qed.
(* ... a bind rule text is accepted exactly for clock texts, and the value then
   prints that text ... *)
Theorem C11_accept : forall v,
  (exists t, assertBindTimeOfDay [v] = Some t) <-> is_clock (unquote (condenseWHSP v)).
Proof.
  intros v. cbn [assertBindTimeOfDay]. set (u := unquote (condenseWHSP v)).
  destruct (is_clock_dec u) as [(h & m & Hc & E)|H].
  - rewrite E, (proj1 (C11_round_trip h m Hc)), String.eqb_refl.
    split; [intros _; now exists h, m|eauto].
  - split; [|contradiction]. intros [t Ht]. exfalso.
    cbn [ToD assertToD tod_string] in Ht. rewrite not_clock_zero in Ht by easy.
    destruct (String.eqb_spec (fmt04d 0) u) as [E|E]; [|discriminate].
    apply H. exists 0%N, 0%N. split; [left; easy|]. now rewrite <- E.
Qed.
Theorem C11_accepted_text : forall vals t, assertBindTimeOfDay vals = Some t ->
  exists v, vals = [v] /\ tod_string t = unquote (condenseWHSP v) /\ t = ToD [TStr (unquote (condenseWHSP v))].
Proof.
  intros vals t. destruct vals as [|v [|? ?]]; cbn [assertBindTimeOfDay]; try discriminate.
  destruct (String.eqb_spec (tod_string (ToD [TStr (unquote (condenseWHSP v))])) (unquote (condenseWHSP v))) as [E|E]; [|discriminate].
  intros H. injection H as <-. exists v. repeat split. exact E.
Qed.
(* ... and a time value keeps its hour and minute. *)
Theorem C11_time_value : forall h m, (h < 24)%N -> (m < 60)%N ->
  tod_string (ToD [TTime false h m]) = clock_text h m.
Proof.
  intros h m Hh Hm. cbn [ToD assertToD].
  assert (E : fmt02d h ++ fmt02d m = clock_text h m).
  { apply String.eqb_eq.
    exact (upto2_forall (fun h m => String.eqb (fmt02d h ++ fmt02d m) (clock_text h m)) 24 60
      ltac:(vm_compute; reflexivity) h m Hh Hm). }
  rewrite E, clock_ok by now left. apply clock_print. now left.
Qed.
Print Assumptions C11_round_trip.
Print Assumptions C11_order.
Print Assumptions C11_accept.
Print Assumptions C11_accepted_text.
Print Assumptions C11_time_value.
Example C11_witness : clock 24 0 /\ clock_text 24 0 = "2400" /\ clock 9 5 /\ clock_text 9 5 = "0905" /\
  assertBindTimeOfDay ["""2400"""] = Some (Some 2400%N) /\ assertBindTimeOfDay ["""2460"""] = None.
Proof. repeat split; try reflexivity; [right|left]; easy. Qed.

(* C12 is false: a text that is not a clock time gives a TimeOfDay that calls
   itself valid and is midnight. *)
Theorem C12_set_reports_refuted :
  ~ (forall s, ~ is_clock s -> tod_valid (ToD [TStr s]) = false).
Proof.
  intros H. specialize (H "2561"). assert (N : ~ is_clock "2561").
  { intros (h & m & Hc & E). assert (A := clock_ok h m Hc 7). rewrite <- E in A.
    change (assertToD_str 7 "2561") with 7%N in A.
    destruct Hc as [[? ?]|[-> ->]]; [|lia]. assert (h = 0 /\ m = 7)%N as [-> ->] by lia. discriminate E. }
  apply H in N. discriminate N.
Qed.
(* exactly: every such text is taken as 0000, whatever was stored before *)
Theorem C12_exact : forall s, ~ is_clock s -> forall old,
  tod_string (tod_set old (TStr s)) = "0000" /\ tod_valid (tod_set old (TStr s)) = true.
Proof.
  intros s H old. unfold tod_set. cbn [ToD assertToD]. rewrite not_clock_zero by easy. split; reflexivity.
Qed.
Print Assumptions C12_set_reports_refuted.
Print Assumptions C12_exact.

(* ---- C102 ---- *)
(* The documentation says that Monday to Friday is the number 62 and the weekend 65.
   Neither is true, as a Day or as an int. *)
Theorem C102_refuted : forall sh, shifty_ok sh ->
  dow_string sh (DoW sh [DDay 62]) = "Sun,Mon,Tues,Wed,Thur" /\
  dow_string sh (DoW sh [DInt 62]) = "<invalid_days>" /\ dow_string sh (DoW sh [DInt 65]) = "<invalid_days>".
Proof.
  intros sh OK.
  assert (X : forall xs, (forall x, In x xs -> darg_ok x) -> dow_string sh (DoW sh xs) = days_text (fun d => day_in false [DShift xs] d)).
  { intros xs H. apply (dstring_state sh OK). change (DoW sh xs) with (dow_run sh (Some 0%N) [DShift xs]).
    apply (drun_state sh OK [DShift xs] (Some 0%N) (fun _ => false)).
    - split; [split; easy|]. intros d. apply N.bits_0.
    - intros c x [<-|[]] Hx. now apply H. }
  rewrite !X; [repeat split; vm_compute; reflexivity|..]; intros x [<-|[]]; cbn [darg_ok]; try exact I. split; [lia|reflexivity].
Qed.
(* Exactly: a Day that is a sum of day constants stands for those days, an int for
   one day from 1 (Sunday) to 7 (Saturday). *)
Theorem C102_day : forall sh, shifty_ok sh -> forall n, (0 < n < 256)%N -> N.testbit n 0 = false ->
  dow_string sh (DoW sh [DDay n]) = join "," (map day_name (filter (fun d => N.testbit n (day_pos d)) all_days)).
Proof.
  intros sh OK n H Z.
  assert (S : dstate (DoW sh [DDay n]) (fun d => day_in false [DShift [DDay n]] d)).
  { change (DoW sh [DDay n]) with (dow_run sh (Some 0%N) [DShift [DDay n]]).
    apply (drun_state sh OK [DShift [DDay n]] (Some 0%N) (fun _ => false)).
    - split; [split; easy|]. intros d. apply N.bits_0.
    - intros c x [<-|[]] [<-|[]]. now split. }
  rewrite (dstring_state sh OK _ _ S). unfold days_text.
  assert (E : filter (fun d => day_in false [DShift [DDay n]] d) all_days = filter (fun d => N.testbit n (day_pos d)) all_days).
  { apply filter_ext. intros d. cbn [day_in dcall_args existsb dmentions is_dshift]. rewrite orb_false_r. now destruct (N.testbit n (day_pos d)). }
  rewrite E. clear E S. destruct (filter (fun d => N.testbit n (day_pos d)) all_days) eqn:F; [|reflexivity]. exfalso.
  assert (B : forall i, (i < 8)%N -> N.testbit n i = false).
  { intros i Hi. destruct (N.testbit n i) eqn:T; [|reflexivity]. exfalso.
    assert (Q : forall d, N.testbit n (day_pos d) = true -> False).
    { intros d Hd. assert (In d (filter (fun d => N.testbit n (day_pos d)) all_days)) as Y by (apply filter_In; split; [destruct d; cbn; tauto|exact Hd]). now rewrite F in Y. }
    assert (C : (i = 0 \/ i = 1 \/ i = 2 \/ i = 3 \/ i = 4 \/ i = 5 \/ i = 6 \/ i = 7)%N) by lia.
    repeat destruct C as [->|C]; [congruence|now apply (Q DSun)|now apply (Q DMon)|now apply (Q DTue)|now apply (Q DWed)|now apply (Q DThu)|now apply (Q DFri)|].
    subst i. now apply (Q DSat). }
  assert (n = 0%N); [|lia]. apply N.bits_inj_0. intros i. destruct (N.lt_ge_cases i 8) as [L|L]; [now apply B|].
  apply N.bits_above_log2. assert (N.log2 n < 8)%N; [|lia]. apply N.log2_lt_pow2; [lia|]. apply H.
Qed.
Theorem C102_int : forall sh, shifty_ok sh -> forall z,
  (forall d, z = day_num d -> dow_string sh (DoW sh [DInt z]) = day_name d) /\
  ((z < 1 \/ 7 < z)%Z -> dow_string sh (DoW sh [DInt z]) = "<invalid_days>" /\ dow_valid sh (DoW sh [DInt z]) = false).
Proof.
  intros sh OK z.
  assert (S : dstate (DoW sh [DInt z]) (fun d => day_in false [DShift [DInt z]] d)).
  { change (DoW sh [DInt z]) with (dow_run sh (Some 0%N) [DShift [DInt z]]).
    apply (drun_state sh OK [DShift [DInt z]] (Some 0%N) (fun _ => false)).
    - split; [split; easy|]. intros d. apply N.bits_0.
    - intros c x [<-|[]] [<-|[]]. exact I. }
  assert (T := dstring_state sh OK _ _ S). split.
  - intros d ->. rewrite T. destruct d; reflexivity.
  - intros H. assert (N : forall d, day_in false [DShift [DInt z]] d = false).
    { intros d. cbn [day_in dcall_args existsb dmentions]. replace (z =? day_num d)%Z with false; [reflexivity|].
      symmetry. apply Z.eqb_neq. intros ->. destruct d; cbn in H; lia. }
    assert (E : dow_string sh (DoW sh [DInt z]) = "<invalid_days>").
    { rewrite T. unfold days_text, all_days. cbn [filter]. now rewrite !N. }
    split; [exact E|]. unfold dow_valid. rewrite E. now destruct (DoW sh [DInt z]).
Qed.
Print Assumptions C102_refuted.
Print Assumptions C102_day.
Print Assumptions C102_int.
Example C102_witness :
  dow_string shifty_ref (DoW shifty_ref [DDay 124]) = "Mon,Tues,Wed,Thur,Fri" /\
  dow_string shifty_ref (DoW shifty_ref [DDay 130]) = "Sun,Sat" /\
  dow_string shifty_ref (DoW shifty_ref [DDay 65]) = "<invalid_days>,Fri" /\
  (0 < 124 < 256)%N /\ N.testbit 124 0 = false /\ (3 = day_num DTue)%Z.
Proof. repeat split; vm_compute; reflexivity. Qed.
