(* C156, TimeOfDay: Set makes a new value every time, so no goroutine can be left with an old
   one in its hands. *)
From Coq Require Import String List PeanoNat NArith Bool Lia.
From Verif Require Import GoStr MHeap MTime MFirst SFirst PWhole.
Import ListNotations.

Lemma tod_run o css q : List.length (fgos (f_sched tod_first (f_start o css) q)) = List.length css /\
  forall k g cs, nth_error (fgos (f_sched tod_first (f_start o css) q)) k = Some g -> nth_error css k = Some cs ->
  (fat g = FOff /\ exists a, cs = (a ++ fcalls g)%list) \/ (exists a c, fat g = FMake c /\ cs = (a ++ c :: fcalls g)%list).
Proof.
  induction q as [|i q [L I]] using rev_ind.
  - split.
    + destruct o; cbn [f_sched fold_left f_start fgos]; apply map_length.
    + intros k g cs G C. assert (G' : nth_error (map (fun cs => MkFg cs FOff) css) k = Some g) by (destruct o; exact G).
      rewrite nth_error_map, C in G'. cbn in G'. injection G' as <-. left. split; [reflexivity|]. now exists [].
  - unfold f_sched. rewrite fold_left_app. cbn [fold_left]. fold (f_sched tod_first (f_start o css) q).
    set (st := f_sched tod_first (f_start o css) q) in *. unfold f_step. destruct (nth_error (fgos st) i) as [g0|] eqn:E; [|now split].
    assert (S : exists vs v g', f_gstep tod_first st g0 = (vs, v, g') /\
      forall cs, nth_error css i = Some cs ->
      (fat g' = FOff /\ exists a, cs = (a ++ fcalls g')%list) \/ (exists a c, fat g' = FMake c /\ cs = (a ++ c :: fcalls g')%list)).
    { destruct g0 as [td p]. unfold f_gstep. cbn [fat fcalls tod_first fhow]. destruct p as [|c|c|c|p c].
      - destruct td as [|c td]; do 3 eexists; (split; [reflexivity|]); intros cs C; destruct (I i _ cs E C) as [[A B]|(a & c' & A & B)]; cbn [fat fcalls] in *; try discriminate A.
        + left. now split.
        + destruct B as (a & ->). right. exists a, c. split; [|reflexivity].
          unfold f_isZero, fshown, tod_first. cbn [fzero]. now destruct (fvar st).
      - do 3 eexists. split; [reflexivity|]. intros cs C. destruct (I i _ cs E C) as [[A B]|(a & c' & A & B)]; cbn [fat fcalls] in *; [discriminate A|].
        left. split; [reflexivity|]. injection A as <-. exists (a ++ [c])%list. now rewrite <- app_assoc.
      - destruct (nth_error css i) as [cs|] eqn:C; [|apply nth_error_None in C; rewrite <- L in C; apply nth_error_None in C; congruence].
        destruct (I i _ cs E C) as [[A B]|(a & c' & A & B)]; discriminate A.
      - destruct (nth_error css i) as [cs|] eqn:C; [|apply nth_error_None in C; rewrite <- L in C; apply nth_error_None in C; congruence].
        destruct (I i _ cs E C) as [[A B]|(a & c' & A & B)]; discriminate A.
      - destruct (nth_error css i) as [cs|] eqn:C; [|apply nth_error_None in C; rewrite <- L in C; apply nth_error_None in C; congruence].
        destruct (I i _ cs E C) as [[A B]|(a & c' & A & B)]; discriminate A. }
    destruct S as (vs & v & g' & -> & S). cbn [fgos]. split; [now rewrite wr_len|].
    intros k g cs G C. destruct (Nat.eq_dec k i) as [->|N].
    + rewrite wr_same in G by (apply nth_error_Some; congruence). injection G as <-. now apply S.
    + rewrite wr_other in G by assumption. now apply (I k).
Qed.
(* Whatever goroutines call Set on one time of day: a call that is running returns with the
   goroutine's next step, and the variable then shows the time that this call gave. *)
Theorem C156_time_shown : forall o css q k g, nth_error (fgos (f_sched tod_first (f_start o css) q)) k = Some g -> fat g <> FOff ->
  exists a c, nth_error css k = Some (a ++ c :: fcalls g)%list /\
    (exists g', nth_error (fgos (f_sched tod_first (f_start o css) (q ++ [k]))) k = Some g' /\ fat g' = FOff /\ fcalls g' = fcalls g) /\
    fshown tod_first (f_sched tod_first (f_start o css) (q ++ [k])) = tod_set None c.
Proof.
  intros o css q k g G N. destruct (tod_run o css q) as [L I].
  destruct (nth_error css k) as [cs|] eqn:C; [|apply nth_error_None in C; rewrite <- L in C; apply nth_error_None in C; congruence].
  destruct (I k g cs G C) as [[A _]|(a & c & A & ->)]; [now destruct N|]. exists a, c. split; [reflexivity|].
  unfold f_sched. rewrite fold_left_app. cbn [fold_left]. fold (f_sched tod_first (f_start o css) q).
  set (st := f_sched tod_first (f_start o css) q) in *. unfold f_step. rewrite G.
  assert (S : f_gstep tod_first st g = ((fvals st ++ [assertToD 0 c])%list, Some (List.length (fvals st)), MkFg (fcalls g) FOff)).
  { unfold f_gstep. now rewrite A. }
  rewrite S. cbn [fgos]. split.
  - eexists. split; [apply wr_same; apply nth_error_Some; congruence|]. now split.
  - unfold fshown. cbn [fvar fvals]. rewrite app_nth2, Nat.sub_diag by lia. reflexivity.
Qed.
Example C156_time_shown_witness :
  let st := f_sched tod_first (f_start None [[TStr "0800"]; [TStr "1730"]]) [0; 1; 0] in
  (exists g, nth_error (fgos st) 1 = Some g /\ fat g = FMake (TStr "1730")).
Proof. eexists. split; vm_compute; reflexivity. Qed.
Print Assumptions C156_time_shown.
