(* Machines of goroutines in which a goroutine that runs alone comes to an end: from every
   state the schedule can be continued until all goroutines have come to an end. *)
From Coq Require Import List PeanoNat Wf_nat Lia.
From Verif Require Import MHeap PWhole.
Import ListNotations.

Section Drain.
Variables S G : Type.
Variable gs : S -> list G.
Variable step : S -> nat -> S.
Variable fin : G -> Prop.
(* the calls a goroutine has left, and the steps left in the one it is in *)
Variable many : G -> nat.
Variable more : S -> G -> nat.
Hypothesis len : forall s i, List.length (gs (step s i)) = List.length (gs s).
Hypothesis other : forall s i j, j <> i -> nth_error (gs (step s i)) j = nth_error (gs s) j.
Hypothesis own : forall s i g, nth_error (gs s) i = Some g -> fin g \/
  exists g', nth_error (gs (step s i)) i = Some g' /\
             (many g' < many g \/ many g' <= many g /\ more (step s i) g' < more s g).

Lemma steps_len q : forall s, List.length (gs (fold_left step q s)) = List.length (gs s).
Proof. induction q as [|i q I]; intros s; cbn [fold_left]; [reflexivity|]. now rewrite I, len. Qed.

Lemma alone i : forall a b s g, nth_error (gs s) i = Some g -> many g <= a -> more s g <= b ->
  exists n, (forall j, j <> i -> nth_error (gs (fold_left step (repeat i n) s)) j = nth_error (gs s) j) /\
            exists g', nth_error (gs (fold_left step (repeat i n) s)) i = Some g' /\ fin g'.
Proof.
  induction a as [a Ia] using lt_wf_ind. induction b as [b Ib] using lt_wf_ind. intros s g E La Lb.
  destruct (own s i g E) as [F | (g' & E' & [D | [D1 D2]])].
  - exists 0. cbn [repeat fold_left]. split; [reflexivity|]. now exists g.
  - destruct (Ia (many g') ltac:(lia) (more (step s i) g') (step s i) g' E' (le_n _) (le_n _)) as (n & O & g2 & E2 & F).
    exists (Datatypes.S n). cbn [repeat fold_left]. split; [|now exists g2].
    intros j J. now rewrite O, other.
  - destruct (Ib (more (step s i) g') ltac:(lia) (step s i) g' E' ltac:(lia) (le_n _)) as (n & O & g2 & E2 & F).
    exists (Datatypes.S n). cbn [repeat fold_left]. split; [|now exists g2].
    intros j J. now rewrite O, other.
Qed.

Lemma drain_to s : forall k, k <= List.length (gs s) ->
  exists q, forall j g, j < k -> nth_error (gs (fold_left step q s)) j = Some g -> fin g.
Proof.
  induction k as [|k I]; intros L.
  - exists []. intros j g J. lia.
  - destruct I as [q Q]; [lia|]. set (t := fold_left step q s) in *.
    destruct (nth_error (gs t) k) as [g|] eqn:E.
    + destruct (alone k _ _ t g E (le_n _) (le_n _)) as (n & O & g' & E' & F).
      exists (q ++ repeat k n). rewrite fold_left_app. fold t. intros j h J H.
      destruct (Nat.eq_dec j k) as [->|N].
      * congruence.
      * rewrite O in H by assumption. apply (Q j h); [lia|assumption].
    + exfalso. apply nth_error_None in E. unfold t in E. rewrite steps_len in E. lia.
Qed.

Lemma drain s : exists q, forall g, In g (gs (fold_left step q s)) -> fin g.
Proof.
  destruct (drain_to s _ (le_n _)) as [q Q]. exists q. intros g I.
  destruct (In_nth_error _ _ I) as [j J]. apply (Q j g); [|assumption].
  rewrite <- (steps_len q s). apply nth_error_Some. congruence.
Qed.
End Drain.
