(* C148-C156: whatever has happened so far, the goroutines can be run on until every call
   has returned (or has ended its goroutine by a panic, C152, C154): no call waits for
   another, and none goes on for ever once the others stop. *)
From Coq Require Import String List PeanoNat NArith Bool Lia.
From Verif Require Import GoStr MHeap MWord SWord MSlice SSlice MLabel SLabel MFirst SFirst PWhole PDrain.
Import ListNotations.
Open Scope nat_scope.

(* C148-C150 *)
Section Word.
Context {E : Type}.
Variable lib : E -> option (N -> N).
Definition w_more (st : wstate E) (g : worker E) : nat := match wat g with Idle => 0 | Held _ _ => 1 end.
Lemma word_drain st : exists q, done (word_run E lib st q).
Proof.
  unfold done, word_run.
  apply (drain _ _ (@workers E) (word_step E lib) _ (fun g => List.length (edits g)) w_more).
  - intros s i. unfold word_step. destruct (nth_error (workers s) i) as [g|]; [|reflexivity].
    destruct (wo_step E lib (word s) g) as [v g']. cbn [workers]. apply wr_len.
  - intros s i j J. unfold word_step. destruct (nth_error (workers s) i) as [g|]; [|reflexivity].
    destruct (wo_step E lib (word s) g) as [v g']. cbn [workers]. now apply wr_other.
  - intros s i g E1. unfold word_step. rewrite E1.
    assert (L : i < List.length (workers s)) by (apply nth_error_Some; congruence).
    destruct g as [es p]. destruct p as [|v e].
    + destruct es as [|e es]; [now left|]. right. unfold wo_step. cbn [wat edits workers].
      eexists. split; [apply wr_same; assumption|]. cbn [edits List.length]. left. lia.
    + right. unfold wo_step. cbn [wat edits workers].
      eexists. split; [apply wr_same; assumption|]. right. unfold w_more. cbn [edits wat]. lia.
Qed.
Theorem C148_returns : forall v ess q, exists q', done (word_run E lib (word_start E v ess) (q ++ q')).
Proof. intros v ess q. unfold word_run. setoid_rewrite fold_left_app. apply word_drain. Qed.
End Word.

(* C151, C152 *)
Section Slice.
Variable spare : nat -> nat.
Definition i_more (st : ipstate) (g : ipgo) : nat :=
  match iat g with
  | Rest => 0 | Store _ _ _ => 1 | Have _ _ _ => 2 | Fits _ => 3
  | Scan _ _ n seen => 4 + (n - List.length seen)
  | Look seen => 2 * (snd (hdr st) - List.length seen) + 2
  | Fetch seen => 2 * (snd (hdr st) - List.length seen) + 1
  end.
Lemma ip_less s i g : (todo g = [] /\ iat g = Rest) \/
  let '(a, h, g') := ip_gstep spare s g in
  List.length (todo g') < List.length (todo g) \/
  List.length (todo g') <= List.length (todo g) /\ i_more (MkIp a h (wr (gos s) i g')) g' < i_more s g.
Proof.
  destruct s as [arr [H n0] G]. destruct g as [td p tx]. unfold ip_gstep. cbn [hdr arrays iat todo texts].
  destruct p as [|a A n seen|a|a A n|a A n|seen|seen].
  - destruct td as [|[a|] td]; [now left| |]; right; cbn [todo List.length]; left; lia.
  - right. destruct (Nat.ltb_spec (List.length seen) n); cbn [todo]; right; (split; [lia|]); unfold i_more; cbn [iat].
    + rewrite app_length. cbn [List.length]. lia.
    + destruct (MNet.ip_unique seen a); [destruct (MNet.isValidIP a)|]; lia.
  - right. cbn [todo]. right. split; [lia|]. unfold i_more; cbn [iat]. lia.
  - right. destruct (_ <? _); cbn [todo]; right; (split; [lia|]); unfold i_more; cbn [iat]; lia.
  - right. cbn [todo]. right. split; [lia|]. unfold i_more; cbn [iat]. lia.
  - right. destruct (Nat.ltb_spec (List.length seen) n0); cbn [todo]; right; (split; [lia|]); unfold i_more; cbn [iat hdr snd]; lia.
  - right. destruct (Nat.ltb_spec (List.length seen) n0); cbn [todo]; right; (split; [cbn [List.length]; lia|]);
      unfold i_more; cbn [iat hdr snd]; [|lia].
    rewrite app_length. cbn [List.length]. lia.
Qed.
Lemma ip_drain st : exists q, returned (ip_sched spare st q).
Proof.
  unfold returned, ip_sched.
  apply (drain _ _ gos (ip_step spare) _ (fun g => List.length (todo g)) i_more).
  - intros s i. unfold ip_step. destruct (nth_error (gos s) i) as [g|]; [|reflexivity].
    destruct (ip_gstep spare s g) as [[a h] g']. cbn [gos]. apply wr_len.
  - intros s i j J. unfold ip_step. destruct (nth_error (gos s) i) as [g|]; [|reflexivity].
    destruct (ip_gstep spare s g) as [[a h] g']. cbn [gos]. now apply wr_other.
  - intros s i g E1.
    assert (L : i < List.length (gos s)) by (apply nth_error_Some; congruence).
    destruct (ip_less s i g) as [F|K]; [now left|]. right. unfold ip_step. rewrite E1.
    destruct (ip_gstep spare s g) as [[a h] g']. cbn [gos].
    exists g'. split; [now apply wr_same|exact K].
Qed.
Theorem C151_returns : forall l room css q, exists q', returned (ip_sched spare (ip_start l room css) (q ++ q')).
Proof. intros l room css q. unfold ip_sched. setoid_rewrite fold_left_app. apply ip_drain. Qed.
End Slice.

(* C153, C154 *)
Section Label.
Variable spare : nat -> nat.
Definition d_more (st : dstate) (g : dgo) : nat :=
  let n0 := snd (dhdr st) in
  match dat g with
  | DRest => 0
  | Put dl => 3 * List.length dl + 1 | DStore _ dl _ _ => 3 * List.length dl + 2 | DHave _ dl _ _ => 3 * List.length dl + 3
  | DFetch seen => 2 * (n0 - List.length seen) + 1
  | DLook seen => 2 * (n0 - List.length seen) + 2
  | Judge _ => 2 * n0 + 3
  | Inner i j _ => (n0 - S i) * (n0 + 2) + (n0 - j) + 1 + (2 * n0 + 4)
  | Outer i _ => (n0 - i) * (n0 + 2) + (2 * n0 + 4)
  end.
Lemma d_less s i g : (dtodo g = [] /\ dat g = DRest) \/
  let '(a, h, g') := d_gstep spare s g in
  List.length (dtodo g') < List.length (dtodo g) \/
  List.length (dtodo g') <= List.length (dtodo g) /\ d_more (MkDs a h (wr (dgos s) i g')) g' < d_more s g.
Proof.
  destruct s as [arr [H n0] G]. destruct g as [td p tx]. unfold d_gstep. cbn [dhdr darrays dat dtodo dtexts].
  destruct p as [|dl|x dl A n|x dl A n|k c|k j c|c|seen|seen].
  - destruct td as [|[a|] td]; [now left| |]; right; cbn [dtodo List.length]; left; lia.
  - right. destruct dl as [|x dl]; cbn [dtodo]; right; (split; [lia|]); unfold d_more; cbn [dat List.length]; lia.
  - right. destruct (_ <? _); cbn [dtodo]; right; (split; [lia|]); unfold d_more; cbn [dat]; lia.
  - right. cbn [dtodo]. right. split; [lia|]. unfold d_more; cbn [dat]. lia.
  - right. cbn [dtodo]. right. split; [lia|]. unfold d_more; cbn [dat dhdr snd].
    destruct (Nat.ltb_spec k n0); cbn [dat]; [|lia].
    replace (n0 - k) with (S (n0 - S k)) by lia. cbn [Nat.mul]. lia.
  - right. cbn [dtodo]. right. split; [lia|]. unfold d_more; cbn [dat dhdr snd].
    destruct (Nat.ltb_spec j n0); cbn [dat]; lia.
  - right. destruct (_ || _)%bool; cbn [dtodo]; right; (split; [lia|]); unfold d_more; cbn [dat dhdr snd List.length]; lia.
  - right. destruct (Nat.ltb_spec (List.length seen) n0); cbn [dtodo]; right; (split; [lia|]); unfold d_more; cbn [dat dhdr snd]; lia.
  - right. destruct (Nat.ltb_spec (List.length seen) n0); cbn [dtodo]; right; (split; [cbn [List.length]; lia|]);
      unfold d_more; cbn [dat dhdr snd]; [|lia].
    rewrite app_length. cbn [List.length]. lia.
Qed.
Lemma d_drain st : exists q, d_returned (d_sched spare st q).
Proof.
  unfold d_returned, d_sched.
  apply (drain _ _ dgos (d_step spare) _ (fun g => List.length (dtodo g)) d_more).
  - intros s i. unfold d_step. destruct (nth_error (dgos s) i) as [g|]; [|reflexivity].
    destruct (d_gstep spare s g) as [[a h] g']. cbn [dgos]. apply wr_len.
  - intros s i j J. unfold d_step. destruct (nth_error (dgos s) i) as [g|]; [|reflexivity].
    destruct (d_gstep spare s g) as [[a h] g']. cbn [dgos]. now apply wr_other.
  - intros s i g E1.
    assert (L : i < List.length (dgos s)) by (apply nth_error_Some; congruence).
    destruct (d_less s i g) as [F|K]; [now left|]. right. unfold d_step. rewrite E1.
    destruct (d_gstep spare s g) as [[a h] g']. cbn [dgos].
    exists g'. split; [now apply wr_same|exact K].
Qed.
Theorem C153_returns : forall l room css q, exists q', d_returned (d_sched spare (d_start l room css) (q ++ q')).
Proof. intros l room css q. unfold d_sched. setoid_rewrite fold_left_app. apply d_drain. Qed.
End Label.

(* C155, C156 *)
Section First.
Context {V C : Type}.
Variable T : ftype V C.
Definition f_more (st : fstate V C) (g : fgo C) : nat :=
  match fat g with FOff => 0 | FDo _ _ => 1 | FTake _ => 2 | FFill _ => 3 | FMake _ => 4 end.
Lemma f_less s i g : (fcalls g = [] /\ fat g = FOff) \/
  let '(a, h, g') := f_gstep T s g in
  List.length (fcalls g') < List.length (fcalls g) \/
  List.length (fcalls g') <= List.length (fcalls g) /\ f_more (MkFs a h (wr (fgos s) i g')) g' < f_more s g.
Proof.
  destruct s as [vs v G]. destruct g as [td p]. destruct T as [w e r z u]. unfold f_gstep. cbn [fvals fvar fat fcalls fhow].
  destruct p as [|c|c|c|p c].
  - destruct td as [|c td]; [now left|]. right. cbn [fcalls List.length]. left. lia.
  - right. destruct w; cbn [fcalls]; right; (split; [lia|]); unfold f_more; cbn [fat]; lia.
  - right. destruct v; cbn [fcalls]; right; (split; [lia|]); unfold f_more; cbn [fat]; lia.
  - right. cbn [fcalls]. right. split; [lia|]. unfold f_more; cbn [fat]. destruct v; lia.
  - right. cbn [fcalls]. right. split; [lia|]. unfold f_more; cbn [fat]. lia.
Qed.
Lemma f_drain st : exists q, f_returned (f_sched T st q).
Proof.
  unfold f_returned, f_sched.
  apply (drain _ _ (@fgos V C) (f_step T) _ (fun g => List.length (fcalls g)) f_more).
  - intros s i. unfold f_step. destruct (nth_error (fgos s) i) as [g|]; [|reflexivity].
    destruct (f_gstep T s g) as [[a h] g']. cbn [fgos]. apply wr_len.
  - intros s i j J. unfold f_step. destruct (nth_error (fgos s) i) as [g|]; [|reflexivity].
    destruct (f_gstep T s g) as [[a h] g']. cbn [fgos]. now apply wr_other.
  - intros s i g E1.
    assert (L : i < List.length (fgos s)) by (apply nth_error_Some; congruence).
    destruct (f_less s i g) as [F|K]; [now left|]. right. unfold f_step. rewrite E1.
    destruct (f_gstep T s g) as [[a h] g']. cbn [fgos].
    exists g'. split; [now apply wr_same|exact K].
Qed.
Theorem C155_returns : forall o css q, exists q', f_returned (f_sched T (f_start o css) (q ++ q')).
Proof. intros o css q. unfold f_sched. setoid_rewrite fold_left_app. apply f_drain. Qed.
End First.

(* two goroutines, one in the middle of a call that adds a label and one in the middle of a
   call of String, are run on to their ends *)
Open Scope string_scope.
Example C153_returns_witness :
  let st := d_start ["www"; "example"] 0 [[DSet ["com"]]; [DString]] in
  let q := [0; 0; 1; 1; 0] in let sp := fun _ => 0 in
  ~ d_returned (d_sched sp st q) /\ map dat (dgos (d_sched sp st q)) = [DStore "com" [] 1 3; Inner 0 0 0] /\
  d_returned (d_sched sp st (q ++ [0; 0] ++ repeat 1 30)) /\
  map dtexts (dgos (d_sched sp st (q ++ [0; 0] ++ repeat 1 30))) = [[]; [Some "www.example.com"]].
Proof.
  assert (D : forall s, forallb (fun g => match dtodo g, dat g with [], DRest => true | _, _ => false end) (dgos s) = true -> d_returned s).
  { intros s F g I. rewrite forallb_forall in F. specialize (F g I).
    destruct (dtodo g); [|discriminate]. destruct (dat g); try discriminate. now split. }
  cbn zeta. split; [|split; [|split]].
  - intros F. specialize (F (MkDg [] (Inner 0 0 0) [])).
    destruct F as [_ F]; [vm_compute; right; left; reflexivity|discriminate].
  - vm_compute. reflexivity.
  - apply D. vm_compute. reflexivity.
  - vm_compute. reflexivity.
Qed.

Print Assumptions C148_returns.
Print Assumptions C151_returns.
Print Assumptions C153_returns.
Print Assumptions C155_returns.
