(* C167: goroutines that set and print one SecurityStrengthFactor variable. *)
From Coq Require Import String List PeanoNat NArith ZArith Bool Lia.
From Verif Require Import GoStr MMisc MSec MHeap MSsf SSsf PWhole PDrain.
Import ListNotations.
Open Scope list_scope.
Open Scope nat_scope.

Local Notation sched := s_sched.
Local Opaque ssf_set_inner itoa.
Lemma s_app st a b : sched st (a ++ b) = sched (sched st a) b.
Proof. apply fold_left_app. Qed.
Lemma s_snoc st a i : sched st (a ++ [i]) = s_step (sched st a) i.
Proof. now rewrite s_app. Qed.
Lemma s_step_go st i g0 : nth_error (sgos st) i = Some g0 ->
  sheap (s_step st i) = fst (fst (s_gstep (sheap st) (svar st) g0)) /\
  svar (s_step st i) = snd (fst (s_gstep (sheap st) (svar st) g0)) /\
  nth_error (sgos (s_step st i)) i = Some (snd (s_gstep (sheap st) (svar st) g0)) /\
  forall j, j <> i -> nth_error (sgos (s_step st i)) j = nth_error (sgos st) j.
Proof.
  intros E. unfold s_step. rewrite E. destruct (s_gstep (sheap st) (svar st) g0) as [[h v] g']. cbn [sheap svar sgos fst snd].
  split; [reflexivity|]. split; [reflexivity|]. split; [apply wr_same; apply nth_error_Some; congruence|]. intros j J. now apply wr_other.
Qed.
Lemma s_step_none st i : nth_error (sgos st) i = None -> s_step st i = st.
Proof. intros E. unfold s_step. now rewrite E. Qed.
Lemma s_step_len st i : List.length (sgos (s_step st i)) = List.length (sgos st).
Proof.
  unfold s_step. destruct (nth_error (sgos st) i) as [g|]; [|reflexivity].
  destruct (s_gstep (sheap st) (svar st) g) as [[h v] g']. cbn [sgos]. apply wr_len.
Qed.
Lemma s_start_at x css i g : nth_error (sgos (s_start x css)) i = Some g -> exists cs, nth_error css i = Some cs /\ g = MkSg cs SIdle [].
Proof. cbn. rewrite nth_error_map. destruct (nth_error css i) as [cs|]; [|discriminate]. intros [= <-]. now exists cs. Qed.
Lemma cell_wr h p x r : cell (wr h p x) r = x \/ cell (wr h p x) r = cell h r.
Proof.
  unfold cell. destruct (Nat.eq_dec r p) as [->|D].
  - destruct (Nat.lt_ge_cases p (List.length h)) as [L|L]; [left; apply nth_error_nth; now apply wr_same|]. right. rewrite !nth_overflow; trivial. now rewrite wr_len.
  - right. destruct (Nat.lt_ge_cases r (List.length h)) as [L|L].
    + apply nth_error_nth. rewrite wr_other by assumption. now apply nth_error_nth'.
    + rewrite !nth_overflow; trivial. now rewrite wr_len.
Qed.
Lemma clears_inner f c : f <> SOther -> ssf_set_inner c f = None -> clears f.
Proof. intros D E. unfold clears, ssf_set. f_equal. rewrite <- E. now destruct f. Qed.
Lemma inner_given f c c' : f <> SOther -> ssf_set_inner c f = ssf_set_inner c' f.
Proof. intros D. now destruct f. Qed.
Lemma inner_other c : ssf_set_inner c SOther = c.
Proof. reflexivity. Qed.
Lemma sarg_other f : f = SOther \/ f <> SOther.
Proof. destruct f; [now right|now right|now right|now left]. Qed.

(* ---- no argument takes the factor away ---- *)
Section Safe.
Variables (x : ssfv) (css : list (list scall)).
Hypothesis Hc : forall cs f, In cs css -> In (SSet f) cs -> ~ clears f.
Definition given_f (f : sarg) : Prop := exists cs, In cs css /\ In (SSet f) cs.
Definition calm (st : sstate) (g : sgo) : Prop :=
  (exists cs a, In cs css /\ cs = a ++ stodo g) /\
  match sph g with
  | SIdle | SCheck _ => True
  | SNew f => given_f f
  | SFill f | SFind f => given_f f /\ svar st <> None
  | SFillAt f _ | SWrite f _ => given_f f /\ svar st <> None
  | SRet => svar st <> None
  | SDeref p => cell (sheap st) p <> None
  | SPanic => False
  end.
Lemma calm_run q : forall j g, nth_error (sgos (sched (s_start x css) q)) j = Some g -> calm (sched (s_start x css) q) g.
Proof.
  induction q as [|y q IH] using rev_ind; intros j g E.
  - apply s_start_at in E as (cs & E & ->). split; [|exact I]. exists cs, []. split; [now apply nth_error_In in E|reflexivity].
  - rewrite s_snoc in *. set (st := sched (s_start x css) q) in *.
    destruct (nth_error (sgos st) y) as [g0|] eqn:Y; [|rewrite s_step_none in * by assumption; now apply (IH j)].
    destruct (s_step_go st y g0 Y) as (H & V & N & O). destruct (IH y g0 Y) as [(cs & a & C & D) P].
    assert (Mono : (svar st <> None -> svar (s_step st y) <> None) /\ forall p, cell (sheap st) p <> None -> cell (sheap (s_step st y)) p <> None).
    { rewrite H, V. unfold s_gstep. destruct (sph g0) as [|f|f|f p|f|f p| |p|p|] eqn:Ph; cbn [fst snd].
      - destruct (stodo g0) as [|[]]; cbn [fst snd]; now split.
      - split; [discriminate|]. intros p Q. unfold cell in *. destruct (Nat.lt_ge_cases p (List.length (sheap st))) as [L|L]; [now rewrite app_nth1|]. rewrite nth_overflow in Q by assumption. now elim Q.
      - now split.
      - split; [trivial|]. intros r Q. destruct (cell_wr (sheap st) p (Some 0%N) r) as [-> | ->]; [discriminate|assumption].
      - now split.
      - split; [trivial|]. intros r Q. destruct (cell_wr (sheap st) p (ssf_set_inner (cell (sheap st) p) f) r) as [Z | ->]; [|assumption]. rewrite Z.
        destruct (sarg_other f) as [->|F]; [|intros K; destruct P as [(cs' & C1 & C2) _]; now apply (Hc cs' f C1 C2), (clears_inner f (cell (sheap st) p))].
        rewrite inner_other in *. destruct (Nat.eq_dec r p) as [->|Dp]; [assumption|].
        assert (X : cell (wr (sheap st) p (cell (sheap st) p)) r = cell (sheap st) r).
        { unfold cell at 1. destruct (Nat.lt_ge_cases r (List.length (sheap st))) as [L|L].
          - apply nth_error_nth. rewrite wr_other by assumption. now apply nth_error_nth'.
          - unfold cell in Q. rewrite nth_overflow in Q by assumption. now elim Q. }
        rewrite X in Z. now rewrite <- Z.
      - now split.
      - destruct (cell (sheap st) p); now split.
      - destruct (cell (sheap st) p); now split.
      - now split. }
    destruct (Nat.eq_dec j y) as [->|Dj].
    + rewrite N in E. injection E as <-. rewrite V, H in Mono. unfold calm. rewrite H, V. unfold s_gstep in *. destruct (sph g0) as [|f|f|f p|f|f p| |p|p|] eqn:Ph; cbn [fst snd] in *.
      * destruct (stodo g0) as [|[f|] r] eqn:T; cbn [fst snd] in *.
        -- rewrite T, Ph. split; [|exact I]. now exists cs, a.
        -- split; [exists cs, (a ++ [SSet f]); split; [assumption|]; rewrite <- app_assoc; exact D|]. assert (G : given_f f) by (exists cs; split; [assumption|]; rewrite D; apply in_or_app; right; now left).
           cbn. destruct (svar st); [split; [assumption|discriminate]|assumption].
        -- destruct (svar st); (split; [exists cs, (a ++ [SString]); split; [assumption|]; rewrite <- app_assoc; exact D|exact I]).
      * split; [now exists cs, a|]. split; [assumption|discriminate].
      * split; [now exists cs, a|]. cbn. destruct (svar st); [assumption|now elim (proj2 P)].
      * split; [now exists cs, a|]. exact P.
      * split; [now exists cs, a|]. cbn. destruct (svar st); [assumption|now elim (proj2 P)].
      * split; [now exists cs, a|]. exact (proj2 P).
      * split; [now exists cs, a|]. exact I.
      * destruct (cell (sheap st) p) eqn:Q; (split; [now exists cs, a|]); [cbn; now rewrite Q|exact I].
      * destruct (cell (sheap st) p) eqn:Q; [|now elim P]. split; [now exists cs, a|exact I].
      * contradiction.
    + rewrite O in E by assumption. destruct (IH j g E) as [A B]. split; [assumption|]. destruct Mono as [M1 M2].
      destruct (sph g); trivial; first [now apply M1 | now apply M2 | split; [apply B | apply M1; apply B]].
Qed.
End Safe.
(* When no call takes the factor away, String does not panic and Set does not panic. *)
Theorem C167_safe : forall x css q, (forall cs f, In cs css -> In (SSet f) cs -> ~ clears f) ->
  forall i g, nth_error (sgos (sched (s_start x css) q)) i = Some g -> sph g <> SPanic.
Proof. intros x css q Hc i g E P. destruct (calm_run x css Hc q i g E) as [_ B]. now rewrite P in B. Qed.

(* ---- a variable that was set before ---- *)
Section Set_.
Variables (c0 : option N) (css : list (list scall)).
Notation at_ q := (sched (s_start (Some c0) css) q).
Record sinv (st : sstate) : Prop := MkSinv {
  sv_heap : exists c, sheap st = [c];
  sv_var : svar st = Some 0;
  sv_val : s_value st = Some c0 \/ s_gives css (s_value st);
  sv_go : forall j g, nth_error (sgos st) j = Some g ->
    (exists cs a, nth_error css j = Some cs /\ cs = a ++ stodo g) /\
    (forall p, In (SVar p) (sres_of g) -> p = Some 0) /\
    match sph g with
    | SIdle | SRet | SPanic => True
    | SFind f => exists cs, In cs css /\ In (SSet f) cs
    | SWrite f p => p = 0 /\ exists cs, In cs css /\ In (SSet f) cs
    | SCheck p | SDeref p => p = 0
    | _ => False
    end
}.
Lemma sinv_run q : sinv (at_ q).
Proof.
  induction q as [|y q IH] using rev_ind.
  - split; [now exists c0|reflexivity|now left|]. intros j g E. apply s_start_at in E as (cs & E & ->). split; [now exists cs, []|]. split; [intros p []|exact I].
  - rewrite s_snoc. set (st := at_ q) in *. destruct IH as [[c Hc] Hv Va Go].
    destruct (nth_error (sgos st) y) as [g0|] eqn:Y; [|rewrite s_step_none by assumption; split; trivial; now exists c].
    destruct (s_step_go st y g0 Y) as (H & V & N & O). destruct (Go y g0 Y) as ((cs & a & C & D) & R & P).
    assert (Oth : forall g', nth_error (sgos (s_step st y)) y = Some g' ->
      ((exists cs a, nth_error css y = Some cs /\ cs = a ++ stodo g') /\ (forall p, In (SVar p) (sres_of g') -> p = Some 0) /\
       match sph g' with SIdle | SRet | SPanic => True | SFind f => exists cs, In cs css /\ In (SSet f) cs | SWrite f p => p = 0 /\ exists cs, In cs css /\ In (SSet f) cs | SCheck p | SDeref p => p = 0 | _ => False end) ->
      forall j g, nth_error (sgos (s_step st y)) j = Some g ->
      (exists cs a, nth_error css j = Some cs /\ cs = a ++ stodo g) /\ (forall p, In (SVar p) (sres_of g) -> p = Some 0) /\
      match sph g with SIdle | SRet | SPanic => True | SFind f => exists cs, In cs css /\ In (SSet f) cs | SWrite f p => p = 0 /\ exists cs, In cs css /\ In (SSet f) cs | SCheck p | SDeref p => p = 0 | _ => False end).
    { intros g' N' Q j g J. destruct (Nat.eq_dec j y) as [->|Dj]; [assert (g = g') as -> by congruence; exact Q|]. rewrite O in J by assumption. now apply Go. }
    assert (Same : sheap (s_step st y) = sheap st -> svar (s_step st y) = svar st -> s_value (s_step st y) = s_value st) by (intros A B; unfold s_value; now rewrite A, B).
    assert (Td : exists cs a, nth_error css y = Some cs /\ cs = a ++ stodo g0) by now exists cs, a.
    assert (Rt : forall s p, In (SVar p) (sres_of g0 ++ [SText s]) -> p = Some 0) by (intros s p K; apply in_app_or in K as [K|[K|[]]]; [now apply R|discriminate K]).
    unfold s_gstep in H, V, N. rewrite Hv in *. rewrite Hc in *. destruct (sph g0) as [|f|f|f p|f|f p| |p|p|] eqn:Ph; cbn [fst snd] in *; try contradiction.
    + destruct (stodo g0) as [|[f|] r] eqn:T; cbn [fst snd] in *.
      * split; [now exists c|assumption|now rewrite Same|]. apply (Oth _ N). rewrite T, Ph. now repeat split.
      * assert (Tr : exists cs a, nth_error css y = Some cs /\ cs = a ++ r) by (exists cs, (a ++ [SSet f]); split; [assumption|]; rewrite <- app_assoc; exact D).
        split; [now exists c|assumption|now rewrite Same|]. apply (Oth _ N). cbn. split; [assumption|]. split; [assumption|].
        exists cs. split; [now apply nth_error_In in C|]. rewrite D. apply in_or_app. right. now left.
      * assert (Tr : exists cs a, nth_error css y = Some cs /\ cs = a ++ r) by (exists cs, (a ++ [SString]); split; [assumption|]; rewrite <- app_assoc; exact D).
        split; [now exists c|assumption|now rewrite Same|]. apply (Oth _ N). cbn. now repeat split.
    + split; [now exists c|assumption|now rewrite Same|]. apply (Oth _ N). cbn. now repeat split.
    + destruct P as [-> (cs' & C1 & C2)]. cbn in H. split; [eexists; exact H|assumption| |].
      * unfold s_value. rewrite H, V. cbn. destruct (sarg_other f) as [->|F].
        -- rewrite inner_other. unfold s_value in Va. now rewrite Hc, Hv in Va.
        -- right. exists cs', f, (Some c). now repeat split.
      * apply (Oth _ N). cbn. now repeat split.
    + split; [now exists c|assumption|now rewrite Same|]. apply (Oth _ N). cbn. split; [assumption|]. split; [|exact I].
      intros p K. apply in_app_or in K as [K|[K|[]]]; [now apply R|]. now injection K as <-.
    + subst p. cbn in N. split; [now exists c|assumption|now rewrite Same|]. apply (Oth _ N). destruct c; cbn; repeat split; trivial; now apply Rt.
    + subst p. cbn in N. split; [now exists c|assumption|now rewrite Same|]. apply (Oth _ N). destruct c; cbn; repeat split; trivial; now apply Rt.
    + split; [now exists c|assumption|now rewrite Same|]. apply (Oth _ N). rewrite Ph. now repeat split.
Qed.
(* the text of a value of a moment of the call *)
Definition s_moment (q : list nat) (i k : nat) (s : string) : Prop :=
  exists a b ga, q = a ++ i :: b /\ nth_error (sgos (at_ a)) i = Some ga /\ List.length (sres_of ga) = k /\ (sph ga = SCheck 0 \/ sph ga = SDeref 0) /\ s = ssf_string (s_value (at_ a)).
Lemma moments q : forall i g k s, nth_error (sgos (at_ q)) i = Some g -> nth_error (sres_of g) k = Some (SText s) -> s_moment q i k s.
Proof.
  induction q as [|y q IH] using rev_ind; intros i g k s E K.
  - apply s_start_at in E as (cs & _ & ->). destruct k; discriminate K.
  - assert (More : s_moment q i k s -> s_moment (q ++ [y]) i k s).
    { intros (a & b & ga & -> & Q). exists a, (b ++ [y]), ga. split; [now rewrite <- app_assoc|assumption]. }
    rewrite s_snoc in E. assert (Iq := sinv_run q). set (st := at_ q) in *.
    destruct (nth_error (sgos st) y) as [g0|] eqn:Y; [|rewrite s_step_none in E by assumption; apply More; now apply (IH i g)].
    destruct (s_step_go st y g0 Y) as (_ & _ & N & O). destruct (Nat.eq_dec i y) as [->|D]; [|rewrite O in E by assumption; apply More; now apply (IH i g)].
    rewrite N in E. injection E as <-. destruct (sv_heap st Iq) as [c Hc]. destruct (sv_go st Iq y g0 Y) as (_ & _ & P). assert (Hv := sv_var st Iq).
    assert (Old : nth_error (sres_of g0) k = Some (SText s) -> s_moment (q ++ [y]) y k s) by (intros Z; apply More; now apply (IH y g0)).
    assert (New : forall r, nth_error (sres_of g0 ++ [r]) k = Some (SText s) -> nth_error (sres_of g0) k = Some (SText s) \/ k = List.length (sres_of g0) /\ r = SText s).
    { intros r Z. destruct (Nat.lt_ge_cases k (List.length (sres_of g0))) as [L|L]; [rewrite nth_error_app1 in Z by assumption; now left|].
      rewrite nth_error_app2 in Z by assumption. destruct (k - List.length (sres_of g0)) as [|z] eqn:F; [|destruct z; discriminate Z]. injection Z as ->. right. split; [lia|reflexivity]. }
    unfold s_gstep in K. rewrite Hc, Hv in K. destruct (sph g0) as [|f|f|f p|f|f p| |p|p|] eqn:Ph; cbn [snd] in K; try contradiction.
    + destruct (stodo g0) as [|[]]; cbn [snd sres_of] in K; now apply Old.
    + now apply Old.
    + now apply Old.
    + cbn [sres_of] in K. destruct (New _ K) as [Z|[_ Z]]; [now apply Old|discriminate Z].
    + subst p. destruct c as [n|]; cbn in K; [now apply Old|]. destruct (New _ K) as [Z|[-> Z]]; [now apply Old|]. injection Z as <-.
      exists q, [], g0. split; [reflexivity|]. split; [assumption|]. split; [reflexivity|]. split; [now left|]. fold st. unfold s_value. now rewrite Hc, Hv.
    + subst p. destruct c as [n|]; cbn in K; [|now apply Old]. destruct (New _ K) as [Z|[-> Z]]; [now apply Old|]. injection Z as <-.
      exists q, [], g0. split; [reflexivity|]. split; [assumption|]. split; [reflexivity|]. split; [now right|]. fold st. unfold s_value. now rewrite Hc, Hv.
    + now apply Old.
Qed.
End Set_.
(* A variable that was set before: its value is at every moment the one of the start or one
   that a call gave. *)
Theorem C167_given : forall c css q, let st := sched (s_start (Some c) css) q in s_value st = Some c \/ s_gives css (s_value st).
Proof. intros c css q. apply (sinv_run c css q). Qed.
(* What Set returns is the variable itself: it shows every later value. *)
Theorem C167_shared : forall c css q i g p q', nth_error (sgos (sched (s_start (Some c) css) q)) i = Some g -> In (SVar p) (sres_of g) ->
  let st' := sched (s_start (Some c) css) (q ++ q') in value_at (sheap st') p = s_value st'.
Proof.
  intros c css q i g p q' E K st'. destruct (sv_go c css _ (sinv_run c css q) i g E) as (_ & R & _). rewrite (R p K). unfold s_value, st'. now rewrite (sv_var c css _ (sinv_run c css (q ++ q'))).
Qed.
(* String returns the text of a value that the variable has during the call. *)
Theorem C167_moment : forall c css q i g k s, nth_error (sgos (sched (s_start (Some c) css) q)) i = Some g -> nth_error (sres_of g) k = Some (SText s) ->
  exists a b ga, q = a ++ i :: b /\
    (* goroutine i is in a call of String, k calls have returned *)
    nth_error (sgos (sched (s_start (Some c) css) a)) i = Some ga /\ List.length (sres_of ga) = k /\ (sph ga = SCheck 0 \/ sph ga = SDeref 0) /\
    s = ssf_string (s_value (sched (s_start (Some c) css) a)).
Proof. intros c css q i g k s. apply moments. Qed.
Theorem C167_returns : forall x css q, exists q', forall g, In g (sgos (sched (s_start x css) (q ++ q'))) -> s_ended g.
Proof.
  intros x css q.
  set (left := fun g => match sph g with SIdle => 0 | SNew _ => 6 | SFill _ => 5 | SFillAt _ _ => 4 | SFind _ => 3 | SWrite _ _ => 2 | SRet => 1 | SCheck _ => 2 | SDeref _ => 1 | SPanic => 0 end).
  destruct (drain sstate sgo sgos s_step s_ended (fun g => List.length (stodo g)) (fun _ g => left g)) with (s := sched (s_start x css) q) as [q' Q].
  - apply s_step_len.
  - intros st i j D. destruct (nth_error (sgos st) i) as [g0|] eqn:E; [now apply (s_step_go _ _ _ E)|now rewrite s_step_none].
  - intros st i g E. destruct (s_step_go st i g E) as (_ & _ & N & _). unfold s_gstep in N. unfold left. destruct (sph g) eqn:P.
    + destruct (stodo g) as [|[f|] cs] eqn:T; [left; now left|right; eexists; split; [exact N|]; left; cbn; lia|].
      right. eexists. split; [exact N|]. left. cbn [snd]. destruct (svar st); cbn; lia.
    + right. eexists. split; [exact N|]. right. cbn. lia.
    + right. eexists. split; [exact N|]. right. cbn. destruct (svar st); lia.
    + right. eexists. split; [exact N|]. right. cbn. lia.
    + right. eexists. split; [exact N|]. right. cbn. destruct (svar st); lia.
    + right. eexists. split; [exact N|]. right. cbn. lia.
    + right. eexists. split; [exact N|]. right. cbn. lia.
    + right. eexists. split; [exact N|]. right. cbn. destruct (cell (sheap st) p); cbn; lia.
    + right. eexists. split; [exact N|]. right. cbn. destruct (cell (sheap st) p); cbn; lia.
    + left. now right.
  - exists q'. rewrite s_app. exact Q.
Qed.
Print Assumptions C167_safe.
Print Assumptions C167_given.
Print Assumptions C167_shared.
Print Assumptions C167_moment.
Print Assumptions C167_returns.
