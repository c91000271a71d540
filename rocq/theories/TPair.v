(* C157, C158: goroutines that set and print one attribute pair. *)
From Coq Require Import String List PeanoNat NArith Bool Lia.
From Verif Require Import GoStr MHeap MMisc MKw MAttr MFilter MPair SPair SWord PWhole PDrain.
Import ListNotations.
Open Scope list_scope.

Lemma p_app st a b : p_sched st (a ++ b) = p_sched (p_sched st a) b.
Proof. apply fold_left_app. Qed.
Lemma p_snoc st a i : p_sched st (a ++ [i]) = p_step (p_sched st a) i.
Proof. now rewrite p_app. Qed.
(* the goroutines after a step: the one that ran, and the others *)
Lemma p_step_go st i g0 : nth_error (pgos st) i = Some g0 ->
  ppair (p_step st i) = fst (p_gstep (ppair st) g0) /\
  nth_error (pgos (p_step st i)) i = Some (snd (p_gstep (ppair st) g0)) /\
  forall j, j <> i -> nth_error (pgos (p_step st i)) j = nth_error (pgos st) j.
Proof.
  intros E. unfold p_step. rewrite E. destruct (p_gstep (ppair st) g0) as [r g']. cbn [ppair pgos fst snd].
  split; [reflexivity|]. split; [apply wr_same; apply nth_error_Some; congruence|]. intros j J. now apply wr_other.
Qed.
Lemma p_step_none st i : nth_error (pgos st) i = None -> p_step st i = st.
Proof. intros E. unfold p_step. now rewrite E. Qed.
Lemma p_step_len st i : List.length (pgos (p_step st i)) = List.length (pgos st).
Proof.
  unfold p_step. destruct (nth_error (pgos st) i) as [g|]; [|reflexivity].
  destruct (p_gstep (ppair st) g) as [r g']. cbn [pgos]. apply wr_len.
Qed.
Lemma p_step_in st i g : In g (pgos (p_step st i)) ->
  In g (pgos st) \/ exists g0, nth_error (pgos st) i = Some g0 /\ g = snd (p_gstep (ppair st) g0).
Proof.
  unfold p_step. destruct (nth_error (pgos st) i) as [g0|] eqn:E; [|now left].
  destruct (p_gstep (ppair st) g0) as [r g'] eqn:S. cbn [pgos]. intros I. apply wr_in in I as [->|I]; [|now left].
  right. exists g0. split; [reflexivity|]. now rewrite S.
Qed.

(* ---- parts do not go away ---- *)
Lemma gstep_kept r g : pat g <> PValue SNil ->
  (fst r <> None -> fst (fst (p_gstep r g)) <> None) /\ (snd r <> SNil -> snd (fst (p_gstep r g)) <> SNil).
Proof.
  intros N. destruct r as [r0 r1]. destruct g as [td p tx]. unfold p_gstep. cbn [pat ptodo ptexts fst snd] in *.
  destruct p as [|a|v|n].
  - destruct td as [|[x|] td]; cbn [fst snd]; tauto.
  - cbn [fst snd]. split; [discriminate|tauto].
  - cbn [fst snd]. split; [tauto|]. intros _ ->. now apply N.
  - destruct (pair_string _); cbn [fst snd]; tauto.
Qed.
Lemma arg_solid r x : p_arg r x <> PValue SNil.
Proof.
  destruct r as [[a|] v], x; cbn [p_arg fst snd]; try discriminate; try (destruct v; discriminate).
  destruct (_ =? _)%N; discriminate.
Qed.
Lemma no_nil r css q : forall g, In g (pgos (p_sched (p_start r css) q)) -> pat g <> PValue SNil.
Proof.
  induction q as [|i q I] using rev_ind.
  - cbn [p_sched fold_left p_start pgos]. intros g J. apply in_map_iff in J as (cs & <- & _). discriminate.
  - rewrite p_snoc. intros g J. apply p_step_in in J as [J|(g0 & E & ->)]; [now apply I|].
    specialize (I g0 (nth_error_In _ _ E)). destruct g0 as [td p tx]. unfold p_gstep. cbn [pat ptodo ptexts] in *.
    destruct p as [|a|v|n]; [destruct td as [|[x|] td]|..]; cbn [snd pat]; try discriminate; try assumption.
    + apply arg_solid.
    + destruct (pair_string _); cbn [pat]; discriminate.
Qed.
(* A part of the pair, once set, is never unset. *)
Theorem C157_kept : forall r css q1 q2, let at_ q := ppair (p_sched (p_start r css) q) in
  (fst (at_ q1) <> None -> fst (at_ (q1 ++ q2)) <> None) /\ (snd (at_ q1) <> SNil -> snd (at_ (q1 ++ q2)) <> SNil).
Proof.
  intros r css q1 q2. cbn zeta. induction q2 as [|i q I] using rev_ind.
  - rewrite app_nil_r. tauto.
  - rewrite app_assoc, p_snoc. set (st := p_sched (p_start r css) (q1 ++ q)) in *.
    destruct (nth_error (pgos st) i) as [g|] eqn:E; [|now rewrite p_step_none].
    destruct (p_step_go st i g E) as (-> & _). pose proof (no_nil r css (q1 ++ q) g (nth_error_In _ _ E)) as N.
    destruct (gstep_kept (ppair st) g N). tauto.
Qed.

(* ---- the parts are those given ---- *)
Lemma ops_args {A} (cs : list (pcall A)) x : In (PArg x) (p_ops cs) <-> In x (p_args cs).
Proof.
  unfold p_ops, p_args. rewrite !in_flat_map. split; intros (c & I & J); exists c; (split; [assumption|]); destruct c as [xs|].
  - apply in_map_iff in J as (y & E & J). now injection E as <-.
  - now destruct J as [J|[]].
  - now apply in_map.
  - contradiction.
Qed.
Definition from (css : list (list (pcall abarg))) (p : pplace) : Prop :=
  match p with
  | PName a => exists x, p_gives css x /\ name_of x a
  | PValue v => exists x, p_gives css x /\ value_of x v
  | _ => True
  end.
Lemma arg_from css r x : p_gives css x -> from css (p_arg r x).
Proof.
  intros G. destruct r as [r0 r1], x as [a|v|n|s|]; cbn [p_arg fst snd].
  - destruct r0; cbn [from]; [trivial|]. exists (BAT a). split; [assumption|now left].
  - destruct r1; cbn [from]; trivial. exists (BAV v). split; [assumption|left; eauto].
  - destruct r1; cbn [from]; trivial. exists (BBT n). split; [assumption|right; left; eauto].
  - destruct r0; cbn [from]; exists (BStr s); (split; [assumption|]).
    + right; right. exists s. split; [reflexivity|]. destruct (N.eqb_spec (matchBT s) 0); [right|left]; now split.
    + right. now exists s.
  - exact I.
Qed.
Record inv_given (r : pair_t) (css : list (list (pcall abarg))) (st : pstate) : Prop := {
  ig_todo : forall g x, In g (pgos st) -> In (PArg x) (ptodo g) -> p_gives css x;
  ig_at : forall g, In g (pgos st) -> from css (pat g);
  ig_name : forall a, fst (ppair st) = Some a -> fst r = Some a \/ exists x, p_gives css x /\ name_of x a;
  ig_val : snd (ppair st) = snd r \/ exists x, p_gives css x /\ value_of x (snd (ppair st)) }.
Lemma given_step r css st i : inv_given r css st -> inv_given r css (p_step st i).
Proof.
  intros H. destruct (nth_error (pgos st) i) as [g0|] eqn:E; [|now rewrite p_step_none].
  pose proof (nth_error_In _ _ E) as I0. destruct (p_step_go st i g0 E) as (P & _ & _).
  assert (K : (forall x, In (PArg x) (ptodo (snd (p_gstep (ppair st) g0))) -> p_gives css x) /\
              from css (pat (snd (p_gstep (ppair st) g0)))).
  { pose proof (ig_at _ _ _ H g0 I0) as A. pose proof (fun x => ig_todo _ _ _ H g0 x I0) as Td.
    destruct g0 as [td p tx]. unfold p_gstep. cbn [pat ptodo ptexts] in *. destruct p as [|a|v|n].
    - destruct td as [|[x|] td]; cbn [snd ptodo pat].
      + now split.
      + split; [intros y J; apply Td; now right|]. apply arg_from. apply Td. now left.
      + split; [intros y J; apply Td; now right|exact I].
    - now split.
    - now split.
    - destruct (pair_string _); cbn [snd ptodo pat]; (split; [|exact I]); [assumption|intros x []]. }
  destruct K as [K1 K2]. split.
  - intros g x J. apply p_step_in in J as [J|(g1 & E1 & ->)]; [now apply (ig_todo _ _ _ H)|].
    rewrite E in E1. injection E1 as <-. apply K1.
  - intros g J. apply p_step_in in J as [J|(g1 & E1 & ->)]; [now apply (ig_at _ _ _ H)|].
    rewrite E in E1. injection E1 as <-. apply K2.
  - rewrite P. pose proof (ig_at _ _ _ H g0 I0) as A. pose proof (ig_name _ _ _ H) as N.
    destruct g0 as [td p tx]. unfold p_gstep. cbn [pat ptodo ptexts] in *. destruct p as [|a|v|n].
    + destruct td as [|[x|] td]; cbn [fst]; assumption.
    + cbn [fst]. intros b B. injection B as <-. now right.
    + cbn [fst]. assumption.
    + cbn [fst]. assumption.
  - rewrite P. pose proof (ig_at _ _ _ H g0 I0) as A. pose proof (ig_val _ _ _ H) as N.
    destruct g0 as [td p tx]. unfold p_gstep. cbn [pat ptodo ptexts] in *. destruct p as [|a|v|n].
    + destruct td as [|[x|] td]; cbn [fst]; assumption.
    + cbn [fst snd]. assumption.
    + cbn [fst snd]. now right.
    + cbn [fst]. assumption.
Qed.
Lemma given_run r css q : inv_given r css (p_sched (p_start r css) q).
Proof.
  induction q as [|i q I] using rev_ind; [|rewrite p_snoc; now apply given_step]. split; cbn [p_sched fold_left p_start pgos ppair].
  - intros g x J. apply in_map_iff in J as (cs & <- & J). cbn [ptodo]. intros K. exists cs. split; [assumption|]. now apply ops_args.
  - intros g J. apply in_map_iff in J as (cs & <- & _). exact I.
  - now left.
  - now left.
Qed.
(* What the pair holds was there from the start, or is what some argument stands for. *)
Theorem C157_given : forall r css q, let p := ppair (p_sched (p_start r css) q) in
  (forall a, fst p = Some a -> fst r = Some a \/ exists x, p_gives css x /\ name_of x a) /\
  (snd p = snd r \/ exists x, p_gives css x /\ value_of x (snd p)).
Proof. intros r css q. cbn zeta. destruct (given_run r css q) as [_ _ A B]. now split. Qed.

(* ---- what String returns ---- *)
Section Text.
Variables (r : pair_t) (css : list (list (pcall abarg))).
Notation at_ q := (p_sched (p_start r css) q).
Definition seen (q : list nat) (t : option string) : Prop :=
  exists a b c, q = a ++ b ++ c /\ t = pair_string (fst (ppair (at_ a)), snd (ppair (at_ (a ++ b)))).
Lemma seen_more q i t : seen q t -> seen (q ++ [i]) t.
Proof. intros (a & b & c & -> & E). exists a, b, (c ++ [i]). split; [now rewrite <- !app_assoc|assumption]. Qed.
Lemma text_run q : (forall g t, In g (pgos (at_ q)) -> In t (ptexts g) -> seen q t) /\
  (forall g n, In g (pgos (at_ q)) -> pat g = PHalf n -> exists a b, q = a ++ b /\ n = fst (ppair (at_ a))).
Proof.
  induction q as [|i q [I1 I2]] using rev_ind.
  - split; intros g x J; apply in_map_iff in J as (cs & <- & _); cbn [ptexts pat]; [intros []|discriminate].
  - rewrite p_snoc. split.
    + intros g t J K. apply p_step_in in J as [J|(g0 & E & ->)]; [apply seen_more; now apply (I1 g)|].
      pose proof (nth_error_In _ _ E) as I0. specialize (I2 g0). specialize (I1 g0). destruct g0 as [td p tx].
      unfold p_gstep in K. cbn [pat ptodo ptexts] in *. destruct p as [|a|v|n].
      * destruct td as [|[x|] td]; apply seen_more; now apply I1.
      * apply seen_more; now apply I1.
      * apply seen_more; now apply I1.
      * destruct (I2 n I0 eq_refl) as (a & b & -> & ->).
        assert (S : seen (a ++ b) (pair_string (fst (ppair (at_ a)), snd (ppair (at_ (a ++ b)))))).
        { exists a, b, []. split; [now rewrite app_nil_r|reflexivity]. }
        apply seen_more. destruct (pair_string _) eqn:Ps; cbn [snd ptexts] in K;
          apply in_app_iff in K as [K|[<-|[]]]; try (now apply I1); exact S.
    + intros g n J K. apply p_step_in in J as [J|(g0 & E & ->)].
      { destruct (I2 g n J K) as (a & b & -> & ->). exists a, (b ++ [i]). split; [now rewrite app_assoc|reflexivity]. }
      destruct g0 as [td p tx]. unfold p_gstep in K. cbn [pat ptodo ptexts] in *. destruct p as [|a|v|n0].
      * destruct td as [|[x|] td]; cbn [snd pat] in K; [discriminate| |].
        -- exfalso. revert K. destruct (ppair (at_ q)) as [[o|] [|w|m]], x; cbn; discriminate.
        -- injection K as <-. exists q, [i]. now split.
      * discriminate K.
      * discriminate K.
      * destruct (pair_string _); discriminate K.
Qed.
End Text.
(* Each call of String shows the name that the pair held at one moment and the value that it
   held at that moment or later; it does not panic if no empty value is given. *)
Theorem C157_text : forall r css q g t, In g (pgos (p_sched (p_start r css) q)) -> In t (ptexts g) ->
  exists a b c, q = a ++ b ++ c /\
    t = pair_string (fst (ppair (p_sched (p_start r css) a)), snd (ppair (p_sched (p_start r css) (a ++ b)))).
Proof. intros r css q g t I J. now apply (proj1 (text_run r css q) g t). Qed.
Theorem C157_no_panic : forall r css q g, solid (snd r) -> (forall x, p_gives css x -> solid_arg x) ->
  In g (pgos (p_sched (p_start r css) q)) -> ~ In None (ptexts g).
Proof.
  intros r css q g S A I J. destruct (C157_text r css q g None I J) as (a & b & c & _ & E).
  destruct (C157_given r css (a ++ b)) as [_ V]. set (w := snd (ppair (p_sched (p_start r css) (a ++ b)))) in *.
  assert (Sw : solid w).
  { destruct V as [->|(x & G & V)]; [assumption|]. destruct (A x G) as [A1 A2].
    destruct V as [(v & -> & ->)|[(n & -> & ->)|(s & -> & [(_ & ->)|(_ & ->)])]]; intros F; try discriminate.
    - injection F as ->. now apply A1.
    - unfold AV in F. destruct (Nat.ltb_spec 0 (String.length s)); [discriminate|]. apply A2. now destruct s. }
  unfold pair_string in E. destruct (fst _) as [n|]; [|discriminate]. destruct w as [|[v|]|m].
  - discriminate.
  - destruct (_ =? _)%nat; discriminate.
  - now apply Sw.
  - destruct (_ =? _)%N; discriminate.
Qed.

(* ---- the name, once set ---- *)
(* From a moment at which the name is set, it can only be changed by a goroutine that has
   found it unset before, to the name it then had in hand. *)
Lemma late st : forall q, fst (ppair st) <> None ->
  (fst (ppair (p_sched st q)) <> None) /\
  (fst (ppair (p_sched st q)) = fst (ppair st) \/
   exists g a, In g (pgos st) /\ pat g = PName a /\ fst (ppair (p_sched st q)) = Some a) /\
  (forall g a, In g (pgos (p_sched st q)) -> pat g = PName a -> exists g0, In g0 (pgos st) /\ pat g0 = PName a).
Proof.
  intros q N. induction q as [|i q (I0 & I1 & I2)] using rev_ind.
  - cbn [p_sched fold_left]. split; [assumption|]. split; [now left|]. eauto.
  - rewrite p_snoc. set (t := p_sched st q) in *. destruct (nth_error (pgos t) i) as [g0|] eqn:E; [|rewrite p_step_none by assumption; tauto].
    pose proof (nth_error_In _ _ E) as J0. destruct (p_step_go t i g0 E) as (P & _ & _). split; [|split].
    + rewrite P. destruct g0 as [td p tx]. unfold p_gstep. cbn [pat ptodo ptexts]. destruct p as [|a|v|n];
        [destruct td as [|[x|] td]|..]; cbn [fst]; try assumption. discriminate.
    + rewrite P. specialize (I2 g0). destruct g0 as [td p tx]. unfold p_gstep. cbn [pat ptodo ptexts] in *.
      destruct p as [|a|v|n]; [destruct td as [|[x|] td]|..]; cbn [fst]; try assumption.
      right. destruct (I2 a J0 eq_refl) as (g & G & A). now exists g, a.
    + intros g a J K. apply p_step_in in J as [J|(g1 & E1 & ->)]; [now apply (I2 g)|].
      rewrite E in E1. injection E1 as <-. destruct g0 as [td p tx]. unfold p_gstep in K. cbn [pat ptodo ptexts] in *.
      destruct p as [|b|v|n].
      * destruct td as [|[x|] td]; cbn [snd pat] in K; [discriminate| |discriminate].
        exfalso. revert K I0. destruct (ppair t) as [[o|] w]; cbn [fst]; [|congruence].
        destruct x; cbn [p_arg fst snd]; try discriminate; destruct w; discriminate.
      * discriminate K.
      * discriminate K.
      * destruct (pair_string _); discriminate K.
Qed.
(* Once the name is set and no call runs, it is fixed whatever calls follow, and every call of
   String from then on shows the pair as it is when the call returns. *)
Theorem C157_settled : forall r css q1 q2 a, let at_ q := p_sched (p_start r css) q in
  p_quiet (at_ q1) -> fst (ppair (at_ q1)) = Some a ->
  fst (ppair (at_ (q1 ++ q2))) = Some a /\
  forall k g g', nth_error (pgos (at_ q1)) k = Some g -> nth_error (pgos (at_ (q1 ++ q2))) k = Some g' ->
  exists ts, ptexts g' = ptexts g ++ ts /\
    forall t, In t ts -> exists b c, q2 = b ++ c /\ t = pair_string (ppair (at_ (q1 ++ b))).
Proof.
  intros r css q1 q2 a. cbn zeta. intros Q A.
  assert (Fix : forall q, fst (ppair (p_sched (p_start r css) (q1 ++ q))) = Some a).
  { intros q. rewrite p_app. destruct (late (p_sched (p_start r css) q1) q) as (_ & [L|(g & b & G & P & _)] & _).
    - rewrite A. discriminate.
    - now rewrite L.
    - specialize (Q g G). congruence. }
  split; [apply Fix|].
  cut (forall k g g', nth_error (pgos (p_sched (p_start r css) q1)) k = Some g -> nth_error (pgos (p_sched (p_start r css) (q1 ++ q2))) k = Some g' ->
    (forall n, pat g' = PHalf n -> n = Some a) /\
    exists ts, ptexts g' = ptexts g ++ ts /\ forall t, In t ts -> exists b c, q2 = b ++ c /\ t = pair_string (ppair (p_sched (p_start r css) (q1 ++ b)))).
  { intros C k g g' G G'. now apply (C k). }
  induction q2 as [|i q I] using rev_ind; intros k g g' G G'.
  - rewrite app_nil_r in G'. rewrite G in G'. injection G' as <-. split.
    + intros n P. rewrite (Q g (nth_error_In _ _ G)) in P. discriminate.
    + exists []. split; [now rewrite app_nil_r|intros t []].
  - rewrite app_assoc, p_snoc in G'. specialize (Fix q). set (st := p_sched (p_start r css) (q1 ++ q)) in *.
    assert (Grow : forall ts, (forall t, In t ts -> exists b c, q = b ++ c /\ t = pair_string (ppair (p_sched (p_start r css) (q1 ++ b)))) ->
                   forall t, In t ts -> exists b c, q ++ [i] = b ++ c /\ t = pair_string (ppair (p_sched (p_start r css) (q1 ++ b)))).
    { intros ts H t J. destruct (H t J) as (b & c & -> & ->). exists b, (c ++ [i]). split; [now rewrite app_assoc|reflexivity]. }
    destruct (nth_error (pgos st) i) as [g0|] eqn:E.
    2:{ rewrite p_step_none in G' by assumption. destruct (I k g g' G G') as (H1 & ts & H2 & H3). split; [assumption|]. exists ts. split; [assumption|]. now apply Grow. }
    destruct (p_step_go st i g0 E) as (_ & P1 & P2). destruct (Nat.eq_dec k i) as [->|N].
    2:{ rewrite P2 in G' by assumption. destruct (I k g g' G G') as (H1 & ts & H2 & H3). split; [assumption|]. exists ts. split; [assumption|]. now apply Grow. }
    rewrite P1 in G'. injection G' as <-. destruct (I i g g0 G E) as (H1 & ts & H2 & H3).
    destruct g0 as [td p tx]. unfold p_gstep. cbn [pat ptodo ptexts] in *. subst tx.
    destruct p as [|b|v|n].
    + destruct td as [|[x|] td]; cbn [snd pat ptexts].
      * split; [discriminate|]. exists ts. split; [reflexivity|]. now apply Grow.
      * split; [|exists ts; split; [reflexivity|now apply Grow]]. intros n K. exfalso. revert K.
        destruct (ppair st) as [[o|] [|w|m]], x; cbn; discriminate.
      * split; [|exists ts; split; [reflexivity|now apply Grow]]. intros n K. injection K as <-. assumption.
    + cbn [snd pat ptexts]. split; [discriminate|]. exists ts. split; [reflexivity|now apply Grow].
    + cbn [snd pat ptexts]. split; [discriminate|]. exists ts. split; [reflexivity|now apply Grow].
    + rewrite (H1 n eq_refl). assert (Pe : (Some a, snd (ppair st)) = ppair st) by (rewrite <- Fix; now destruct (ppair st)).
      rewrite Pe. split; [destruct (pair_string _); discriminate|].
      exists (ts ++ [pair_string (ppair st)]). split; [destruct (pair_string _); cbn [snd ptexts]; now rewrite app_assoc|].
      intros t J. apply in_app_iff in J as [J|[<-|[]]]; [now apply (Grow ts)|]. exists q, [i]. now split.
Qed.

(* ---- goroutines that take turns ---- *)
Lemma arg_step r x : pair_set1 r x =
  match p_arg r x with POff | PHalf _ => r | PName a => (Some a, snd r) | PValue v => (fst r, v) end.
Proof. destruct r as [[o|] [|w|m]], x; try reflexivity; unfold p_arg, pair_set1; cbn [fst snd]; destruct (_ =? _)%N; reflexivity. Qed.
Definition of_ {A} (k : nat) (h : list (nat * A)) : list A := map snd (filter (fun p => Nat.eqb (fst p) k) h).
Lemma of_snoc {A} k h j (x : A) : of_ k (h ++ [(j, x)]) = of_ k h ++ (if Nat.eqb j k then [x] else []).
Proof. unfold of_. rewrite filter_app, map_app. cbn [filter fst]. now destruct (Nat.eqb j k). Qed.
Definition args_in {A} (os : list (pop A)) : list A := flat_map (fun o => match o with PArg x => [x] | PText => [] end) os.
Lemma args_ops {A} (cs : list (pcall A)) : args_in (p_ops cs) = p_args cs.
Proof.
  unfold args_in, p_ops, p_args. induction cs as [|c cs I]; [reflexivity|]. cbn [flat_map]. rewrite flat_map_app, I. f_equal.
  destruct c as [xs|]; [|reflexivity]. induction xs as [|x xs J]; [reflexivity|]. cbn [map flat_map]. now rewrite J.
Qed.
Record turn (r : pair_t) (css : list (list (pcall abarg))) (st : pstate) (h : list (nat * abarg)) : Prop := {
  tu_len : List.length (pgos st) = List.length css;
  tu_log : forall k x, In (k, x) h -> (k < List.length css)%nat;
  tu_pair : ppair st = pair_set r (map snd h);
  tu_go : forall k g cs, nth_error (pgos st) k = Some g -> nth_error css k = Some cs ->
    exists pend, (if match pat g with PName _ | PValue _ => true | _ => false end
                  then exists x, pend = [x] /\ p_arg (ppair st) x = pat g else pend = []) /\
                 (~ In None (ptexts g) -> p_args cs = of_ k h ++ pend ++ args_in (ptodo g)) }.
Lemma turn_run r css : forall q, p_turns (p_start r css) q -> exists h, turn r css (p_sched (p_start r css) q) h.
Proof.
  induction q as [|i q I] using rev_ind; intros Tn.
  - exists []. split; cbn [p_sched fold_left p_start pgos ppair].
    + apply map_length.
    + intros k x [].
    + reflexivity.
    + intros k g cs G C. rewrite nth_error_map, C in G. cbn in G. injection G as <-. exists []. split; [reflexivity|].
      intros _. cbn [ptodo of_ filter map app]. symmetry. apply args_ops.
  - destruct I as [h H].
    { intros a b E. apply (Tn a (b ++ [i])). now rewrite E, app_assoc. }
    pose proof (Tn q [i] eq_refl) as Now. rewrite p_snoc. set (st := p_sched (p_start r css) q) in *.
    destruct (nth_error (pgos st) i) as [g0|] eqn:E; [|rewrite p_step_none by assumption; now exists h].
    destruct (p_step_go st i g0 E) as (P & P1 & P2).
    assert (Li : (i < List.length css)%nat) by (rewrite <- (tu_len _ _ _ _ H); apply nth_error_Some; congruence).
    destruct (nth_error css i) as [ci|] eqn:Ci; [|apply nth_error_None in Ci; lia].
    destruct (tu_go _ _ _ _ H i g0 ci E Ci) as (pend & Pe & Ar).
    (* a step that leaves the pair as it is, and is or is not the end of an argument *)
    assert (Same : forall g' add, snd (p_gstep (ppair st) g0) = g' -> fst (p_gstep (ppair st) g0) = ppair st ->
              (forall x, In x add -> pair_set1 (ppair st) x = ppair st) ->
              (exists pend', (if match pat g' with PName _ | PValue _ => true | _ => false end
                  then exists x, pend' = [x] /\ p_arg (ppair st) x = pat g' else pend' = []) /\
                 (~ In None (ptexts g') -> p_args ci = of_ i h ++ add ++ pend' ++ args_in (ptodo g'))) ->
              (List.length add <= 1)%nat ->
              exists h', turn r css (p_step st i) h').
    { intros g' add Eg Ep Ad Go La. exists (h ++ map (pair i) add). split.
      - now rewrite p_step_len, (tu_len _ _ _ _ H).
      - intros k x J. apply in_app_iff in J as [J|J]; [now apply (tu_log _ _ _ _ H k x)|].
        apply in_map_iff in J as (y & J & _). now injection J as <- <-.
      - rewrite P, Ep. rewrite map_app, map_map. cbn [snd]. rewrite map_id. unfold pair_set. rewrite fold_left_app.
        change (ppair st = fold_left pair_set1 add (pair_set r (map snd h))). rewrite <- (tu_pair _ _ _ _ H).
        destruct add as [|x [|y add]]; [reflexivity| |cbn in La; lia]. cbn [fold_left]. symmetry. apply Ad. now left.
      - intros k g cs G C. rewrite P, Ep. destruct (Nat.eq_dec k i) as [->|N].
        + rewrite P1, Eg in G. injection G as <-. rewrite Ci in C. injection C as <-.
          destruct Go as (pend' & Go1 & Go2). exists pend'. split; [assumption|]. intros F. rewrite (Go2 F).
          destruct add as [|x [|y add]]; [now rewrite app_nil_r| |cbn in La; lia].
          cbn [map]. rewrite of_snoc, Nat.eqb_refl. now rewrite <- !app_assoc.
        + rewrite P2 in G by assumption. destruct (tu_go _ _ _ _ H k g cs G C) as (pk & K1 & K2). exists pk. split; [assumption|].
          intros F. rewrite (K2 F). destruct add as [|x [|y add]]; [now rewrite app_nil_r| |cbn in La; lia].
          cbn [map]. rewrite of_snoc. destruct (Nat.eqb_spec i k); [congruence|]. now rewrite app_nil_r. }
    (* a write *)
    assert (Write : match pat g0 with PName _ | PValue _ => True | _ => False end -> exists h', turn r css (p_step st i) h').
    { intros W. assert (Wb : (if match pat g0 with PName _ | PValue _ => true | _ => false end then exists x, pend = [x] /\ p_arg (ppair st) x = pat g0 else pend = []) -> exists x, pend = [x] /\ p_arg (ppair st) x = pat g0).
      { destruct (pat g0); try contradiction; trivial. }
      destruct (Wb Pe) as (x & -> & Px). clear Wb Pe.
      assert (Up : fst (p_gstep (ppair st) g0) = pair_set1 (ppair st) x /\ snd (p_gstep (ppair st) g0) = MkPg (ptodo g0) POff (ptexts g0)).
      { rewrite arg_step, Px. unfold p_gstep. destruct (pat g0); try contradiction; now split. }
      destruct Up as [U1 U2]. exists (h ++ [(i, x)]). split.
      - now rewrite p_step_len, (tu_len _ _ _ _ H).
      - intros k y J. apply in_app_iff in J as [J|[J|[]]]; [now apply (tu_log _ _ _ _ H k y)|]. now injection J as <- <-.
      - rewrite P, U1, map_app. cbn [map snd]. unfold pair_set. rewrite fold_left_app. cbn [fold_left]. f_equal. apply (tu_pair _ _ _ _ H).
      - intros k g cs G C. destruct (Nat.eq_dec k i) as [->|N].
        + rewrite P1, U2 in G. injection G as <-. rewrite Ci in C. injection C as <-. exists []. cbn [pat]. split; [reflexivity|].
          intros F. cbn [ptexts ptodo] in *. rewrite (Ar F), of_snoc, Nat.eqb_refl. now rewrite <- !app_assoc.
        + rewrite P2 in G by assumption. destruct (tu_go _ _ _ _ H k g cs G C) as (pk & K1 & K2).
          assert (Nw : ~ p_writing (pat g)).
          { intros Wg. apply N. apply (Now k i g g0 G Wg E). unfold p_writing. destruct (pat g0); tauto. }
          exists pk. split; [unfold p_writing in Nw; destruct (pat g); tauto|].
          intros F. rewrite (K2 F), of_snoc. destruct (Nat.eqb_spec i k); [congruence|]. now rewrite app_nil_r. }
    destruct g0 as [td p tx]. cbn [pat ptodo ptexts] in *. destruct p as [|a|v|n].
    + subst pend. destruct td as [|[x|] td].
      * apply (Same (MkPg [] POff tx) []); [reflexivity|reflexivity|intros x []| |cbn; lia]. exists []. split; [reflexivity|exact Ar].
      * destruct (p_arg (ppair st) x) as [|a|v|n] eqn:Px.
        -- apply (Same (MkPg td POff tx) [x]); [unfold p_gstep; cbn [pat ptodo ptexts snd]; now rewrite Px|reflexivity| | |cbn; lia].
           { intros y [<-|[]]. now rewrite arg_step, Px. }
           exists []. split; [reflexivity|exact Ar].
        -- apply (Same (MkPg td (PName a) tx) []); [unfold p_gstep; cbn [pat ptodo ptexts snd]; now rewrite Px|reflexivity|intros y []| |cbn; lia].
           exists [x]. split; [now exists x|exact Ar].
        -- apply (Same (MkPg td (PValue v) tx) []); [unfold p_gstep; cbn [pat ptodo ptexts snd]; now rewrite Px|reflexivity|intros y []| |cbn; lia].
           exists [x]. split; [now exists x|exact Ar].
        -- exfalso. revert Px. destruct (ppair st) as [[o|] [|w|m]], x; cbn; discriminate.
      * apply (Same (MkPg td (PHalf (fst (ppair st))) tx) []); [reflexivity|reflexivity|intros x []| |cbn; lia]. exists []. split; [reflexivity|exact Ar].
    + now apply Write.
    + now apply Write.
    + subst pend. destruct (pair_string (n, snd (ppair st))) as [s|] eqn:Ps.
      * apply (Same (MkPg td POff (tx ++ [Some s])) []); [unfold p_gstep; cbn [pat ptodo ptexts snd]; now rewrite Ps|reflexivity|intros x []| |cbn; lia].
        exists []. split; [reflexivity|]. cbn [ptexts ptodo]. intros F. apply Ar. intros J. apply F. apply in_app_iff. now left.
      * apply (Same (MkPg [] POff (tx ++ [None])) []); [unfold p_gstep; cbn [pat ptodo ptexts snd]; now rewrite Ps|reflexivity|intros x []| |cbn; lia].
        exists []. split; [reflexivity|]. cbn [ptexts]. intros F. exfalso. apply F. apply in_app_iff. right. now left.
Qed.
(* Goroutines of which no two are between the test and the write of an argument at the same
   time: the pair is what some order of all arguments makes of it. *)
Theorem C158_by_turns : forall r css q, p_turns (p_start r css) q ->
  p_returned (p_sched (p_start r css) q) -> (forall g, In g (pgos (p_sched (p_start r css) q)) -> ~ In None (ptexts g)) ->
  exists h, merges (map p_args css) h /\ ppair (p_sched (p_start r css) q) = pair_set r (map snd h).
Proof.
  intros r css q Tn R NP. destruct (turn_run r css q Tn) as (h & H). exists h. split; [|apply H]. split.
  - intros k x J. rewrite map_length. now apply (tu_log _ _ _ _ H k x).
  - intros k es F. rewrite nth_error_map in F. destruct (nth_error css k) as [cs|] eqn:C; [|discriminate]. injection F as <-.
    destruct (nth_error (pgos (p_sched (p_start r css) q)) k) as [g|] eqn:G.
    + destruct (tu_go _ _ _ _ H k g cs G C) as (pend & B1 & B2). destruct (R g (nth_error_In _ _ G)) as [R1 R2].
      rewrite (B2 (NP g (nth_error_In _ _ G))). rewrite R1. rewrite R2 in B1. subst pend. cbn. now rewrite app_nil_r.
    + apply nth_error_None in G. rewrite (tu_len _ _ _ _ H) in G. apply nth_error_None in G. congruence.
Qed.
(* Whoever changes the name once it is set had found it unset before. *)
Theorem C158_exact : forall r css q1 q2, let at_ q := p_sched (p_start r css) q in
  fst (ppair (at_ q1)) <> None ->
  fst (ppair (at_ (q1 ++ q2))) = fst (ppair (at_ q1)) \/
  exists g a, In g (pgos (at_ q1)) /\ pat g = PName a /\ fst (ppair (at_ (q1 ++ q2))) = Some a.
Proof. intros r css q1 q2. cbn zeta. intros N. rewrite p_app. now apply late. Qed.
(* False of the code: a name that String has shown is replaced, whatever the two names. *)
Theorem C158_lost : forall v a b, let at_ q := p_sched (p_start (None, v) [[PSet [BAT a]]; [PSet [BAT b]]]) q in
  exists q1 q2, ppair (at_ q1) = (Some a, v) /\ (exists g, nth_error (pgos (at_ q1)) 0 = Some g /\ ptodo g = [] /\ pat g = POff) /\
    p_returned (at_ (q1 ++ q2)) /\ ppair (at_ (q1 ++ q2)) = (Some b, v).
Proof.
  intros v a b. exists [0; 1; 0], [1]. cbn. split; [reflexivity|]. split; [eexists; repeat split|]. split; [|reflexivity].
  intros g [<-|[<-|[]]]; now split.
Qed.
Theorem C158_refuted : ~ (forall r css q1 q2 a, fst (ppair (p_sched (p_start r css) q1)) = Some a ->
  fst (ppair (p_sched (p_start r css) (q1 ++ q2))) = Some a).
Proof.
  intros F. destruct (C158_lost SNil (Some "cn"%string) (Some "sn"%string)) as (q1 & q2 & A & _ & _ & B).
  specialize (F _ _ q1 q2 (Some "cn"%string) (f_equal fst A)). rewrite B in F. discriminate.
Qed.

(* ---- every call returns ---- *)
Definition p_more (st : pstate) (g : pgo) : nat := match pat g with POff => 0 | _ => 1 end.
Theorem C157_returns : forall r css q, exists q', p_returned (p_sched (p_start r css) (q ++ q')).
Proof.
  intros r css q. setoid_rewrite p_app. generalize (p_sched (p_start r css) q). clear. intros st.
  unfold p_returned, p_sched.
  apply (drain _ _ pgos p_step _ (fun g => List.length (ptodo g)) p_more).
  - apply p_step_len.
  - intros s i j J. destruct (nth_error (pgos s) i) as [g|] eqn:E; [|now rewrite p_step_none].
    now apply (p_step_go s i g E).
  - intros s i g E. destruct (p_step_go s i g E) as (_ & P & _). rewrite P.
    destruct g as [td p tx]. unfold p_gstep. cbn [pat ptodo ptexts]. destruct p as [|a|v|n].
    + destruct td as [|[x|] td]; [now left| |]; right; eexists; (split; [reflexivity|]); left; cbn [snd ptodo List.length]; lia.
    + right. eexists. split; [reflexivity|]. right. cbn. lia.
    + right. eexists. split; [reflexivity|]. right. cbn. lia.
    + right. eexists. split; [reflexivity|]. right. cbn [snd]. destruct (pair_string _); cbn; lia.
Qed.

(* one goroutine sets name and value of an empty pair, another sets another name, a third prints *)
Open Scope string_scope.
Definition ex_css : list (list (pcall abarg)) := [[PSet [BAT (Some "manager"); BBT 1]]; [PSet [BStr "owner"]]; [PString; PString]].
Example C157_witness :
  (* String between the name and the value, and after both *)
  map ptexts (pgos (p_sched (p_start (None, SNil) ex_css) [0; 0; 2; 0; 2; 0; 2; 2])) =
    [[]; []; [Some ""; Some "manager#USERDN"]] /\
  (* the moment of C157_settled: no call runs, the name is set; the other name comes too late *)
  p_quiet (p_sched (p_start (None, SNil) ex_css) [0; 0]) /\
  ppair (p_sched (p_start (None, SNil) ex_css) [0; 0]) = (Some (Some "manager"), SNil) /\
  ppair (p_sched (p_start (None, SNil) ex_css) ([0; 0] ++ [1; 1; 0; 0])) = (Some (Some "manager"), SAV (Some "owner")).
Proof.
  split; [vm_compute; reflexivity|]. split; [|split; vm_compute; reflexivity].
  intros g J. vm_compute in J. destruct J as [<-|[<-|[<-|[]]]]; reflexivity.
Qed.
Example C157_no_panic_witness : solid (snd pair_nil) /\ (forall x, p_gives ex_css x -> solid_arg x) /\
  (* without the hypothesis there is a panic *)
  map ptexts (pgos (p_sched (p_start pair_nil [[PSet [BStr "cn"; BStr ""]]; [PString]]) [0; 0; 0; 0; 1; 1])) = [[]; [None]].
Proof.
  split; [discriminate|]. split; [|vm_compute; reflexivity].
  intros x (cs & [<-|[<-|[<-|[]]]] & J); vm_compute in J; repeat (destruct J as [<-|J]; [split; discriminate|]); contradiction.
Qed.
Example C158_by_turns_witness : p_turns (p_start (None, SNil) [[PSet [BAT (Some "cn")]]; [PSet [BStr "x"]]]) [0; 0; 1; 1] /\
  ppair (p_sched (p_start (None, SNil) [[PSet [BAT (Some "cn")]]; [PSet [BStr "x"]]]) [0; 0; 1; 1]) = (Some (Some "cn"), SAV (Some "x")).
Proof.
  split; [|vm_compute; reflexivity]. intros a b E i j gi gj Gi Wi Gj Wj.
  assert (a = [] \/ a = [0%nat] \/ a = [0; 0]%nat \/ a = [0; 0; 1]%nat \/ a = [0; 0; 1; 1]%nat) as K.
  { destruct a as [|x1 [|x2 [|x3 [|x4 [|x5 a]]]]]; cbn in E; try (injection E; intros; subst); first [tauto | discriminate]. }
  destruct K as [->|[->|[->|[->| ->]]]];
    destruct i as [|[|i]], j as [|[|j]]; try reflexivity; vm_compute in Gi, Gj;
    try (destruct i; discriminate); try (destruct j; discriminate);
    injection Gi as <-; injection Gj as <-; cbn in Wi, Wj; contradiction.
Qed.

Print Assumptions C157_kept.
Print Assumptions C157_given.
Print Assumptions C157_text.
Print Assumptions C157_no_panic.
Print Assumptions C157_settled.
Print Assumptions C157_returns.
Print Assumptions C158_by_turns.
Print Assumptions C158_exact.
Print Assumptions C158_lost.
Print Assumptions C158_refuted.
