(* C148-C150: Shift and Unshift called by several goroutines. *)
From Coq Require Import String List PeanoNat NArith ZArith Bool Lia.
From Verif Require Import GoStr Shifty MHeap MRights SRights PRights MTime STime PTime MAttr MLevels SAttr PAttr PThreads MWord SWord.
Import ListNotations.
Open Scope list_scope.

(* ---- any bits, any library calls ---- *)
Section Generic.
Variable E : Type.
Variable lib : E -> option (N -> N).
Notation step := (word_step E lib).
Notation run := (word_run E lib).
Notation start := (word_start E).
Definition app1 (v : N) (e : E) : N := match lib e with Some f => f v | None => v end.

Lemma run_snoc st q i : run st (q ++ [i]) = step (run st q) i.
Proof. unfold word_run. now rewrite fold_left_app. Qed.
Lemma run_app st a b : run st (a ++ b) = run (run st a) b.
Proof. unfold word_run. now rewrite fold_left_app. Qed.
Lemma step_len st i : List.length (workers (step st i)) = List.length (workers st).
Proof.
  unfold word_step. destruct (nth_error (workers st) i) as [g|]; [|reflexivity]. destruct (wo_step E lib (word st) g). apply wr_len.
Qed.
Lemma run_len st q : List.length (workers (run st q)) = List.length (workers st).
Proof. induction q as [|i q IH] using rev_ind; [reflexivity|]. rewrite run_snoc, step_len. exact IH. Qed.
(* a goroutine after a step: untouched, or stepped *)
Lemma step_nth st i j g : nth_error (workers st) j = Some g ->
  nth_error (workers (step st i)) j = Some (if Nat.eqb i j then snd (wo_step E lib (word st) g) else g).
Proof.
  intros J. unfold word_step. destruct (Nat.eqb_spec i j) as [->|NE].
  - rewrite J. destruct (wo_step E lib (word st) g) as [v g'] eqn:W. cbn [workers snd]. apply wr_same. apply nth_error_Some. congruence.
  - destruct (nth_error (workers st) i) as [gi|]; [|exact J]. destruct (wo_step E lib (word st) gi). cbn [workers]. rewrite wr_other by congruence. exact J.
Qed.
Lemma step_word st i g : nth_error (workers st) i = Some g -> word (step st i) = fst (wo_step E lib (word st) g).
Proof. intros J. unfold word_step. rewrite J. now destruct (wo_step E lib (word st) g). Qed.
Lemma step_out st i : nth_error (workers st) i = None -> step st i = st.
Proof. intros J. unfold word_step. now rewrite J. Qed.
Lemma start_nth v ess i : nth_error (workers (start v ess)) i = option_map (fun es => MkWo es Idle) (nth_error ess i).
Proof. cbn [word_start workers]. rewrite nth_error_map. now destruct (nth_error ess i). Qed.

(* what every call keeps of the bits is kept under every schedule *)
Definition upcoming (g : worker E) (e : E) : Prop := In e (edits g) \/ exists v, wat g = Held v e.
Definition holding (P : N -> Prop) (st : wstate E) : Prop := P (word st) /\ forall g v e, In g (workers st) -> wat g = Held v e -> P v.
Lemma step_keeps (P : N -> Prop) (ok : E -> Prop) st i : (forall e v, ok e -> P v -> P (app1 v e)) ->
  holding P st -> (forall g e, In g (workers st) -> upcoming g e -> ok e) ->
  holding P (step st i) /\ (forall g e, In g (workers (step st i)) -> upcoming g e -> ok e).
Proof.
  intros K [H1 H2] O. destruct (nth_error (workers st) i) as [g|] eqn:G; [|rewrite (step_out _ _ G); now split].
  assert (I : In g (workers st)) by (eapply nth_error_In; eauto).
  assert (N : forall g', In g' (workers (step st i)) -> g' = snd (wo_step E lib (word st) g) \/ In g' (workers st)).
  { intros g' I'. apply In_nth_error in I' as (j & J). assert (L : nth_error (workers st) j <> None).
    { apply nth_error_Some. rewrite <- (step_len st i). apply nth_error_Some. congruence. }
    destruct (nth_error (workers st) j) as [gj|] eqn:Gj; [|now destruct L]. rewrite (step_nth _ _ _ _ Gj) in J. injection J as <-.
    destruct (Nat.eqb_spec i j) as [->|]; [left; congruence|right; eapply nth_error_In; eauto]. }
  assert (W : P (fst (wo_step E lib (word st) g)) /\ (forall v e, wat (snd (wo_step E lib (word st) g)) = Held v e -> P v) /\
              (forall e, upcoming (snd (wo_step E lib (word st) g)) e -> upcoming g e)).
  { unfold wo_step. destruct (wat g) as [|old e0] eqn:A.
    - destruct (edits g) as [|e0 es] eqn:D; cbn [fst snd wat].
      + repeat split; [exact H1|rewrite A; discriminate|auto].
      + repeat split; [exact H1| |].
        * destruct (lib e0); [|discriminate]. intros v e [= <- <-]. exact H1.
        * intros e [U|(v & U)]; cbn [edits wat] in U; [left; rewrite D; now right|]. destruct (lib e0); [|discriminate].
          injection U as <- <-. left. rewrite D. now left.
    - cbn [fst snd wat]. repeat split; [|discriminate|].
      + assert (P1 : P (app1 old e0)). { apply K; [apply (O g e0 I); right; eauto|eapply H2; eauto]. }
        unfold app1 in P1. destruct (lib e0); [exact P1|exact H1].
      + intros e [U|(v & U)]; cbn [edits wat] in U; [now left|discriminate]. }
  destruct W as (W1 & W2 & W3). split; [split|].
  - now rewrite (step_word _ _ _ G).
  - intros g' v e I'. destruct (N g' I') as [->|I2]; [apply W2|now apply H2].
  - intros g' e I' U. destruct (N g' I') as [->|I2]; [apply (O g e I), W3, U|now apply (O g' e)].
Qed.
Lemma run_keeps (P : N -> Prop) (ok : E -> Prop) st q : (forall e v, ok e -> P v -> P (app1 v e)) ->
  holding P st -> (forall g e, In g (workers st) -> upcoming g e -> ok e) -> P (word (run st q)).
Proof.
  intros K H O. assert (G : holding P (run st q) /\ (forall g e, In g (workers (run st q)) -> upcoming g e -> ok e)).
  { induction q as [|i q [IH1 IH2]] using rev_ind; [now split|]. rewrite run_snoc. now apply step_keeps. }
  apply G.
Qed.
Lemma start_keeps (P : N -> Prop) (ok : E -> Prop) v ess q : (forall e v, ok e -> P v -> P (app1 v e)) -> P v ->
  (forall es e, In es ess -> In e es -> ok e) -> P (word (run (start v ess) q)).
Proof.
  intros K Pv O. apply (run_keeps P ok); [exact K| |].
  - split; [exact Pv|]. intros g u e I. cbn [word_start workers] in I. apply in_map_iff in I as (es & <- & _). discriminate.
  - intros g e I U. cbn [word_start workers] in I. apply in_map_iff in I as (es & <- & I). destruct U as [U|(u & U)]; [|discriminate]. exact (O es e I U).
Qed.

(* goroutines that take turns: some order of the calls, one after the other *)
Definition behind (es : list E) (h : list (nat * E)) (i : nat) (g : worker E) (v : N) : Prop :=
  match wat g with
  | Idle => es = map snd (filter (fun p => Nat.eqb (fst p) i) h) ++ edits g
  | Held old e => es = map snd (filter (fun p => Nat.eqb (fst p) i) h) ++ e :: edits g /\ old = v /\ lib e <> None
  end.
Lemma filter_snoc h (j k : nat) (e : E) : map snd (filter (fun p => Nat.eqb (fst p) k) (h ++ [(j, e)])) =
  map snd (filter (fun p => Nat.eqb (fst p) k) h) ++ (if Nat.eqb j k then [e] else []).
Proof. rewrite filter_app, map_app. cbn. now destruct (Nat.eqb j k). Qed.
Lemma turns_order v ess q : in_turns lib (start v ess) q ->
  exists h, word (run (start v ess) q) = fold_left app1 (map snd h) v /\
    (forall k e, In (k, e) h -> (k < List.length ess)%nat) /\
    forall i es g, nth_error ess i = Some es -> nth_error (workers (run (start v ess) q)) i = Some g ->
      behind es h i g (word (run (start v ess) q)).
Proof.
  induction q as [|i q IH] using rev_ind; intros T.
  - exists []. split; [reflexivity|]. split; [now intros k e []|]. intros i es g Ei Gi. change (run (start v ess) []) with (start v ess) in Gi.
    rewrite start_nth, Ei in Gi. injection Gi as <-. reflexivity.
  - assert (T' : in_turns lib (start v ess) q).
    { intros a b -> . apply (T a (b ++ [i])). now rewrite app_assoc. }
    destruct (IH T') as (h & W & L & B). clear IH. rewrite run_snoc. set (st := run (start v ess) q) in *.
    destruct (nth_error (workers st) i) as [g|] eqn:G; [|rewrite (step_out _ _ G); eauto].
    assert (Li : exists es, nth_error ess i = Some es).
    { destruct (nth_error ess i) as [es|] eqn:Ei; [eauto|]. exfalso. apply nth_error_None in Ei. assert (X : nth_error (workers st) i <> None) by congruence.
      apply nth_error_Some in X. unfold st in X. rewrite run_len in X. cbn [word_start workers] in X. rewrite map_length in X. lia. }
    destruct Li as (esi & Ei). assert (Lt : (i < List.length ess)%nat) by (apply nth_error_Some; congruence).
    pose proof (B i esi g Ei G) as Bi. unfold behind in Bi. rewrite (step_word _ _ _ G).
    destruct (wat g) as [|old e0] eqn:A.
    + destruct (edits g) as [|e0 es'] eqn:D.
      * (* nothing left *) assert (Wg : wo_step E lib (word st) g = (word st, g)) by (unfold wo_step; now rewrite A, D).
        exists h. rewrite Wg. cbn [fst]. split; [exact W|]. split; [exact L|]. intros j es gj Ej Gj.
        destruct (nth_error (workers st) j) as [g0|] eqn:J0.
        -- rewrite (step_nth _ _ _ _ J0), Wg in Gj || rewrite (step_nth _ _ _ _ J0) in Gj. injection Gj as <-.
           destruct (Nat.eqb_spec i j) as [->|]; [|exact (B j es g0 Ej J0)]. assert (g0 = g) by congruence. subst g0. rewrite Wg. cbn [snd]. now apply B.
        -- exfalso. apply nth_error_None in J0. rewrite <- (step_len st i) in J0. apply nth_error_None in J0. congruence.
      * destruct (lib e0) as [f|] eqn:F.
        -- (* the read *) assert (Wg : wo_step E lib (word st) g = (word st, MkWo es' (Held (word st) e0))) by (unfold wo_step; now rewrite A, D, F).
           exists h. rewrite Wg. cbn [fst]. split; [exact W|]. split; [exact L|]. intros j es gj Ej Gj.
           destruct (nth_error (workers st) j) as [g0|] eqn:J0.
           ++ rewrite (step_nth _ _ _ _ J0) in Gj. injection Gj as <-.
              destruct (Nat.eqb_spec i j) as [->|]; [|exact (B j es g0 Ej J0)]. assert (g0 = g) by congruence. subst g0. rewrite Wg. cbn [snd].
              unfold behind. cbn [wat edits]. assert (es = esi) by congruence. subst es. repeat split; [exact Bi|congruence].
           ++ exfalso. apply nth_error_None in J0. rewrite <- (step_len st i) in J0. apply nth_error_None in J0. congruence.
        -- (* no call of the library *) assert (Wg : wo_step E lib (word st) g = (word st, MkWo es' Idle)) by (unfold wo_step; now rewrite A, D, F).
           exists (h ++ [(i, e0)]). rewrite Wg. cbn [fst]. split; [rewrite map_app, fold_left_app; cbn [map snd fold_left]; unfold app1 at 1; now rewrite F|].
           split; [intros k e I; apply in_app_or in I as [I|[[= <- <-]|[]]]; [eapply L; eauto|exact Lt]|]. intros j es gj Ej Gj.
           destruct (nth_error (workers st) j) as [g0|] eqn:J0.
           ++ rewrite (step_nth _ _ _ _ J0) in Gj. injection Gj as <-. unfold behind. rewrite filter_snoc.
              destruct (Nat.eqb_spec i j) as [->|NE].
              ** assert (g0 = g) by congruence. subst g0. rewrite Wg. cbn [snd wat edits]. assert (es = esi) by congruence. subst es. rewrite <- app_assoc. exact Bi.
              ** rewrite app_nil_r. exact (B j es g0 Ej J0).
           ++ exfalso. apply nth_error_None in J0. rewrite <- (step_len st i) in J0. apply nth_error_None in J0. congruence.
    + (* the write *)
      destruct Bi as (B1 & B2 & B3). destruct (lib e0) as [f|] eqn:F; [clear B3|now destruct B3].
      assert (Wg : wo_step E lib (word st) g = (f old, MkWo (edits g) Idle)) by (unfold wo_step; now rewrite A, F).
      exists (h ++ [(i, e0)]). rewrite Wg. cbn [fst]. split; [rewrite map_app, fold_left_app; cbn [map snd fold_left]; unfold app1 at 1; now rewrite F, <- W, B2|].
      split; [intros k e I; apply in_app_or in I as [I|[[= <- <-]|[]]]; [eapply L; eauto|exact Lt]|]. intros j es gj Ej Gj.
      destruct (nth_error (workers st) j) as [g0|] eqn:J0.
      * rewrite (step_nth _ _ _ _ J0) in Gj. injection Gj as <-. unfold behind. rewrite filter_snoc.
        destruct (Nat.eqb_spec i j) as [->|NE].
        -- assert (g0 = g) by congruence. subst g0. rewrite Wg. cbn [snd wat edits]. assert (es = esi) by congruence. subst es. now rewrite <- app_assoc.
        -- rewrite app_nil_r. pose proof (B j es g0 Ej J0) as Bj. unfold behind in Bj. destruct (wat g0) as [|old' e'] eqn:A0; [exact Bj|].
           exfalso. apply NE. eapply (T' q []); [now rewrite app_nil_r|exact G|congruence|exact J0|congruence].
      * exfalso. apply nth_error_None in J0. rewrite <- (step_len st i) in J0. apply nth_error_None in J0. congruence.
Qed.
Lemma turns_merge v ess q : in_turns lib (start v ess) q -> done (run (start v ess) q) ->
  exists h, merges ess h /\ word (run (start v ess) q) = fold_left app1 (map snd h) v.
Proof.
  intros T D. destruct (turns_order v ess q T) as (h & W & L & B). exists h. split; [|exact W]. split; [exact L|].
  intros k es Ek. destruct (nth_error (workers (run (start v ess) q)) k) as [g|] eqn:G.
  - pose proof (B k es g Ek G) as Bk. destruct (D g (nth_error_In _ _ G)) as [D1 D2]. unfold behind in Bk. now rewrite D2, D1, app_nil_r in Bk.
  - exfalso. apply nth_error_None in G. rewrite run_len in G. cbn [word_start workers] in G. rewrite map_length in G. apply nth_error_None in G. congruence.
Qed.
(* one call each: every nonempty choice of the calls can be what is left *)
Lemma reads_run l : forall st, NoDup l -> (forall i, In i l -> exists e, nth_error (workers st) i = Some (MkWo [e] Idle) /\ lib e <> None) ->
  word (run st l) = word st /\
  (forall i e, In i l -> nth_error (workers st) i = Some (MkWo [e] Idle) -> nth_error (workers (run st l)) i = Some (MkWo [] (Held (word st) e))) /\
  (forall i, ~ In i l -> nth_error (workers (run st l)) i = nth_error (workers st) i).
Proof.
  induction l as [|k l IH]; intros st N H; [split; [reflexivity|split; [intros i e []|reflexivity]]|]. inversion N as [|? ? N1 N2]; subst.
  change (run st (k :: l)) with (run (step st k) l).
  destruct (H k (or_introl eq_refl)) as (e & K & F). destruct (lib e) as [f|] eqn:Fe; [|now destruct F]. clear F.
  assert (Wk : wo_step E lib (word st) (MkWo [e] Idle) = (word st, MkWo [] (Held (word st) e))) by (unfold wo_step; cbn [wat edits]; now rewrite Fe).
  assert (W : word (step st k) = word st) by (rewrite (step_word _ _ _ K), Wk; reflexivity).
  assert (O : forall i, i <> k -> nth_error (workers (step st k)) i = nth_error (workers st) i).
  { intros i Ne. destruct (nth_error (workers st) i) as [g|] eqn:G.
    - rewrite (step_nth _ _ _ _ G). destruct (Nat.eqb_spec k i); [congruence|reflexivity].
    - apply nth_error_None in G. rewrite <- (step_len st k) in G. now apply nth_error_None. }
  destruct (IH (step st k) N2) as (I1 & I2 & I3).
  { intros i I. destruct (H i (or_intror I)) as (e' & G & F). exists e'. split; [|exact F]. rewrite O; [exact G|]. intros ->. now apply N1. }
  repeat split.
  - now rewrite I1.
  - intros i e' [<-|I] G.
    + rewrite I3 by exact N1. rewrite (step_nth _ _ _ _ K), Nat.eqb_refl, Wk. cbn [snd]. congruence.
    + rewrite (I2 i e' I); [now rewrite W|]. rewrite O; [exact G|]. intros ->. now apply N1.
  - intros i Ni. rewrite I3; [apply O|]; intros C; apply Ni; [left; congruence|now right].
Qed.
Lemma writes_run l : forall st, NoDup l -> (forall i, In i l -> exists v e, nth_error (workers st) i = Some (MkWo [] (Held v e))) ->
  (forall i, In i l -> nth_error (workers (run st l)) i = Some (MkWo [] Idle)) /\
  (forall i, ~ In i l -> nth_error (workers (run st l)) i = nth_error (workers st) i).
Proof.
  induction l as [|k l IH]; intros st N H; [split; [intros i []|reflexivity]|]. inversion N as [|? ? N1 N2]; subst.
  change (run st (k :: l)) with (run (step st k) l). destruct (H k (or_introl eq_refl)) as (v & e & K).
  assert (O : forall i, i <> k -> nth_error (workers (step st k)) i = nth_error (workers st) i).
  { intros i Ne. destruct (nth_error (workers st) i) as [g|] eqn:G.
    - rewrite (step_nth _ _ _ _ G). destruct (Nat.eqb_spec k i); [congruence|reflexivity].
    - apply nth_error_None in G. rewrite <- (step_len st k) in G. now apply nth_error_None. }
  destruct (IH (step st k) N2) as (I2 & I3).
  { intros i I. destruct (H i (or_intror I)) as (v' & e' & G). exists v', e'. rewrite O; [exact G|]. intros ->. now apply N1. }
  split.
  - intros i [<-|I]; [|now apply I2]. rewrite I3 by exact N1. rewrite (step_nth _ _ _ _ K), Nat.eqb_refl. reflexivity.
  - intros i Ni. rewrite I3; [apply O|]; intros C; apply Ni; [left; congruence|now right].
Qed.
Lemma pairs_run l : forall st, NoDup l -> (forall i, In i l -> exists e, nth_error (workers st) i = Some (MkWo [e] Idle) /\ lib e <> None) ->
  forall es, Forall2 (fun i e => nth_error (workers st) i = Some (MkWo [e] Idle)) l es ->
  word (run st (flat_map (fun k => [k; k]) l)) = fold_left app1 es (word st) /\
  (forall i, In i l -> nth_error (workers (run st (flat_map (fun k => [k; k]) l))) i = Some (MkWo [] Idle)) /\
  (forall i, ~ In i l -> nth_error (workers (run st (flat_map (fun k => [k; k]) l))) i = nth_error (workers st) i).
Proof.
  induction l as [|k l IH]; intros st N H es F2; [inversion F2; repeat split; intros i []|]. inversion N as [|? ? N1 N2]; subst.
  inversion F2 as [|? e ? es' K F2']; subst. destruct (H k (or_introl eq_refl)) as (e0 & K0 & F). assert (e0 = e) by congruence. subst e0. clear K0.
  destruct (lib e) as [f|] eqn:Fe; [clear F|now destruct F].
  change (flat_map (fun k => [k; k]) (k :: l)) with ([k; k] ++ flat_map (fun k => [k; k]) l). rewrite run_app.
  set (st2 := run st [k; k]).
  assert (K1 : nth_error (workers (step st k)) k = Some (MkWo [] (Held (word st) e))).
  { rewrite (step_nth _ _ _ _ K), Nat.eqb_refl. unfold wo_step. cbn [wat edits]. now rewrite Fe. }
  assert (W2 : word st2 = app1 (word st) e).
  { unfold st2. change (run st [k; k]) with (step (step st k) k). rewrite (step_word _ _ _ K1). unfold wo_step, app1. cbn [wat edits fst]. now rewrite Fe. }
  assert (K2 : nth_error (workers st2) k = Some (MkWo [] Idle)).
  { unfold st2. change (run st [k; k]) with (step (step st k) k). rewrite (step_nth _ _ _ _ K1), Nat.eqb_refl. reflexivity. }
  assert (O1 : forall s i, i <> k -> nth_error (workers (step s k)) i = nth_error (workers s) i).
  { intros s i Ne. destruct (nth_error (workers s) i) as [g|] eqn:G.
    - rewrite (step_nth _ _ _ _ G). destruct (Nat.eqb_spec k i); [congruence|reflexivity].
    - apply nth_error_None in G. rewrite <- (step_len s k) in G. now apply nth_error_None. }
  assert (O : forall i, i <> k -> nth_error (workers st2) i = nth_error (workers st) i).
  { intros i Ne. unfold st2. change (run st [k; k]) with (step (step st k) k). rewrite O1 by exact Ne. now apply O1. }
  destruct (IH st2 N2) with (es := es') as (I1 & I2 & I3).
  { intros i I. destruct (H i (or_intror I)) as (e' & G & F). exists e'. split; [|exact F]. rewrite O; [exact G|]. intros ->. now apply N1. }
  { assert (NK : forall i, In i l -> i <> k) by (intros i I ->; now apply N1). clear -F2' O NK. induction F2' as [|i x l es' A F IH]; constructor.
    - rewrite O; [exact A|apply NK; now left].
    - apply IH. intros j J. apply NK. now right. }
  repeat split.
  - rewrite I1, W2. reflexivity.
  - intros i [<-|I]; [|now apply I2]. now rewrite I3.
  - intros i Ni. rewrite I3; [apply O|]; intros C; apply Ni; [left; congruence|now right].
Qed.
Lemma reach es v k0 ks S : (forall e, In e es -> lib e <> None) -> NoDup (k0 :: ks) ->
  Forall2 (fun k e => nth_error es k = Some e) (k0 :: ks) S ->
  exists q, done (run (start v (map (fun e => [e]) es)) q) /\ word (run (start v (map (fun e => [e]) es)) q) = fold_left app1 S v.
Proof.
  intros A N F. set (st := start v (map (fun e => [e]) es)). inversion F as [|? s0 ? S' F0 F']; subst. inversion N as [|? ? N1 N2]; subst.
  assert (St : forall i e, nth_error es i = Some e -> nth_error (workers st) i = Some (MkWo [e] Idle)).
  { intros i e I. unfold st. rewrite start_nth, nth_error_map, I. reflexivity. }
  set (others := filter (fun i => negb (existsb (Nat.eqb i) (k0 :: ks))) (seq 0 (List.length es))).
  assert (InO : forall i, In i others <-> (i < List.length es)%nat /\ ~ In i (k0 :: ks)).
  { intros i. unfold others. rewrite filter_In, in_seq, negb_true_iff. split.
    - intros [I B]. split; [lia|]. intros J. assert (T : existsb (Nat.eqb i) (k0 :: ks) = true) by (apply existsb_exists; exists i; split; [exact J|apply Nat.eqb_refl]). congruence.
    - intros [L J]. split; [lia|]. apply not_true_iff_false. intros T. apply existsb_exists in T as (j & Ij & Ej). apply Nat.eqb_eq in Ej. subst j. now apply J. }
  assert (NO : NoDup others) by (apply NoDup_filter, seq_NoDup).
  assert (Hk0 : ~ In k0 others) by (rewrite InO; intros [_ X]; apply X; now left).
  assert (R : forall i, (i < List.length es)%nat -> exists e, nth_error (workers st) i = Some (MkWo [e] Idle) /\ lib e <> None).
  { intros i L. destruct (nth_error es i) as [e|] eqn:X; [|apply nth_error_None in X; lia]. exists e. split; [now apply St|]. apply A. eapply nth_error_In; eauto. }
  assert (Lk : forall k, In k (k0 :: ks) -> (k < List.length es)%nat).
  { intros k I. clear -F I. induction F as [|a b l l' X F IH]; [destruct I|]. destruct I as [<-|I]; [apply nth_error_Some; congruence|now apply IH]. }
  destruct (reads_run (k0 :: others) st) as (A1 & A2 & A3).
  { now constructor. }
  { intros i [<-|I]; apply R; [apply Lk; now left|now apply InO]. }
  set (s1 := run st (k0 :: others)) in *.
  destruct (writes_run others s1 NO) as (B1 & B2).
  { intros i I. destruct (R i) as (e & G & _); [now apply InO|]. exists (word st), e. apply A2; [now right|exact G]. }
  set (s2 := run s1 others) in *.
  assert (K2 : nth_error (workers s2) k0 = Some (MkWo [] (Held v s0))).
  { rewrite B2 by exact Hk0. rewrite (A2 k0 s0); [reflexivity|now left|now apply St]. }
  set (s3 := step s2 k0).
  assert (O3 : forall i, i <> k0 -> nth_error (workers s3) i = nth_error (workers s2) i).
  { intros i Ne. unfold s3. destruct (nth_error (workers s2) i) as [g|] eqn:G.
    - rewrite (step_nth _ _ _ _ G). destruct (Nat.eqb_spec k0 i); [congruence|reflexivity].
    - apply nth_error_None in G. rewrite <- (step_len s2 k0) in G. now apply nth_error_None. }
  assert (A0 : lib s0 <> None) by (apply A; eapply nth_error_In; exact F0).
  assert (W3 : word s3 = app1 v s0).
  { unfold s3. rewrite (step_word _ _ _ K2). unfold wo_step, app1. cbn [wat edits fst]. now destruct (lib s0). }
  assert (Kk : forall k, In k ks -> nth_error (workers s3) k = nth_error (workers st) k).
  { intros k I. assert (k <> k0) by (intros ->; now apply N1). assert (~ In k others) by (rewrite InO; intros [_ X]; apply X; now right).
    rewrite O3 by assumption. rewrite B2 by assumption. apply A3. intros [?|?]; [congruence|contradiction]. }
  destruct (pairs_run ks s3 N2) with (es := S') as (C1 & C2 & C3).
  { intros k I. rewrite Kk by exact I. apply R, Lk. now right. }
  { clearbody s3. clear -F' Kk St. clearbody st. induction F' as [|k s l l' X F IH].
    - constructor.
    - constructor; [rewrite (Kk k (or_introl eq_refl)); exact (St k s X)|]. apply IH. intros k' I. apply Kk. now right. }
  exists ((k0 :: others) ++ others ++ [k0] ++ flat_map (fun k => [k; k]) ks). rewrite !run_app. fold s1. fold s2. change (run s2 [k0]) with s3.
  split; [|rewrite C1, W3; reflexivity].
  intros g I. apply In_nth_error in I as (i & I).
  assert (Li : (i < List.length es)%nat).
  { assert (X : nth_error (workers (run s3 (flat_map (fun k => [k; k]) ks))) i <> None) by congruence. apply nth_error_Some in X. rewrite run_len in X.
    unfold s3, s2, s1 in X. rewrite step_len, !run_len in X. unfold st in X. cbn [word_start workers] in X. now rewrite !map_length in X. }
  destruct (in_dec Nat.eq_dec i ks) as [Ik|Ik]; [rewrite C2 in I by exact Ik; injection I as <-; now split|]. rewrite C3 in I by exact Ik.
  destruct (Nat.eq_dec i k0) as [->|Ne].
  - unfold s3 in I. rewrite (step_nth _ _ _ _ K2), Nat.eqb_refl in I. injection I as <-. now split.
  - rewrite O3 in I by exact Ne. rewrite B1 in I; [injection I as <-; now split|]. apply InO. split; [exact Li|]. intros [C|C]; [congruence|contradiction].
Qed.
(* at least one call is left *)
Lemma once_left (P Q : N -> Prop) es v q : (forall e u, In e es -> P u -> P (app1 u e) /\ Q (app1 u e)) -> P v -> es <> [] -> (forall e, In e es -> lib e <> None) ->
  done (run (start v (map (fun e => [e]) es)) q) -> Q (word (run (start v (map (fun e => [e]) es)) q)).
Proof.
  intros K Pv Ne A D. set (st := start v (map (fun e => [e]) es)) in *.
  assert (G : holding P (run st q) /\ (forall g e, In g (workers (run st q)) -> upcoming g e -> In e es) /\
    (Q (word (run st q)) \/ forall g, In g (workers (run st q)) -> exists e, upcoming g e)).
  { clear D. induction q as [|i q (IH1 & IH2 & IH3)] using rev_ind.
    - change (run st []) with st. unfold st. cbn [word_start workers word]. split; [split; [exact Pv|]|split; [|right]].
      + intros g u e I. cbn [word_start workers] in I. rewrite map_map in I. apply in_map_iff in I as (e' & <- & _). discriminate.
      + intros g e I U. cbn [word_start workers] in I. rewrite map_map in I. apply in_map_iff in I as (e' & <- & I). destruct U as [[<-|[]]|(u & U)]; [exact I|discriminate].
      + intros g I. cbn [word_start workers] in I. rewrite map_map in I. apply in_map_iff in I as (e' & <- & I). exists e'. left. now left.
    - rewrite run_snoc. set (s := run st q) in *.
      destruct (step_keeps P (fun e => In e es) s i) as [S1 S2]; [intros e u I Pu; now apply K|exact IH1|exact IH2|].
      split; [exact S1|]. split; [exact S2|].
      destruct (nth_error (workers s) i) as [g|] eqn:G; [|now rewrite (step_out _ _ G)].
      assert (I : In g (workers s)) by (eapply nth_error_In; eauto).
      destruct (wat g) as [|old e] eqn:Wg.
      + assert (X : word (step s i) = word s). { rewrite (step_word _ _ _ G). unfold wo_step. rewrite Wg. now destruct (edits g). }
        rewrite X. destruct IH3 as [IH3|IH3]; [now left|]. right. intros g' I'. apply In_nth_error in I' as (j & J).
        destruct (nth_error (workers s) j) as [gj|] eqn:Gj; [|exfalso; apply nth_error_None in Gj; rewrite <- (step_len s i) in Gj; apply nth_error_None in Gj; congruence].
        rewrite (step_nth _ _ _ _ Gj) in J. injection J as <-. destruct (Nat.eqb_spec i j) as [->|]; [|apply IH3; eapply nth_error_In; eauto].
        assert (gj = g) by congruence. subst gj. unfold wo_step. rewrite Wg. destruct (IH3 g I) as (e & U).
        destruct (edits g) as [|e0 es'] eqn:Ed; cbn [snd].
        * exists e. exact U.
        * assert (L0 : lib e0 <> None) by (apply A, (IH2 g e0 I); left; rewrite Ed; now left). destruct (lib e0); [|now destruct L0]. exists e0. right. cbn [wat]. eauto.
      + left. rewrite (step_word _ _ _ G). unfold wo_step. rewrite Wg. cbn [fst].
        assert (Ie : In e es) by (apply (IH2 g e I); right; eauto). destruct (K e old Ie) as [_ Q1]; [eapply (proj2 IH1); eauto|].
        unfold app1 in Q1. pose proof (A e Ie). now destruct (lib e). }
  destruct G as (_ & _ & [G|G]); [exact G|]. exfalso. destruct es as [|e es]; [now destruct Ne|].
  destruct (nth_error (workers (run st q)) 0) as [g|] eqn:G0.
  - assert (I : In g (workers (run st q))) by (eapply nth_error_In; eauto). destruct (D g I) as [D1 D2]. destruct (G g I) as (e' & [U|(u & U)]); [rewrite D1 in U; destruct U|congruence].
  - apply nth_error_None in G0. rewrite run_len in G0. unfold st in G0. cbn [word_start workers] in G0. rewrite !map_length in G0. cbn in G0. lia.
Qed.
End Generic.

(* ---- permissions ---- *)
Section Perm.
Variable sh : shifty.
Hypothesis OK : shifty_ok sh.
Notation lib := (perm_lib sh).

Lemma perm_app v e : app1 _ lib v e = if fst e then shift1 sh v (snd e) else unshift1 sh v (snd e).
Proof. destruct e as [[] [z|n|s|]]; unfold app1, perm_lib; cbn [fst snd shift1 unshift1]; try reflexivity; now destruct (rightsNames (lc s)). Qed.
Lemma perm_edits_in e cs : In e (perm_edits cs) <-> exists xs, In (snd e) xs /\ In (if fst e then CShift xs else CUnshift xs) cs.
Proof.
  unfold perm_edits. rewrite in_flat_map. split.
  - intros ([xs|xs] & I & J); apply in_map_iff in J as (x & <- & J); exists xs; now split.
  - destruct e as [[] x]; cbn [fst snd]; intros (xs & I & J); eexists; (split; [exact J|]); cbn; now apply in_map.
Qed.
Lemma perm_run_edits cs d v : perm_run sh (PSome d v) cs = PSome d (fold_left (app1 _ lib) (perm_edits cs) v).
Proof.
  revert v. induction cs as [|c cs IH]; intros v; [reflexivity|].
  change (perm_run sh (PSome d v) (c :: cs)) with (perm_run sh (perm_step sh (PSome d v) c) cs).
  change (perm_edits (c :: cs)) with ((match c with CShift xs => map (pair true) xs | CUnshift xs => map (pair false) xs end) ++ perm_edits cs).
  rewrite fold_left_app. destruct c as [xs|xs]; cbn [perm_step perm_shift perm_unshift]; rewrite IH; do 2 f_equal;
    unfold shift_bits, unshift_bits; clear; revert v; induction xs as [|x xs IH]; intros v; try reflexivity; cbn [map fold_left]; rewrite perm_app; apply IH.
Qed.
Definition right_bit (r : right) (b : bool) (v : N) : Prop := (v < 65536)%N /\ N.testbit v (right_pos r) = b.
Lemma perm_keeps r b e v : arg_covered (snd e) -> (mentions (snd e) r = true -> fst e = b) -> right_bit r b v -> right_bit r b (app1 _ lib v e).
Proof.
  intros C M [L B]. rewrite perm_app. destruct e as [[] x]; cbn [fst snd] in *; split.
  - now apply shift1_lt.
  - rewrite shift1_bit by assumption. destruct (mentions x r); [now rewrite <- M|exact B].
  - now apply unshift1_lt.
  - rewrite unshift1_bit by assumption. destruct (mentions x r); [now rewrite <- M|exact B].
Qed.
(* the value r shows *)
Definition held (p : permission) (r : right) : bool := perm_positive sh p (ARight (right_const r)).
Lemma held_bit d v r : (v < 65536)%N -> held (PSome d v) r = N.testbit v (right_pos r).
Proof. intros L. unfold held. cbn [perm_positive]. now apply PRights.positive_bit. Qed.
Definition all_covered (css : list (list perm_call)) : Prop := forall cs, In cs css -> calls_ok arg_covered cs.
Lemma covered_edit css es e : all_covered css -> In es (map perm_edits css) -> In e es -> arg_covered (snd e).
Proof.
  intros C I J. apply in_map_iff in I as (cs & <- & I). apply perm_edits_in in J as (xs & J & K).
  apply (C cs I (if fst e then CShift xs else CUnshift xs) (snd e) K). now destruct (fst e).
Qed.
Lemma after_bit d v css q r (b : bool) : (v < 65536)%N -> all_covered css ->
  (forall cs, In cs css -> ~ (if b then takes_right cs r else gives_right cs r)) ->
  held (PSome d v) r = b -> held (perm_after sh d v css q) r = b.
Proof.
  intros L C T H. rewrite held_bit in H by exact L.
  assert (K : right_bit r b (word (word_run _ lib (perm_race v css) q))).
  { apply (start_keeps _ lib (right_bit r b) (fun e => arg_covered (snd e) /\ (mentions (snd e) r = true -> fst e = b))).
    - intros e u [C1 C2]. now apply perm_keeps.
    - now split.
    - intros es e I J. split; [eapply covered_edit; eauto|]. intros M. apply in_map_iff in I as (cs & <- & I). apply perm_edits_in in J as (xs & J & K).
      specialize (T cs I). destruct (fst e), b; try reflexivity; exfalso; apply T; exists xs, (snd e); auto. }
  destruct K as [K1 K2]. unfold perm_after. now rewrite held_bit.
Qed.
End Perm.

(* C148, permissions: whatever the schedule, a right that no goroutine gives does not
   appear, and a right that no goroutine takes stays. *)
Theorem C148_never : forall sh, shifty_ok sh -> forall d v css q r, (v < 65536)%N -> all_covered css ->
  (forall cs, In cs css -> ~ gives_right cs r) ->
  perm_positive sh (PSome d v) (ARight (right_const r)) = false ->
  perm_positive sh (perm_after sh d v css q) (ARight (right_const r)) = false.
Proof. intros sh OK d v css q r L C T H. exact (after_bit sh OK d v css q r false L C T H). Qed.
Theorem C148_kept : forall sh, shifty_ok sh -> forall d v css q r, (v < 65536)%N -> all_covered css ->
  (forall cs, In cs css -> ~ takes_right cs r) ->
  perm_positive sh (PSome d v) (ARight (right_const r)) = true ->
  perm_positive sh (perm_after sh d v css q) (ARight (right_const r)) = true.
Proof. intros sh OK d v css q r L C T H. exact (after_bit sh OK d v css q r true L C T H). Qed.
(* No goroutine changes the disposition. *)
Theorem C148_disposition : forall sh d v css q, perm_disposition (perm_after sh d v css q) = if d then "allow"%string else "deny"%string.
Proof. intros sh [] v css q; reflexivity. Qed.

(* The same for the days of a day list and for the levels of an inheritance. *)
Section Days.
Variable sh : shifty.
Hypothesis OK : shifty_ok sh.
Lemma dow_app v e : app1 _ (dow_lib sh) v e = if fst e then dow_shift1 sh v (snd e) else dow_unshift1 sh v (snd e).
Proof.
  destruct e as [[] [z|s|n|]]; unfold app1, dow_lib; cbn [fst snd dow_shift1 dow_unshift1]; try reflexivity;
    [destruct (matchIntDoW z =? noDay)%N|destruct (matchStrDoW s =? noDay)%N|destruct (matchIntDoW z =? noDay)%N|destruct (matchStrDoW s =? noDay)%N]; reflexivity.
Qed.
Lemma dow_edits_in e cs : In e (dow_edits cs) <-> exists xs, In (snd e) xs /\ In (if fst e then DShift xs else DUnshift xs) cs.
Proof.
  unfold dow_edits. rewrite in_flat_map. split.
  - intros ([xs|xs] & I & J); apply in_map_iff in J as (x & <- & J); exists xs; now split.
  - destruct e as [[] x]; cbn [fst snd]; intros (xs & I & J); eexists; (split; [exact J|]); cbn; now apply in_map.
Qed.
Lemma dow_after_bit v css q d (b : bool) : small v -> (forall cs, In cs css -> dcalls_ok cs) ->
  (forall cs, In cs css -> ~ (if b then takes_day cs d else gives_day cs d)) ->
  dow_positive sh (Some v) (day_const d) = b -> dow_positive sh (dow_after sh v css q) (day_const d) = b.
Proof.
  intros L C T H. assert (B : forall u, small u -> dow_positive sh (Some u) (day_const d) = N.testbit u (day_pos d)).
  { intros u Su. apply (dpositive_state sh OK (Some u) (fun d => N.testbit u (day_pos d))). exact (conj Su (fun d => eq_refl)). }
  rewrite B in H by exact L.
  assert (K : small (word (word_run _ (dow_lib sh) (word_start _ v (map dow_edits css)) q)) /\
              N.testbit (word (word_run _ (dow_lib sh) (word_start _ v (map dow_edits css)) q)) (day_pos d) = b).
  { apply (start_keeps _ (dow_lib sh) (fun u => small u /\ N.testbit u (day_pos d) = b) (fun e => darg_ok (snd e) /\ (dmentions (snd e) d = true -> fst e = b))).
    - intros e u [C1 C2] [S1 S2]. rewrite dow_app. destruct e as [[] x]; cbn [fst snd] in *; split.
      + now apply dshift1_small.
      + rewrite dshift1_bit by assumption. destruct (dmentions x d); [now rewrite <- C2|exact S2].
      + now apply dunshift1_small.
      + rewrite dunshift1_bit by assumption. destruct (dmentions x d); [now rewrite <- C2|exact S2].
    - now split.
    - intros es e I J. apply in_map_iff in I as (cs & <- & I). apply dow_edits_in in J as (xs & J & K). split.
      + apply (C cs I (if fst e then DShift xs else DUnshift xs) (snd e) K). now destruct (fst e).
      + intros M. specialize (T cs I). destruct (fst e), b; try reflexivity; exfalso; apply T; exists xs, (snd e); auto. }
  unfold dow_after. now rewrite B.
Qed.
End Days.
Theorem C148_days : forall sh, shifty_ok sh -> forall h0 v css q d, dcalls_ok h0 -> dow_run sh (DoW sh []) h0 = Some v ->
  (forall cs, In cs css -> dcalls_ok cs) ->
  ((forall cs, In cs css -> ~ gives_day cs d) -> dow_positive sh (Some v) (day_const d) = false ->
     dow_positive sh (dow_after sh v css q) (day_const d) = false) /\
  ((forall cs, In cs css -> ~ takes_day cs d) -> dow_positive sh (Some v) (day_const d) = true ->
     dow_positive sh (dow_after sh v css q) (day_const d) = true).
Proof.
  intros sh OK h0 v css q d H0 R C.
  assert (S : small v).
  { assert (D := drun_state sh OK h0 (DoW sh []) (fun _ => false)). rewrite R in D. destruct D as [S _]; [|exact H0|exact S].
    split; [split; reflexivity|]. intros d'. now destruct d'. }
  split; intros T; [exact (dow_after_bit sh OK v css q d false S C T)|exact (dow_after_bit sh OK v css q d true S C T)].
Qed.
Section Levels.
Variable sh : shifty.
Hypothesis OK : shifty_ok sh.
Lemma inh_edits_in e cs : In e (inh_edits cs) <-> exists xs, In (snd e) xs /\ In (if fst e then IShift xs else IUnshift xs) cs.
Proof.
  unfold inh_edits. rewrite in_flat_map. split.
  - intros ([xs|xs] & I & J); apply in_map_iff in J as (x & <- & J); exists xs; now split.
  - destruct e as [[] x]; cbn [fst snd]; intros (xs & I & J); eexists; (split; [exact J|]); cbn; now apply in_map.
Qed.
Lemma inh_after_bit a v css q n (b : bool) : lsmall v -> (n < 10)%N -> (forall cs, In cs css -> lcalls_ok cs) ->
  (forall cs, In cs css -> ~ (if b then takes_level cs n else gives_level cs n)) ->
  abtv_isZero a = false ->
  inh_positive sh (Some (MkInh v a)) (LLevel (level_const n)) = b -> inh_positive sh (inh_after sh a v css q) (LLevel (level_const n)) = b.
Proof.
  intros L Ln C T Ha H. assert (B : forall u, lsmall u -> inh_positive sh (Some (MkInh u a)) (LLevel (level_const n)) = N.testbit u (n + 1)).
  { intros u Su. destruct Su. apply positive_bit; auto. }
  rewrite B in H by exact L.
  assert (K : lsmall (word (word_run _ (inh_lib sh) (word_start _ v (map inh_edits css)) q)) /\
              N.testbit (word (word_run _ (inh_lib sh) (word_start _ v (map inh_edits css)) q)) (n + 1) = b).
  { apply (start_keeps _ (inh_lib sh) (fun u => lsmall u /\ N.testbit u (n + 1) = b) (fun e => larg_ok (snd e) /\ (lmentions (snd e) n = true -> fst e = b))).
    - intros e u [C1 C2] [S1 S2]. destruct e as [[] x]; cbn [fst snd] in *.
      + change (app1 _ (inh_lib sh) u (true, x)) with (lvl_shift sh u [x]).
        destruct (lshift_all sh OK [x] u S1) as [A1 A2]; [now intros y [<-|[]]|]. split; [exact A1|]. rewrite A2 by exact Ln. cbn [existsb]. rewrite orb_false_r.
        destruct (lmentions x n); [now rewrite <- C2|exact S2].
      + change (app1 _ (inh_lib sh) u (false, x)) with (lvl_unshift sh u [x]).
        destruct (lunshift_all sh OK [x] u S1) as [A1 A2]; [now intros y [<-|[]]|]. split; [exact A1|]. rewrite A2 by exact Ln. cbn [existsb]. rewrite orb_false_r.
        destruct (lmentions x n); [now rewrite <- C2|exact S2].
    - now split.
    - intros es e I J. apply in_map_iff in I as (cs & <- & I). apply inh_edits_in in J as (xs & J & K). split.
      + apply (C cs I (if fst e then IShift xs else IUnshift xs) (snd e) K). now destruct (fst e).
      + intros M. specialize (T cs I). destruct (fst e), b; try reflexivity; exfalso; apply T; exists xs, (snd e); auto. }
  unfold inh_after. now rewrite B.
Qed.
End Levels.
Theorem C148_levels : forall sh, shifty_ok sh -> forall a init h0 v css q n, abtv_isZero a = false -> lcalls_ok (IShift init :: h0) ->
  inh_run sh (Inherit sh a init) h0 = Some (MkInh v a) -> (forall cs, In cs css -> lcalls_ok cs) -> (n < 10)%N ->
  let x := LLevel (level_const n) in
  ((forall cs, In cs css -> ~ gives_level cs n) -> inh_positive sh (Some (MkInh v a)) x = false -> inh_positive sh (inh_after sh a v css q) x = false) /\
  ((forall cs, In cs css -> ~ takes_level cs n) -> inh_positive sh (Some (MkInh v a)) x = true -> inh_positive sh (inh_after sh a v css q) x = true).
Proof.
  intros sh OK a init h0 v css q n Ha H0 R C Ln x.
  assert (S : lsmall v).
  { destruct (lrun sh OK (IShift init :: h0) a 0%N (fun _ => false) Ha) as (v' & E & S & _); [split; easy|intros m _; apply N.bits_0|exact H0|].
    change (inh_run sh (Some (MkInh 0 a)) (IShift init :: h0)) with (inh_run sh (inh_shift sh (Some (MkInh 0 a)) init) h0) in E.
    unfold inh_shift in E. cbn [in_abtv in_levels] in E. rewrite Ha in E. cbn [in_abtv in_levels] in E. unfold Inherit in R. rewrite R in E. now injection E as <-. }
  split; intros T; [exact (inh_after_bit sh OK a v css q n false S Ln C T Ha)|exact (inh_after_bit sh OK a v css q n true S Ln C T Ha)].
Qed.
Print Assumptions C148_never.
Print Assumptions C148_kept.
Print Assumptions C148_disposition.
Print Assumptions C148_days.
Print Assumptions C148_levels.
