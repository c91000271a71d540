(* C129-C131 for target rules and instructions: lists that are read-only. *)
From Coq Require Import String Ascii List PeanoNat NArith ZArith Bool Lia.
From Verif Require Import GoStr MMisc MKw SKw MLists MRule MHeap THeap MAci TAci MLock SLock TLock MInst SInst TInst.
Import ListNotations.
Open Scope string_scope.

Section Target.
Variables settings toggle : bool.
Variable W : world.
Notation step := (t_step settings toggle W).
Notation run := (t_run settings toggle W).

(* ---- lemmas ---- *)
Lemma tset1_cases : forall s n x, t_set1 W s n x = s \/ t_set1 W s n x = MkTS (set1 W (t_g s) n x) (t_ro s).
Proof.
  intros s n x. unfold t_set1. destruct (nth_error (g_ins (t_g s)) n) as [c|]; [|now left].
  destruct x; try (now right); destruct (t_ro s (ic_trs c)); auto.
Qed.
Lemma tset1_ro : forall s n x, t_ro (t_set1 W s n x) = t_ro s.
Proof. intros s n x. destruct (tset1_cases s n x) as [->| ->]; reflexivity. Qed.
Lemma tsets_ro : forall xs s n, t_ro (fold_left (fun s x => t_set1 W s n x) xs s) = t_ro s.
Proof. induction xs as [|x xs IH]; intros s n; [reflexivity|]. cbn [fold_left]. rewrite IH. apply tset1_ro. Qed.
Lemma wf_tsets : forall xs s n, wf (t_g s) -> wf (t_g (fold_left (fun s x => t_set1 W s n x) xs s)).
Proof.
  induction xs as [|x xs IH]; intros s n Wf; [exact Wf|]. cbn [fold_left]. apply IH.
  destruct (tset1_cases s n x) as [->| ->]; [exact Wf|]. now apply wf_set1.
Qed.
Lemma wf_tstep : forall s c, wf (t_g s) -> wf (t_g (step s c)).
Proof.
  intros s c Wf. destruct c as [c|t st]; cbn [t_step].
  - destruct c; try (now apply wf_step).
    + destruct (list_ro s t); [exact Wf|now apply wf_step].
    + destruct (list_ro s t); [|now apply wf_step]. apply wf_with_rv; [exact Wf|discriminate].
    + destruct (settings && list_ro s t)%bool; [exact Wf|now apply wf_step].
    + cbv zeta. destruct (g_iv (t_g s) i) as [n|] eqn:I; [rewrite I; now apply wf_tsets|].
      cbn [t_g]. destruct (g_iv (new_ins (t_g s) i) i); [apply wf_tsets|]; now apply wf_new_ins.
  - now destruct (g_lv (t_g s) t).
Qed.
Lemma wf_trun : forall p, wf (t_g (run t_start p)).
Proof.
  intros p. induction p as [|c p IH] using rev_ind; [apply wf_start|]. unfold t_run in *. rewrite fold_left_app. now apply wf_tstep.
Qed.
(* Set on any instruction leaves a read-only list, every rule and every variable alone *)
Lemma tsets_keep : forall xs s n l k, t_ro s l = true -> nth_error (g_lists (t_g s)) l = Some k ->
  let s' := fold_left (fun s x => t_set1 W s n x) xs s in
  nth_error (g_lists (t_g s')) l = Some k /\ g_rules (t_g s') = g_rules (t_g s) /\ g_lv (t_g s') = g_lv (t_g s) /\ g_rv (t_g s') = g_rv (t_g s).
Proof.
  induction xs as [|x xs IH]; intros s n l k B K; [now repeat apply conj|]. cbn [fold_left].
  assert (O : nth_error (g_lists (t_g (t_set1 W s n x))) l = Some k /\ g_rules (t_g (t_set1 W s n x)) = g_rules (t_g s) /\
              g_lv (t_g (t_set1 W s n x)) = g_lv (t_g s) /\ g_rv (t_g (t_set1 W s n x)) = g_rv (t_g s)).
  { unfold t_set1. destruct (nth_error (g_ins (t_g s)) n) as [c|] eqn:G; [|now repeat apply conj].
    destruct (set1_same W (t_g s) n x c G) as (A1 & A2 & A3 & A4 & A5 & A6).
    destruct x; try (destruct (t_ro s (ic_trs c)) eqn:R; [now repeat apply conj|]); cbn [t_g];
      try (rewrite A6; [now repeat apply conj|congruence]);
      (split; [|auto]); unfold set1; rewrite G; exact K. }
  destruct O as (O1 & O2 & O3 & O4). destruct (IH (t_set1 W s n x) n l k) as (P1 & P2 & P3 & P4); [now rewrite tset1_ro|exact O1|].
  repeat apply conj; congruence.
Qed.
Lemma keep_on_list : forall s t f l, g_lv s t <> Some l -> nth_error (g_lists (on_list s t f)) l = nth_error (g_lists s) l.
Proof.
  intros s t f l N. unfold on_list. destruct (g_lv s t) as [m|] eqn:V; [|reflexivity]. destruct (nth_error (g_lists s) m) as [k|]; [|reflexivity].
  cbn [with_list g_lists]. apply nth_wr_other. congruence.
Qed.
Lemma tbit_step : forall s c l, ~ asks_tbit s c l -> t_ro (step s c) l = t_ro s l.
Proof.
  intros s [c|t st] l N; cbn [t_step].
  - destruct c; try reflexivity; cbv zeta.
    + now destruct (list_ro s t).
    + now destruct (list_ro s t).
    + now destruct (settings && list_ro s t)%bool.
    + destruct (g_iv (t_g s) i) as [n|] eqn:I; [rewrite I; now rewrite tsets_ro|]. cbn [t_g]. destruct (g_iv (new_ins (t_g s) i) i); [now rewrite tsets_ro|reflexivity].
  - destruct (g_lv (t_g s) t) as [m|] eqn:V; [|reflexivity]. cbn [t_ro]. unfold set_bit. destruct (l =? m)%nat eqn:E; [|reflexivity].
    apply Nat.eqb_eq in E as ->. destruct N. exists t, st. auto.
Qed.
(* one statement and a read-only list: the members stay, NoPadding apart the spacing
   too, and the rules whose methods are not called *)
Lemma tstep_keep : forall s c l k, t_ro s l = true -> nth_error (g_lists (t_g s)) l = Some k ->
  (exists b, nth_error (g_lists (t_g (step s c))) l = Some (MkT b (t_mem k)) /\
             (settings = true \/ ~ asks_spacing s c l -> b = t_spaced k)) /\
  (forall r d, nth_error (g_rules (t_g s)) r = Some d -> ~ asks_trule s c r -> nth_error (g_rules (t_g (step s c))) r = Some d).
Proof.
  intros s c l k B K. destruct k as [b ms]. cbn [t_mem t_spaced].
  assert (Old : exists b0, nth_error (g_lists (t_g s)) l = Some (MkT b0 ms) /\ (settings = true \/ ~ asks_spacing s c l -> b0 = b)) by eauto.
  assert (New : forall A (h : list A) e i (d : A), nth_error h i = Some d -> nth_error (h ++ [e])%list i = Some d).
  { intros A h e i d H. rewrite nth_error_app1; [exact H|]. now apply nth_lt in H. }
  destruct c as [c|t st]; cbn [t_step]; cycle 1.
  { destruct (g_lv (t_g s) t); (split; [exact Old|auto]). }
  destruct c as [x r|x y|x m|t|t u|t xs|x t|x t i|t st|i|i j|i xs|t i]; cbn [g_step t_g].
  - split; [destruct r; exact Old|]. intros q d Q _. destruct r; [now apply New|exact Q].
  - split; [exact Old|auto].
  - split.
    + unfold rule_call. destruct (g_rv (t_g s) x); [destruct (tr_step _ m)|destruct (tr_step None m)]; exact Old.
    + intros r d Q N. unfold rule_call. destruct (g_rv (t_g s) x) as [n|] eqn:V.
      * destruct (tr_step (rval (t_g s) n) m); [|exact Q]. cbn [g_rules]. rewrite nth_wr_other; [exact Q|]. intros ->. apply N. exists x, m. auto.
      * destruct (tr_step None m); [now apply New|exact Q].
  - split; [exists b; split; [|auto]; cbn [with_lv new_list g_lists]; now apply New|auto].
  - split; [exact Old|auto].
  - destruct (list_ro s t) eqn:R; [split; [exact Old|auto]|]. cbn [t_g]. split.
    + exists b. split; [|auto]. rewrite keep_on_list; [exact K|]. intros V. unfold list_ro in R. rewrite V in R. congruence.
    + intros r d Q _. unfold on_list. destruct (g_lv (t_g s) t); [|exact Q]. destruct (nth_error (g_lists (t_g s)) n); exact Q.
  - destruct (list_ro s t) eqn:R; [split; [exact Old|auto]|]. cbn [t_g]. split.
    + exists b. split; [|auto]. cbn [with_rv g_lists]. rewrite keep_on_list; [exact K|]. intros V. unfold list_ro in R. rewrite V in R. congruence.
    + intros r d Q _. cbn [with_rv g_rules]. unfold on_list. destruct (g_lv (t_g s) t); [|exact Q]. destruct (nth_error (g_lists (t_g s)) n); exact Q.
  - split; [exact Old|auto].
  - destruct (settings && list_ro s t)%bool eqn:R; [split; [exact Old|auto]|]. cbn [t_g]. split.
    + assert (D : {g_lv (t_g s) t = Some l} + {g_lv (t_g s) t <> Some l}) by (decide equality; apply Nat.eq_dec). destruct D as [V|V].
      * unfold on_list. rewrite V, K. cbn [with_list g_lists t_mem t_spaced]. eexists. split; [apply nth_wr_same; now apply nth_lt in K|].
        intros [St|N]; [|destruct N; exists t, st; auto]. unfold list_ro in R. rewrite St, V, B in R. discriminate R.
      * rewrite keep_on_list by exact V. eauto.
    + intros r d Q _. unfold on_list. destruct (g_lv (t_g s) t); [|exact Q]. destruct (nth_error (g_lists (t_g s)) n); exact Q.
  - split; [exact Old|auto].
  - split; [exact Old|auto].
  - cbv zeta. destruct (g_iv (t_g s) i) as [n|] eqn:I.
    + rewrite I. destruct (tsets_keep xs s n l _ B K) as (P1 & P2 & _). split; [exists b; auto|]. intros r d Q _. now rewrite P2.
    + set (s1 := MkTS (new_ins (t_g s) i) (t_ro s)).
      assert (K1 : nth_error (g_lists (t_g s1)) l = Some (MkT b ms)) by (cbn; now apply New).
      destruct (g_iv (t_g s1) i) as [n|]; [|split; [exists b; auto|]; intros r d Q _; exact Q].
      destruct (tsets_keep xs s1 n l _ B K1) as (P1 & P2 & _). split; [exists b; auto|]. intros r d Q _. now rewrite P2.
  - split; [exact Old|auto].
Qed.

(* ---- C129 ---- *)
Theorem C129_target : forall s p l k, nth_error (g_lists (t_g s)) l = Some k -> always run s p (fun s => t_ro s l = true) ->
  exists b, nth_error (g_lists (t_g (run s p))) l = Some (MkT b (t_mem k)) /\
    (settings = true \/ each run s p (fun s c => ~ asks_spacing s c l) -> b = t_spaced k).
Proof.
  intros s p l k K. induction p as [|c p IH] using rev_ind; intros A; [exists (t_spaced k); split; [now destruct k|auto]|].
  destruct (IH (always_step _ _ _ _ _ A)) as (b & N & S). apply always_step, always_last in A. unfold t_run in *.
  rewrite fold_left_app. cbn [fold_left]. set (u := fold_left step p s) in *.
  destruct (tstep_keep u c l _ A N) as [(b' & N' & S') _]. cbn [t_mem t_spaced] in *. exists b'. split; [exact N'|].
  intros H. transitivity b.
  - apply S'. destruct H as [H|H]; [auto|]. apply each_step in H as [_ H]. auto.
  - apply S. destruct H as [H|H]; [auto|]. apply each_step in H as [H _]. auto.
Qed.
(* Push and Pop, and the bit *)
Theorem C129_target_refused : forall s t l, g_lv (t_g s) t = Some l ->
  (t_ro s l = true -> forall xs, step s (TDo (GPush t xs)) = s) /\
  (t_ro s l = true -> forall x, t_g (step s (TDo (GPop x t))) = with_rv (t_g s) x None) /\
  (t_ro s l = false -> forall xs x, t_g (step s (TDo (GPush t xs))) = g_step W (t_g s) (GPush t xs) /\
                                   t_g (step s (TDo (GPop x t))) = g_step W (t_g s) (GPop x t)) /\
  (forall b, t_ro (step s (TReadOnly t (Some b))) l = b) /\
  (t_ro s l = false -> t_ro (step s (TReadOnly t None)) l = true) /\
  (forall st, t_g (step s (TReadOnly t st)) = t_g s) /\
  (forall c, ~ asks_tbit s c l -> t_ro (step s c) l = t_ro s l).
Proof.
  intros s t l V. cbn [t_step]. unfold list_ro. rewrite V. repeat apply conj.
  - now intros ->.
  - now intros ->.
  - intros ->. now split.
  - intros b. cbn [t_ro]. unfold set_bit. now rewrite Nat.eqb_refl.
  - intros ->. cbn [t_ro]. unfold set_bit. now rewrite Nat.eqb_refl.
  - reflexivity.
  - intros c. apply tbit_step.
Qed.

(* ---- C130 ---- *)
(* what a read-only list of target rules shows stays if no method of a rule in it is
   called, and NoPadding is not called on it or refused *)
Theorem C130_target_partial : forall p0 p t l b rs, let s := run t_start p0 in g_lv (t_g s) t = Some l -> show_list (t_g s) t = Some (b, rs) ->
  always run s p (fun s => t_ro s l = true) -> (settings = true \/ each run s p (fun s c => ~ asks_spacing s c l)) ->
  each run s p (fun u c => forall r, In r (mem_of (t_g s) l) -> ~ asks_trule u c r) ->
  forall u, g_lv (t_g (run s p)) u = Some l -> show_list (t_g (run s p)) u = Some (b, rs).
Proof.
  intros p0 p t l b rs s V S A SP E u U. unfold show_list in *. rewrite V in S. rewrite U.
  destruct (nth_error (g_lists (t_g s)) l) as [k|] eqn:K; [|discriminate S]. injection S as <- <-.
  destruct (C129_target s p l k K A) as (b' & N & Sb). rewrite N, (Sb SP). cbn [t_mem t_spaced]. f_equal. f_equal.
  unfold mem_of in E. rewrite K in E. pose proof (wf_trun p0) as Wf. fold s in Wf.
  assert (R : forall r, In r (t_mem k) -> nth_error (g_rules (t_g (run s p))) r = nth_error (g_rules (t_g s)) r).
  { clear N U Sb SP. clearbody s. revert A E. induction p as [|c p IH] using rev_ind; intros A E r I; [reflexivity|]. unfold t_run in *.
    apply each_step in E as [E1 E2]. specialize (IH (always_step _ _ _ _ _ A) E1). rewrite fold_left_app. cbn [fold_left].
    destruct (C129_target s p l k K (always_step _ _ _ _ _ A)) as (b2 & N2 & _). apply always_step, always_last in A. unfold t_run in N2.
    set (v := fold_left step p s) in *. rewrite <- (IH r I). destruct (tstep_keep v c l _ A N2) as [_ H].
    destruct (nth_error (g_rules (t_g v)) r) as [d|] eqn:D; [apply H; [exact D|]; now apply E2|].
    destruct Wf as (_ & _ & _ & W4 & _). specialize (W4 l k r K I). rewrite (IH r I) in D. apply nth_error_None in D. lia. }
  unfold rvals. apply map_ext_in. intros r I. unfold rval, rd. specialize (R r I). cbv beta in R |- *. now rewrite R.
Qed.

(* ---- C131 ---- *)
(* Set on an instruction whose list of target rules is read-only: the target rules
   among the arguments are passed over in silence, the others are taken *)
Theorem C131_set : forall s i l xs, own_list (t_g s) i = Some l -> t_ro s l = true ->
  step s (TDo (GSet i xs)) = step s (TDo (GSet i (filter (fun a => negb (is_target a)) xs))) /\
  t_g (step s (TDo (GSet i xs))) = g_step W (t_g s) (GSet i (filter (fun a => negb (is_target a)) xs)) /\
  nth_error (g_lists (t_g (step s (TDo (GSet i xs))))) l = nth_error (g_lists (t_g s)) l.
Proof.
  intros s i l xs O B. unfold own_list in O. cbn [t_step g_step]. cbv zeta.
  destruct (g_iv (t_g s) i) as [n|] eqn:I; [|discriminate O]. rewrite !I. destruct (nth_error (g_ins (t_g s)) n) as [c|] eqn:G; [|discriminate O].
  injection O as O.
  assert (X : forall xs s c, nth_error (g_ins (t_g s)) n = Some c -> ic_trs c = l -> t_ro s l = true ->
    fold_left (fun s x => t_set1 W s n x) xs s = fold_left (fun s x => t_set1 W s n x) (filter (fun a => negb (is_target a)) xs) s /\
    t_g (fold_left (fun s x => t_set1 W s n x) xs s) = fold_left (fun s x => set1 W s n x) (filter (fun a => negb (is_target a)) xs) (t_g s) /\
    nth_error (g_lists (t_g (fold_left (fun s x => t_set1 W s n x) xs s))) l = nth_error (g_lists (t_g s)) l).
  { clear. induction xs as [|x xs IH]; intros s c G T B; [now repeat apply conj|]. cbn [fold_left filter].
    destruct (is_target x) eqn:E; cbn [negb].
    - assert (Q : t_set1 W s n x = s) by (unfold t_set1; rewrite G; destruct x; try discriminate E; now rewrite T, B). rewrite Q. now apply (IH s c).
    - assert (Q : t_set1 W s n x = MkTS (set1 W (t_g s) n x) (t_ro s)) by (unfold t_set1; rewrite G; now destruct x).
      assert (M : nth_error (g_lists (set1 W (t_g s) n x)) l = nth_error (g_lists (t_g s)) l) by (unfold set1; rewrite G; now destruct x).
      cbn [fold_left]. rewrite Q. destruct (set1_cell W (t_g s) n x c G) as (d & Gd & Td).
      destruct (IH (MkTS (set1 W (t_g s) n x) (t_ro s)) d Gd) as (P1 & P2 & P3); [congruence|exact B|]. cbn [t_g] in *. repeat apply conj; congruence. }
  destruct (X xs s c G O B) as (P1 & P2 & P3). now repeat apply conj.
Qed.
(* with the bit clear, Set does what it does without the bit *)
Theorem C131_writable : forall p0 i xs, let s := run t_start p0 in
  (forall l, own_list (t_g s) i = Some l -> t_ro s l = false) -> t_g (step s (TDo (GSet i xs))) = g_step W (t_g s) (GSet i xs).
Proof.
  intros p0 i xs s B. pose proof (wf_trun p0) as Wf. fold s in Wf.
  assert (RO : forall q m, t_ro (run t_start q) m = true -> (m < List.length (g_lists (t_g (run t_start q))))%nat).
  { intros q. induction q as [|c q IH] using rev_ind; intros m H; [discriminate H|]. unfold t_run in *. rewrite fold_left_app in *. cbn [fold_left] in *.
    pose proof (wf_trun q) as Wq. unfold t_run in Wq. set (u := fold_left step q t_start) in *.
    assert (Bq : t_ro u m = true \/ exists t, g_lv (t_g u) t = Some m).
    { destruct c as [c|t st].
      - left. rewrite <- H. symmetry. apply tbit_step. intros (t & st & _ & X). discriminate X.
      - cbn [t_step] in H. destruct (g_lv (t_g u) t) as [k|] eqn:V; [|now left]. cbn [t_ro] in H. unfold set_bit in H.
        destruct (m =? k)%nat eqn:E; [|now left]. apply Nat.eqb_eq in E as ->. eauto. }
    assert (L : (m < List.length (g_lists (t_g u)))%nat).
    { destruct Bq as [Bq|[t V]]; [now apply IH|]. destruct Wq as (_ & W2 & _). eauto. }
    enough (Len : (List.length (g_lists (t_g u)) <= List.length (g_lists (t_g (step u c))))%nat) by lia. clear.
    assert (OL : forall s t f, List.length (g_lists (on_list s t f)) = List.length (g_lists s)).
    { intros s t f. unfold on_list. destruct (g_lv s t); [|reflexivity]. destruct (nth_error (g_lists s) n); [|reflexivity]. cbn. apply wr_len. }
    assert (S1 : forall s n x, List.length (g_lists (set1 W s n x)) = List.length (g_lists s)).
    { intros s n x. unfold set1. destruct (nth_error (g_ins s) n) as [c0|]; [|reflexivity]. destruct x; cbn; try reflexivity;
        (destruct (nth_error (g_lists s) (ic_trs c0)); [cbn; apply wr_len|reflexivity]). }
    assert (TS : forall xs s n, List.length (g_lists (t_g (fold_left (fun s x => t_set1 W s n x) xs s))) = List.length (g_lists (t_g s))).
    { induction xs as [|x xs IH]; intros s n; [reflexivity|]. cbn [fold_left]. rewrite IH. destruct (tset1_cases s n x) as [->| ->]; [reflexivity|]. apply S1. }
    destruct c as [c|t st]; cbn [t_step]; [|now destruct (g_lv (t_g u) t)].
    destruct c as [x r|x y|x m0|t|t v|t xs|x t|x t i|t st|i|i j|i xs|t i]; cbn [g_step t_g]; try (now apply Nat.le_refl).
    - now destruct r.
    - unfold rule_call. destruct (g_rv (t_g u) x); [destruct (tr_step _ m0)|destruct (tr_step None m0)]; apply Nat.le_refl.
    - cbn. rewrite app_length. lia.
    - destruct (list_ro u t); [lia|]. cbn [t_g]. rewrite OL. lia.
    - destruct (list_ro u t); [apply Nat.le_refl|]. cbn [t_g with_rv g_lists]. rewrite OL. lia.
    - destruct (settings && list_ro u t)%bool; [lia|]. cbn [t_g]. rewrite OL. lia.
    - cbv zeta. destruct (g_iv (t_g u) i) eqn:I; [rewrite I, TS; lia|]. destruct (g_iv (t_g (MkTS (new_ins (t_g u) i) (t_ro u))) i); [rewrite TS|]; cbn; rewrite app_length; lia. }
  cbn [t_step g_step]. cbv zeta.
  assert (X : forall xs u n c, nth_error (g_ins (t_g u)) n = Some c -> t_ro u (ic_trs c) = false ->
    t_g (fold_left (fun s x => t_set1 W s n x) xs u) = fold_left (fun s x => set1 W s n x) xs (t_g u)).
  { clear. induction xs as [|x xs IH]; intros u n c G F; [reflexivity|]. cbn [fold_left].
    assert (Q : t_set1 W u n x = MkTS (set1 W (t_g u) n x) (t_ro u)) by (unfold t_set1; rewrite G; destruct x; now rewrite ?F). rewrite Q.
    destruct (set1_cell W (t_g u) n x c G) as (d & Gd & Td). rewrite (IH (MkTS (set1 W (t_g u) n x) (t_ro u)) n d Gd); [reflexivity|]. cbn [t_ro]. congruence. }
  destruct (g_iv (t_g s) i) as [n|] eqn:I.
  - rewrite !I. destruct Wf as (_ & _ & W3 & _). specialize (W3 i n I). destruct (nth_error (g_ins (t_g s)) n) as [c|] eqn:G; [|apply nth_error_None in G; lia].
    apply X with c; [exact G|]. apply B. unfold own_list. now rewrite I, G.
  - cbn [t_g]. destruct (g_iv (new_ins (t_g s) i) i) as [n|] eqn:I'; [|reflexivity].
    assert (E : n = List.length (g_ins (t_g s))).
    { cbn in I'. unfold upd in I'. rewrite Nat.eqb_refl in I'. injection I' as <-. rewrite app_length. cbn. lia. }
    destruct (new_ins_cell (t_g s) i) as [C _]. rewrite E. apply X with (MkIC "" (List.length (g_lists (t_g s))) []); [exact C|]. cbn [t_ro ic_trs].
    destruct (t_ro s (List.length (g_lists (t_g s)))) eqn:R; [|reflexivity]. apply RO in R. fold s in R. lia.
Qed.
End Target.

Definition two_locked : list tstmt := (map TDo two_rules ++ [TReadOnly 0 None])%list.
Notation RO st tg := (t_run st tg W0 t_start).
(* the text of a read-only list of target rules can change: by a method of a rule in it *)
Theorem C130_target_refuted : forall settings toggle,
  ~ (forall p q t l, let s := RO settings toggle p in g_lv (t_g s) t = Some l ->
       always (t_run settings toggle W0) s q (fun s => t_ro s l = true) ->
       list_text W0 (t_g (t_run settings toggle W0 s q)) t = list_text W0 (t_g s) t) /\
  exists p q t l, let s := RO settings toggle p in g_lv (t_g s) t = Some l /\
    always (t_run settings toggle W0) s q (fun s => t_ro s l = true) /\
    list_text W0 (t_g s) t = scope_text ++ filter_text /\
    list_text W0 (t_g (t_run settings toggle W0 s q)) t = "( targetscope = " ++ quote "base" ++ " )" ++ filter_text.
Proof.
  intros settings toggle.
  assert (X : exists p q t l, let s := RO settings toggle p in g_lv (t_g s) t = Some l /\
    always (t_run settings toggle W0) s q (fun s => t_ro s l = true) /\
    list_text W0 (t_g s) t = scope_text ++ filter_text /\
    list_text W0 (t_g (t_run settings toggle W0 s q)) t = "( targetscope = " ++ quote "base" ++ " )" ++ filter_text).
  { exists two_locked, [TDo (GIndex 5 0 0); TDo (GCall 5 (TExpression (Some (XText "base"))))], 0%nat, 0%nat. cbv zeta.
    split; [destruct settings, toggle; vm_compute; reflexivity|]. split; [repeat first [apply always_cons|apply always_nil]; destruct settings, toggle; vm_compute; reflexivity|].
    split; destruct settings, toggle; vm_compute; reflexivity. }
  split; [|exact X]. intros F. destruct X as (p & q & t & l & V & A & T1 & T2). specialize (F p q t l V A). cbv zeta in *. rewrite T1, T2 in F.
  vm_compute in F. discriminate F.
Qed.
Print Assumptions C129_target.
Print Assumptions C129_target_refused.
Print Assumptions C130_target_partial.
Print Assumptions C130_target_refuted.
Print Assumptions C131_set.
Print Assumptions C131_writable.
(* target_test.go:479-494 *)
Example C129_target_witness :
  let s := RO true true two_locked in
  let q := [TDo (GLCopy 4 0); TDo (GNew 7 (TR true (KTarget TargetAttr) (OCop Eq) (Some (XText "cn")))); TDo (GPush 4 [GRule 7]); TDo (GPop 8 0); TDo (GNoPad 0 (Some false))] in
  always (t_run true true W0) s q (fun s => t_ro s 0 = true) /\
  each (t_run true true W0) s q (fun u c => forall r, In r (mem_of (t_g s) 0) -> ~ asks_trule u c r) /\
  list_text W0 (t_g s) 0 = scope_text ++ filter_text /\
  list_text W0 (t_g (t_run true true W0 s q)) 0 = scope_text ++ filter_text /\
  show_rule (t_g (t_run true true W0 s q)) 8 = None /\
  list_text W0 (t_g (t_run true true W0 s [TReadOnly 0 (Some false); TDo (GPop 8 0)])) 0 = scope_text.
Proof.
  cbv zeta. split; [repeat first [apply always_cons|apply always_nil]; vm_compute; reflexivity|].
  split; [do 5 (apply each_cons; [intros r _ (x & m & _ & E); discriminate E|]); apply each_nil|]. repeat apply conj; vm_compute; reflexivity.
Qed.
(* an instruction whose own list was made read-only through TRs() *)
Example C131_witness :
  let s := RO true true (map TDo [GNew 0 scope_rule; GNew 1 filter_rule; GSet 0 [GTR 0]; GTRsOf 3 0] ++ [TReadOnly 3 None])%list in
  own_list (t_g s) 0 = Some 0%nat /\ t_ro s 0 = true /\
  ins_text W0 (t_g (t_step true true W0 s (TDo (GSet 0 [GTR 1; GStr "a"])))) 0 = scope_text ++ "(version 3.0; acl " ++ quote "a" ++ "; )" /\
  ins_text W0 (t_g (t_run true true W0 s [TReadOnly 3 (Some false); TDo (GSet 0 [GTR 1; GStr "a"])])) 0
    = scope_text ++ filter_text ++ "(version 3.0; acl " ++ quote "a" ++ "; )".
Proof. repeat apply conj; vm_compute; reflexivity. Qed.
