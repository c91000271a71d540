(* C155, C156: goroutines that call Set on one variable, which may hold a nil pointer. *)
From Coq Require Import String List PeanoNat Bool NArith ZArith Lia.
From Verif Require Import GoStr MHeap MAttr MFilter MNet MSec MTime MKw MUri MRights MAci Shifty MFirst SFirst SWord PWhole.
Import ListNotations.
Open Scope list_scope.

Section First.
Context {V C : Type}.
Variable T : ftype V C.
Notation run := (f_sched T).
Notation step := (f_step T).
Notation shown := (fshown T).

Lemma run_snoc st q i : run st (q ++ [i]) = step (run st q) i.
Proof. unfold f_sched. now rewrite fold_left_app. Qed.
Lemma run_app st a b : run st (a ++ b) = run (run st a) b.
Proof. unfold f_sched. now rewrite fold_left_app. Qed.
Lemma step_out st i : nth_error (fgos st) i = None -> step st i = st.
Proof. intros E. unfold f_step. now rewrite E. Qed.
Lemma step_gos st i g : nth_error (fgos st) i = Some g -> forall j,
  nth_error (fgos (step st i)) j = if Nat.eqb j i then Some (snd (f_gstep T st g)) else nth_error (fgos st) j.
Proof.
  intros E j. unfold f_step. rewrite E. destruct (f_gstep T st g) as [[a h] g']. cbn [fgos snd]. destruct (Nat.eqb_spec j i) as [->|N].
  - apply wr_same. apply nth_error_Some. congruence.
  - now apply wr_other.
Qed.
Lemma step_mem st i g : nth_error (fgos st) i = Some g -> fvals (step st i) = fst (fst (f_gstep T st g)) /\ fvar (step st i) = snd (fst (f_gstep T st g)).
Proof. intros E. unfold f_step. rewrite E. now destruct (f_gstep T st g) as [[a h] g']. Qed.
Lemma step_len st i : List.length (fgos (step st i)) = List.length (fgos st).
Proof. unfold f_step. destruct (nth_error (fgos st) i) as [g|]; [|reflexivity]. destruct (f_gstep T st g) as [[a h] g']. apply wr_len. Qed.
Lemma vals_wr (vs : list V) p x : (p < List.length vs)%nat -> nth p (wr vs p x) (fempty T) = x.
Proof. intros L. apply nth_error_nth. now apply wr_same. Qed.
Lemma vals_other (vs : list V) p k x : p <> k -> nth p (wr vs k x) (fempty T) = nth p vs (fempty T).
Proof.
  intros N. destruct (nth_error vs p) as [y|] eqn:E.
  - rewrite (nth_error_nth _ _ _ E). apply nth_error_nth. now rewrite wr_other.
  - rewrite !nth_overflow; [reflexivity|now apply nth_error_None|]. rewrite wr_len. now apply nth_error_None.
Qed.
Lemma vals_new (vs : list V) x : nth (List.length vs) (vs ++ [x]) (fempty T) = x.
Proof. rewrite app_nth2 by lia. now rewrite Nat.sub_diag. Qed.

(* what of goroutine k is in h *)
Definition of (k : nat) (h : list (nat * C)) : list C := map snd (filter (fun p => Nat.eqb (fst p) k) h).
Lemma of_snoc k h i c : of k (h ++ [(i, c)]) = of k h ++ (if Nat.eqb i k then [c] else []).
Proof. unfold of. rewrite filter_app, map_app. cbn. now destruct (Nat.eqb i k). Qed.
(* the call a goroutine is in *)
Definition pending (g : fgo C) : list C := match fat g with FOff => [] | FMake c | FFill c | FTake c | FDo _ c => [c] end.

(* ---- a variable that is set ---- *)
Record held (v : V) (css : list (list C)) (p : nat) (st : fstate V C) (h : list (nat * C)) : Prop := {
  h_var : fvar st = Some p;
  h_in : (p < List.length (fvals st))%nat;
  h_val : nth p (fvals st) (fempty T) = fold_left (fupd T) (map snd h) v;
  h_nz : fzero T (fold_left (fupd T) (map snd h) v) = false;
  h_len : List.length (fgos st) = List.length css;
  h_log : forall k c, In (k, c) h -> (k < List.length css)%nat;
  h_go : forall k g, nth_error (fgos st) k = Some g ->
    (match fat g with FOff | FTake _ => True | FDo p' _ => p' = p | _ => False end) /\
    (forall cs, nth_error css k = Some cs -> cs = of k h ++ pending g ++ fcalls g) }.
Lemma held_step v css p st h i : f_holds T v css -> held v css p st h ->
  exists h', held v css p (step st i) h'.
Proof.
  intros [Z K] H. destruct (nth_error (fgos st) i) as [g|] eqn:E; [|exists h; now rewrite step_out].
  pose proof (step_gos st i g E) as G. destruct (step_mem st i g E) as [M1 M2]. pose proof (step_len st i) as L.
  destruct (h_go _ _ _ _ _ H i g E) as [Pl Hist].
  assert (X : forall k g', nth_error (fgos st) k = Some g' -> Nat.eqb k i = false -> forall h',
     (forall k', Nat.eqb k' i = false -> of k' h' = of k' h) ->
     (match fat g' with FOff | FTake _ => True | FDo p' _ => p' = p | _ => False end) /\
     (forall cs, nth_error css k = Some cs -> cs = of k h' ++ pending g' ++ fcalls g')).
  { intros k g' Ek N h' O. destruct (h_go _ _ _ _ _ H k g' Ek) as [A B]. split; [exact A|]. intros cs F. rewrite O by exact N. now apply B. }
  unfold f_gstep in *. rewrite (h_var _ _ _ _ _ H) in *. unfold fshown in *. rewrite (h_var _ _ _ _ _ H) in *. cbn [f_isZero] in *.
  rewrite (h_val _ _ _ _ _ H) in *. rewrite (h_nz _ _ _ _ _ H) in *.
  unfold pending in *. destruct (fat g) as [|c|c|c|p' c] eqn:A; try contradiction.
  - exists h. destruct (fcalls g) as [|c cs] eqn:F; cbn [fst snd] in *.
    + constructor; try rewrite M1; try rewrite M2; try rewrite L; try apply H; auto.
      intros k g'. rewrite G. destruct (Nat.eqb_spec k i) as [->|N]; intros [= <-] || intros Ek.
      * unfold pending. rewrite A, F. split; [exact I|]. exact Hist.
      * apply X; auto. now apply Nat.eqb_neq.
    + constructor; try rewrite M1; try rewrite M2; try rewrite L; try apply H; auto.
      intros k g'. rewrite G. destruct (Nat.eqb_spec k i) as [->|N]; intros [= <-] || intros Ek.
      * cbn. split; [exact I|]. exact Hist.
      * apply X; auto. now apply Nat.eqb_neq.
  - exists h. cbn [fst snd] in *. constructor; try rewrite M1; try rewrite M2; try rewrite L; try apply H; auto.
    intros k g'. rewrite G. destruct (Nat.eqb_spec k i) as [->|N]; intros [= <-] || intros Ek.
    + cbn. split; [reflexivity|]. exact Hist.
    + apply X; auto. now apply Nat.eqb_neq.
  - subst p'. exists (h ++ [(i, c)]). cbn [fst snd] in *. pose proof (h_in _ _ _ _ _ H) as Lp.
    assert (Li : (i < List.length css)%nat) by (rewrite <- (h_len _ _ _ _ _ H); apply nth_error_Some; congruence).
    destruct (nth_error css i) as [cs0|] eqn:Ei; [|apply nth_error_None in Ei; lia].
    assert (Ic : exists cs, In cs css /\ In c cs).
    { exists cs0. split; [eapply nth_error_In; eauto|]. rewrite (Hist cs0 eq_refl). apply in_or_app. right. now left. }
    destruct Ic as (cs1 & I1 & I2).
    constructor; try rewrite M1; try rewrite M2; try rewrite L; try rewrite map_app, fold_left_app; cbn; auto; try apply H.
    + now rewrite wr_len.
    + rewrite vals_wr by assumption. now rewrite (h_val _ _ _ _ _ H).
    + apply (K cs1); auto. apply H.
    + intros k c' J. apply in_app_or in J as [J|[[= <- <-]|[]]]; [now apply (h_log _ _ _ _ _ H k c')|exact Li].
    + intros k g'. rewrite G. destruct (Nat.eqb_spec k i) as [->|N]; intros [= <-] || intros Ek.
      * cbn. split; [exact I|]. intros cs' F'. rewrite of_snoc, Nat.eqb_refl, <- app_assoc. rewrite F' in Ei. injection Ei as <-. now apply Hist.
      * apply X; auto; [now apply Nat.eqb_neq|]. intros k' Nk. rewrite of_snoc, Nat.eqb_sym, Nk. apply app_nil_r.
Qed.
Lemma held_run v css p st h q : f_holds T v css -> held v css p st h -> exists h', held v css p (run st q) h'.
Proof.
  intros Ho H. induction q as [|i q (h' & IH)] using rev_ind; [now exists h|]. rewrite run_snoc. now apply held_step with (h := h').
Qed.
Lemma in_vals o css q : forall p, fvar (run (f_start o css) q) = Some p -> (p < List.length (fvals (run (f_start o css) q)))%nat.
Proof.
  induction q as [|i q IH] using rev_ind; intros p.
  - destruct o; cbn; [intros [= <-]; lia|discriminate].
  - rewrite run_snoc. set (st := run (f_start o css) q) in *. destruct (nth_error (fgos st) i) as [g|] eqn:E; [|rewrite step_out by exact E; apply IH].
    destruct (step_mem st i g E) as [-> ->]. unfold f_gstep. destruct (fat g); [destruct (fcalls g)|destruct (fhow T)|destruct (fvar st) as [r|] eqn:W| |];
      cbn [fst snd]; rewrite ?wr_len, ?app_length; cbn; rewrite ?W; try apply IH; try discriminate; intros [= <-]; try lia.
Qed.
Lemma held_start st p v : (p < List.length (fvals st))%nat -> fvar st = Some p -> shown st = Some v -> f_quiet st -> f_holds T v (map fcalls (fgos st)) ->
  held v (map fcalls (fgos st)) p st [].
Proof.
  intros L E S Q [Z _]. unfold fshown in S. rewrite E in S. injection S as S. constructor; cbn; auto.
  - now rewrite map_length.
  - intros k c [].
  - intros k g G. specialize (Q g (nth_error_In _ _ G)). unfold pending. rewrite Q. split; [exact I|]. intros cs F. rewrite (map_nth_error fcalls _ _ G) in F. now injection F.
Qed.

(* ---- a variable that may be replaced ---- *)
Record lossy (o : option V) (css : list (list C)) (made : bool) (base : V) (st : fstate V C) (h : list (nat * C)) : Prop := {
  l_var : match fvar st with
          | None => made = false /\ o = None /\ h = []
          | Some p => (p < List.length (fvals st))%nat /\ nth p (fvals st) (fempty T) = fold_left (fupd T) (map snd h) base /\ (made = false -> o = Some base)
          end;
  l_fill : made = true -> base = fempty T \/ exists k g c, nth_error (fgos st) k = Some g /\ fat g = FFill c;
  l_some : made = true -> h <> [] \/ exists k g, nth_error (fgos st) k = Some g /\ match fat g with FFill _ | FTake _ => True | FDo p _ => fvar st = Some p | _ => False end;
  l_len : List.length (fgos st) = List.length css;
  l_log : forall k c, In (k, c) h -> (k < List.length css)%nat;
  l_go : forall k g, nth_error (fgos st) k = Some g ->
    (match fat g with FOff | FMake _ => True | FFill _ => made = true /\ fvar st <> None | FTake _ => fvar st <> None
     | FDo p _ => fvar st <> None /\ (p < List.length (fvals st))%nat /\ (fvar st <> Some p -> made = true /\ of k h = []) end) /\
    (forall cs, nth_error css k = Some cs -> exists lost, cs = lost ++ of k h ++ pending g ++ fcalls g /\ (made = false -> lost = [])) }.
Lemma lossy_step o css made base st h i : lossy o css made base st h ->
  exists made' base' h', lossy o css made' base' (step st i) h'.
Proof.
  intros H. destruct (nth_error (fgos st) i) as [g|] eqn:E; [|exists made, base, h; now rewrite step_out].
  pose proof (step_gos st i g E) as G. destruct (step_mem st i g E) as [M1 M2]. pose proof (step_len st i) as L.
  destruct (l_go _ _ _ _ _ _ H i g E) as [Pl Hist].
  assert (Li : (i < List.length css)%nat) by (rewrite <- (l_len _ _ _ _ _ _ H); apply nth_error_Some; congruence).
  assert (Gi : nth_error (fgos (step st i)) i = Some (snd (f_gstep T st g))) by (rewrite G, Nat.eqb_refl; reflexivity).
  assert (Gk : forall k, k <> i -> nth_error (fgos (step st i)) k = nth_error (fgos st) k) by (intros k N; rewrite G; apply Nat.eqb_neq in N; now rewrite N).
  (* a new value, or a new content of the value, with h' made by i alone *)
  assert (New : forall h' base' x p n, (forall k c, In (k, c) h' -> k = i) ->
     fvar (step st i) = Some p -> (p < List.length (fvals (step st i)))%nat -> nth p (fvals (step st i)) (fempty T) = fold_left (fupd T) (map snd h') base' ->
     (List.length (fvals st) <= List.length (fvals (step st i)))%nat ->
     (base' = fempty T \/ exists c, fat (snd (f_gstep T st g)) = FFill c) ->
     snd (f_gstep T st g) = MkFg (fcalls g) n -> pending g = [x] -> match n with FFill _ | FTake _ => h' = [] /\ pending (MkFg (fcalls g) n) = [x] | FOff => h' = [(i, x)] | _ => False end ->
     lossy o css true base' (step st i) h').
  { intros h' base' x p n Only Ep Lp Vp Lv Bp En Pg Hn. constructor; try rewrite L; try apply H.
    - rewrite Ep. repeat split; auto. discriminate.
    - intros _. destruct Bp as [B|(c & B)]; [now left|right]. exists i, (snd (f_gstep T st g)), c. now split.
    - intros _. destruct n; try contradiction; [rewrite Hn; left; discriminate| |]; right; exists i, (snd (f_gstep T st g)); (split; [exact Gi|]); rewrite En; exact I.
    - intros k c J. apply Only in J. now subst k.
    - intros k g'. destruct (Nat.eq_dec k i) as [->|N].
      + rewrite Gi. intros [= <-]. rewrite En. cbn [fat fcalls]. split.
        * rewrite Ep. destruct n; try contradiction; try exact I; [split; [reflexivity|]|]; discriminate.
        * intros cs F. destruct (Hist cs F) as (lost & -> & _). rewrite Pg. destruct n; try contradiction.
          -- exists (lost ++ of i h). rewrite Hn. unfold of at 2. cbn. rewrite Nat.eqb_refl. cbn. rewrite <- !app_assoc. split; [reflexivity|discriminate].
          -- destruct Hn as [-> Hn]. rewrite Hn. exists (lost ++ of i h). cbn. rewrite <- !app_assoc. split; [reflexivity|discriminate].
          -- destruct Hn as [-> Hn]. rewrite Hn. exists (lost ++ of i h). cbn. rewrite <- !app_assoc. split; [reflexivity|discriminate].
      + rewrite Gk by exact N. intros Ek. destruct (l_go _ _ _ _ _ _ H k g' Ek) as [A B]. assert (O : of k h' = []).
        { unfold of. clear -Only N. induction h' as [|[j c] h' IH]; [reflexivity|]. cbn. assert (J : j = i) by (apply (Only j c); now left). subst j.
          destruct (Nat.eqb_spec i k) as [->|_]; [contradiction|]. apply IH. intros k' c' J. apply (Only k' c'). now right. }
        split.
        * rewrite Ep. destruct (fat g') as [|c|c|c|p' c]; try exact I; [split; [reflexivity|]| |]; try discriminate. split; [discriminate|]. split; [destruct A as (_ & A & _); lia|]. intros _. now split.
        * intros cs F. destruct (B cs F) as (lost & -> & _). exists (lost ++ of k h). rewrite O. cbn. rewrite <- app_assoc. split; [reflexivity|discriminate]. }
  (* nothing is written *)
  assert (Same : forall g', snd (f_gstep T st g) = g' -> fvals (step st i) = fvals st -> fvar (step st i) = fvar st ->
     pending g' ++ fcalls g' = pending g ++ fcalls g ->
     (match fat g' with FOff | FMake _ => fat g = FOff | FFill _ => False | FTake _ => fvar st <> None /\ fat g = FOff
      | FDo p _ => fvar st = Some p /\ exists c, fat g = FTake c end) -> lossy o css made base (step st i) h).
  { intros g' Eg Ev Ep Q Pn. rewrite Eg in Gi. constructor; try rewrite L; try rewrite Ev; try rewrite Ep; try apply H.
    - intros J. destruct (l_fill _ _ _ _ _ _ H J) as [B|(k & gk & c & B1 & B2)]; [now left|right]. exists k, gk, c. split; [|exact B2].
      destruct (Nat.eq_dec k i) as [->|N]; [|now rewrite Gk]. exfalso. rewrite E in B1. injection B1 as ->. rewrite B2 in Pn.
      destruct (fat g'); try contradiction; try discriminate; destruct Pn as [_ Pn]; try discriminate. now destruct Pn.
    - intros J. destruct (l_some _ _ _ _ _ _ H J) as [B|(k & gk & B1 & B2)]; [now left|right]. destruct (Nat.eq_dec k i) as [->|N].
      + exists i, g'. split; [exact Gi|]. rewrite E in B1. injection B1 as <-. rewrite ?Ep. destruct (fat g') as [|c|c|c|p c]; try contradiction; try exact I; try (rewrite Pn in B2; contradiction). now destruct Pn.
      + exists k, gk. rewrite Gk by exact N. now rewrite ?Ep.
    - intros k gk. destruct (Nat.eq_dec k i) as [->|N].
      + rewrite Gi. intros [= <-]. rewrite ?Ep, ?Ev. split.
        * destruct (fat g') as [|c|c|c|p c] eqn:A'; try exact I; try contradiction; [now destruct Pn|]. destruct Pn as [Pn _]. rewrite Pn. split; [discriminate|]. split; [|congruence].
          pose proof (l_var _ _ _ _ _ _ H) as W. rewrite Pn in W. now destruct W.
        * rewrite Q. exact Hist.
      + rewrite Gk by exact N. rewrite ?Ep, ?Ev. apply H. }
  unfold f_gstep in *. destruct (fat g) as [|c|c|c|p c] eqn:A.
  - exists made, base, h. destruct (fcalls g) as [|c cs] eqn:F; cbn [fst snd] in *.
    + apply (Same g); auto; [now rewrite F|now rewrite A].
    + eapply Same; eauto.
      * unfold pending. rewrite A. cbn. now destruct (f_isZero T (fshown T st)).
      * cbn. destruct (f_isZero T (fshown T st)) eqn:Z; [reflexivity|]. split; [|reflexivity]. intros W. unfold fshown in Z. rewrite W in Z. discriminate.
  - exists true. assert (Pg : pending g = [c]) by (unfold pending; now rewrite A). destruct (fhow T) eqn:Hw; cbn [fst snd] in *.
    + exists (fempty T), []. eapply (New [] (fempty T) c); try exact M2; try reflexivity; try exact Pg; rewrite ?M1, ?app_length; cbn; try lia;
        first [intros k c' []|apply vals_new|now left|split; reflexivity].
    + exists (fraw T), []. eapply (New [] (fraw T) c); try exact M2; try reflexivity; try exact Pg; rewrite ?M1, ?app_length; cbn; try lia;
        first [intros k c' []|apply vals_new|right; eauto|split; reflexivity].
    + exists (fempty T), [(i, c)]. eapply (New [(i, c)] (fempty T) c); try exact M2; try reflexivity; try exact Pg; rewrite ?M1, ?app_length; cbn; try lia;
        first [intros k c' [[= <- <-]|[]]; reflexivity|apply vals_new|now left|reflexivity].
  - destruct Pl as [Ma Nn]. subst made. exists true, (fempty T), []. destruct (fvar st) as [p|] eqn:W; [|contradiction]. cbn [fst snd] in *.
    assert (Pg : pending g = [c]) by (unfold pending; now rewrite A). pose proof (l_var _ _ _ _ _ _ H) as Vv. rewrite W in Vv. destruct Vv as (Lp & _ & _).
    eapply (New [] (fempty T) c p); try exact M2; try reflexivity; try exact Pg; rewrite ?M1, ?wr_len; cbn; try lia;
      first [intros k c' []|now apply vals_wr|now left|split; reflexivity].
  - exists made, base, h. destruct (fvar st) as [p|] eqn:W; [|contradiction]. cbn [fst snd] in *. eapply Same; eauto.
    + unfold pending. cbn. now rewrite A.
    + cbn. eauto.
  - destruct Pl as (Nn & Lp & Old). destruct (fvar st) as [r|] eqn:W; [|contradiction]. cbn [fst snd] in *. pose proof (l_var _ _ _ _ _ _ H) as Vv. rewrite W in Vv. destruct Vv as (Lr & Vr & Mo).
    destruct (Nat.eq_dec p r) as [->|Np].
    + exists made, base, (h ++ [(i, c)]). constructor; try rewrite L; try rewrite M1; try rewrite M2; try apply H.
      * rewrite wr_len. split; [exact Lr|]. split; [|exact Mo]. rewrite vals_wr by exact Lr. rewrite map_app, fold_left_app. cbn. now rewrite Vr.
      * intros J. destruct (l_fill _ _ _ _ _ _ H J) as [B|(k & gk & c' & B1 & B2)]; [now left|right]. exists k, gk, c'. split; [|exact B2]. rewrite Gk; [exact B1|]. intros ->. congruence.
      * intros _. left. now destruct h.
      * intros k c' J. apply in_app_or in J as [J|[[= <- <-]|[]]]; [now apply (l_log _ _ _ _ _ _ H k c')|exact Li].
      * intros k g'. destruct (Nat.eq_dec k i) as [->|N].
        -- rewrite Gi. intros [= <-]. cbn. split; [exact I|]. intros cs F. destruct (Hist cs F) as (lost & -> & X). exists lost. split; [|exact X].
           rewrite of_snoc, Nat.eqb_refl. unfold pending. rewrite A. rewrite <- !app_assoc. reflexivity.
        -- rewrite Gk by exact N. intros Ek. destruct (l_go _ _ _ _ _ _ H k g' Ek) as [A' B']. rewrite of_snoc. apply Nat.eqb_neq in N. rewrite Nat.eqb_sym, N, app_nil_r. rewrite W in A'. rewrite wr_len. now split.
    + destruct (Old ltac:(congruence)) as [-> Oh]. exists true, base, h. constructor; try rewrite L; try rewrite M1; try rewrite M2; try apply H.
      * rewrite wr_len. split; [exact Lr|]. split; [|exact Mo]. now rewrite vals_other by congruence.
      * intros J. destruct (l_fill _ _ _ _ _ _ H J) as [B|(k & gk & c' & B1 & B2)]; [now left|right]. exists k, gk, c'. split; [|exact B2]. rewrite Gk; [exact B1|]. intros ->. congruence.
      * intros J. destruct (l_some _ _ _ _ _ _ H J) as [B|(k & gk & B1 & B2)]; [now left|right]. exists k, gk. rewrite W in B2. split; [|exact B2]. rewrite Gk; [exact B1|]. intros ->. rewrite E in B1. injection B1 as <-. rewrite A in B2. congruence.
      * intros k g'. destruct (Nat.eq_dec k i) as [->|N].
        -- rewrite Gi. intros [= <-]. cbn. split; [exact I|]. intros cs F. destruct (Hist cs F) as (lost & -> & X). exists (lost ++ [c]). split; [|discriminate].
           rewrite Oh. unfold pending. rewrite A. cbn. now rewrite <- app_assoc.
        -- rewrite Gk by exact N. intros Ek. destruct (l_go _ _ _ _ _ _ H k g' Ek) as [A' B']. rewrite W in A'. rewrite wr_len. now split.
Qed.
Lemma lossy_run o css q : exists made base h, lossy o css made base (run (f_start o css) q) h.
Proof.
  induction q as [|i q (made & base & h & IH)] using rev_ind; [|rewrite run_snoc; eapply lossy_step; exact IH].
  exists false, (match o with Some v => v | None => fempty T end), []. cbn. constructor; cbn; try discriminate.
  - destruct o; cbn; auto.
  - destruct o; cbn; apply map_length.
  - intros k c [].
  - intros k g G. assert (G' : nth_error (map (fun cs => MkFg cs FOff) css) k = Some g) by (destruct o; exact G). rewrite nth_error_map in G'.
    destruct (nth_error css k) as [cs|]; [|discriminate]. injection G' as <-. cbn. split; [exact I|]. intros cs' [= <-]. exists []. now split.
Qed.

(* ---- goroutines that take turns ---- *)
Definition now (o : option V) (h : list (nat * C)) : option V := fold_left (f_set T) (map snd h) o.
Record turn (o : option V) (css : list (list C)) (st : fstate V C) (h : list (nat * C)) : Prop := {
  t_in : forall p, fvar st = Some p -> (p < List.length (fvals st))%nat;
  t_quiet : f_quiet st -> shown st = now o h;
  t_len : List.length (fgos st) = List.length css;
  t_log : forall k c, In (k, c) h -> (k < List.length css)%nat;
  t_go : forall k g, nth_error (fgos st) k = Some g ->
    (match fat g with FOff => True | FMake c => f_isZero T (now o h) = true
     | FFill c => f_isZero T (now o h) = true /\ fvar st <> None
     | FTake c => exists x, shown st = Some x /\ f_set T (now o h) c = Some (fupd T x c)
     | FDo p c => fvar st = Some p /\ exists x, shown st = Some x /\ f_set T (now o h) c = Some (fupd T x c) end) /\
    (forall cs, nth_error css k = Some cs -> cs = of k h ++ pending g ++ fcalls g) }.
Lemma set_zero o c : f_isZero T o = true -> f_set T o c = Some (fupd T (fempty T) c).
Proof. unfold f_isZero, f_set. destruct o as [v|]; [|reflexivity]. intros ->. reflexivity. Qed.
Lemma set_there o v c : o = Some v -> fzero T v = false -> f_set T o c = Some (fupd T v c).
Proof. intros -> Z. unfold f_set. now rewrite Z. Qed.
Lemma turn_step o css st0 q h i : f_turns T st0 (q ++ [i]) -> turn o css (run st0 q) h ->
  exists h', turn o css (run st0 (q ++ [i])) h'.
Proof.
  intros Tn H. assert (T1 := Tn q [i] eq_refl). assert (T2 := Tn (q ++ [i]) [] (eq_sym (app_nil_r _))). rewrite run_snoc in *. set (st := run st0 q) in *.
  destruct (nth_error (fgos st) i) as [g|] eqn:E; [|exists h; now rewrite step_out].
  pose proof (step_gos st i g E) as G. destruct (step_mem st i g E) as [M1 M2]. pose proof (step_len st i) as L.
  destruct (t_go _ _ _ _ H i g E) as [Pl Hist].
  assert (Li : (i < List.length css)%nat) by (rewrite <- (t_len _ _ _ _ H); apply nth_error_Some; congruence).
  assert (Gi : nth_error (fgos (step st i)) i = Some (snd (f_gstep T st g))) by (rewrite G, Nat.eqb_refl; reflexivity).
  assert (Gk : forall k, k <> i -> nth_error (fgos (step st i)) k = nth_error (fgos st) k) by (intros k N; rewrite G; apply Nat.eqb_neq in N; now rewrite N).
  assert (Iv : forall p, fvar (step st i) = Some p -> (p < List.length (fvals (step st i)))%nat).
  { intros p. rewrite M1, M2. unfold f_gstep. destruct (fat g); [destruct (fcalls g)|destruct (fhow T)|destruct (fvar st) eqn:W| |];
      cbn [fst snd]; rewrite ?wr_len, ?app_length; cbn; rewrite ?W; try apply H; try discriminate; try (intros [= <-]; lia); rewrite <- W; apply H. }
  assert (Off : fat g <> FOff \/ fat (snd (f_gstep T st g)) <> FOff -> forall k gk, k <> i -> nth_error (fgos st) k = Some gk -> fat gk = FOff).
  { intros D k gk N Ek. destruct (fat gk) eqn:F; [reflexivity| | | |]; exfalso; apply N; destruct D as [D|D].
    all: try (apply (T1 k i gk g Ek); [congruence|exact E|exact D]).
    all: apply (T2 k i gk (snd (f_gstep T st g))); [now rewrite Gk|congruence|exact Gi|exact D]. }
  (* the goroutine goes on *)
  assert (On : forall n c, snd (f_gstep T st g) = MkFg (fcalls g) n -> pending g = [c] -> pending (MkFg (fcalls g) n) = [c] -> n <> FOff ->
     (match n with FOff => True | FMake c => f_isZero T (now o h) = true
      | FFill c => f_isZero T (now o h) = true /\ fvar (step st i) <> None
      | FTake c => exists x, shown (step st i) = Some x /\ f_set T (now o h) c = Some (fupd T x c)
      | FDo p c => fvar (step st i) = Some p /\ exists x, shown (step st i) = Some x /\ f_set T (now o h) c = Some (fupd T x c) end) ->
     turn o css (step st i) h).
  { intros n c En Pg Pn Nn Hn. constructor; try rewrite L; try apply H; auto.
    - intros Q. exfalso. apply Nn. specialize (Q _ (nth_error_In _ _ Gi)). now rewrite En in Q.
    - intros k gk. destruct (Nat.eq_dec k i) as [->|N].
      + rewrite Gi, En. intros [= <-]. split; [exact Hn|]. intros cs F. rewrite Pn. cbn [fcalls]. rewrite <- Pg. now apply Hist.
      + rewrite Gk by exact N. intros Ek. destruct (t_go _ _ _ _ H k gk Ek) as [_ B]. split; [|exact B].
        rewrite (Off ltac:(right; rewrite En; exact Nn) k gk N Ek). exact I. }
  (* the call returns *)
  assert (Ret : forall c, snd (f_gstep T st g) = MkFg (fcalls g) FOff -> pending g = [c] -> fat g <> FOff ->
     shown (step st i) = f_set T (now o h) c -> turn o css (step st i) (h ++ [(i, c)])).
  { intros c En Pg Nn Sh. assert (Nw : now o (h ++ [(i, c)]) = f_set T (now o h) c) by (unfold now; rewrite map_app, fold_left_app; reflexivity).
    constructor; try rewrite L; try rewrite Nw; try apply H; auto.
    - intros k c' J. apply in_app_or in J as [J|[[= <- <-]|[]]]; [now apply (t_log _ _ _ _ H k c')|exact Li].
    - intros k gk. destruct (Nat.eq_dec k i) as [->|N].
      + rewrite Gi, En. intros [= <-]. split; [exact I|]. intros cs F. cbn. rewrite of_snoc, Nat.eqb_refl, <- app_assoc. rewrite <- Pg at 1. now apply Hist.
      + rewrite Gk by exact N. intros Ek. destruct (t_go _ _ _ _ H k gk Ek) as [_ B]. rewrite of_snoc. apply Nat.eqb_neq in N as N'. rewrite Nat.eqb_sym, N', app_nil_r. split; [|exact B].
        rewrite (Off ltac:(now left) k gk N Ek). exact I. }
  destruct (fat g) as [|c|c|c|p c] eqn:A.
  - unfold f_gstep in *. rewrite A in *. destruct (fcalls g) as [|c cs] eqn:F; cbn [fst snd] in *.
    + exists h. assert (St : forall k, nth_error (fgos (step st i)) k = nth_error (fgos st) k) by (intros k; destruct (Nat.eq_dec k i) as [->|N]; [now rewrite Gi|now apply Gk]).
      assert (Sh : shown (step st i) = shown st) by (unfold fshown; now rewrite M1, M2).
      constructor; try rewrite L; try apply H; auto.
      * intros Q. rewrite Sh. apply H. intros g' J. apply In_nth_error in J as (k & J). rewrite <- St in J. exact (Q g' (nth_error_In _ _ J)).
      * intros k gk. rewrite St, M2, Sh. apply H.
    + assert (Q : f_quiet st).
      { intros g' J. apply In_nth_error in J as (k & J). destruct (Nat.eq_dec k i) as [->|N]; [congruence|]. apply (Off ltac:(right; cbn; destruct (f_isZero _ _); discriminate) k g' N J). }
      pose proof (t_quiet _ _ _ _ H Q) as S. assert (Sh : shown (step st i) = shown st) by (unfold fshown; now rewrite M1, M2).
      exists h. constructor; try rewrite L; try apply H; auto.
      * intros Q'. specialize (Q' _ (nth_error_In _ _ Gi)). cbn in Q'. destruct (f_isZero _ _); discriminate.
      * intros k gk. destruct (Nat.eq_dec k i) as [->|N].
        -- rewrite Gi. intros [= <-]. cbn [fat fcalls]. split.
           ++ rewrite Sh, <- S. destruct (f_isZero T (shown st)) eqn:Z; [reflexivity|]. destruct (shown st) as [x|]; [|discriminate]. exists x. split; [reflexivity|]. now apply set_there.
           ++ intros cs' F'. rewrite (Hist cs' F'). unfold pending. rewrite ?A, ?F. cbn. now destruct (f_isZero _ _).
        -- rewrite Gk by exact N. intros Ek. destruct (t_go _ _ _ _ H k gk Ek) as [_ B]. split; [|exact B]. rewrite (Q gk (nth_error_In _ _ Ek)). exact I.
  - assert (Pg : pending g = [c]) by (unfold pending; now rewrite A). unfold f_gstep in *. rewrite A in *. destruct (fhow T); cbn [fst snd] in *.
    + exists h. apply (On (FTake c) c); try reflexivity; try discriminate; auto. exists (fempty T). split; [unfold fshown; rewrite M1, M2; now rewrite vals_new|now apply set_zero].
    + exists h. apply (On (FFill c) c); try reflexivity; try discriminate; auto. split; [exact Pl|rewrite M2; discriminate].
    + exists (h ++ [(i, c)]). apply Ret; try reflexivity; try discriminate; auto. unfold fshown. rewrite M1, M2, vals_new. symmetry. now apply set_zero.
  - assert (Pg : pending g = [c]) by (unfold pending; now rewrite A). destruct Pl as [Z Nn]. unfold f_gstep in *. rewrite A in *. destruct (fvar st) as [p|] eqn:W; [|contradiction]. cbn [fst snd] in *.
    exists h. apply (On (FTake c) c); try reflexivity; try discriminate; auto. exists (fempty T). split; [unfold fshown; rewrite M1, M2; now rewrite vals_wr by now apply H|now apply set_zero].
  - assert (Pg : pending g = [c]) by (unfold pending; now rewrite A). destruct Pl as (x & S & Z). unfold f_gstep in *. rewrite A in *. destruct (fvar st) as [p|] eqn:W; [|unfold fshown in S; rewrite W in S; discriminate]. cbn [fst snd] in *.
    exists h. apply (On (FDo p c) c); try reflexivity; try discriminate; auto. split; [exact M2|]. exists x. split; [|exact Z]. unfold fshown in *. rewrite M1, M2. now rewrite W in S.
  - assert (Pg : pending g = [c]) by (unfold pending; now rewrite A). destruct Pl as (W & x & S & Z). unfold f_gstep in *. rewrite A in *. cbn [fst snd] in *.
    exists (h ++ [(i, c)]). apply Ret; try reflexivity; try discriminate; auto. unfold fshown in *. rewrite W in *. injection S as <-. rewrite M2, M1, vals_wr by now apply H. now rewrite Z.
Qed.
Lemma turns_less st a b : f_turns T st (a ++ b) -> f_turns T st a.
Proof. intros Tn x y E. apply (Tn x (y ++ b)). rewrite E. symmetry. apply app_assoc. Qed.
Lemma turn_run o css q : f_turns T (f_start o css) q -> exists h, turn o css (run (f_start o css) q) h.
Proof.
  induction q as [|i q IH] using rev_ind.
  - intros _. exists []. constructor; cbn.
    + destruct o; cbn; [intros p [= <-]; lia|discriminate].
    + intros _. now destruct o.
    + destruct o; cbn; apply map_length.
    + intros k c [].
    + intros k g G. assert (G' : nth_error (map (fun cs => MkFg cs FOff) css) k = Some g) by (destruct o; exact G). rewrite nth_error_map in G'.
      destruct (nth_error css k) as [cs|]; [|discriminate]. injection G' as <-. cbn. split; [exact I|]. intros cs' [= <-]. reflexivity.
  - intros Tn. destruct (IH (turns_less _ _ _ Tn)) as (h & H). exact (turn_step o css _ q h i Tn H).
Qed.
Lemma run_gos_len st q : List.length (fgos (run st q)) = List.length (fgos st).
Proof. induction q as [|i q IH] using rev_ind; [reflexivity|]. now rewrite run_snoc, step_len. Qed.
Lemma start_gos (o : option V) (css : list (list C)) : fgos (f_start o css) = map (fun cs => MkFg cs FOff) css.
Proof. now destruct o. Qed.
Lemma start_calls (o : option V) (css : list (list C)) : map fcalls (fgos (f_start o css)) = css.
Proof. rewrite start_gos, map_map. cbn. apply map_id. Qed.
Lemma start_shown (o : option V) (css : list (list C)) : shown (f_start o css) = o.
Proof. now destruct o. Qed.
Lemma start_quiet (o : option V) (css : list (list C)) : f_quiet (f_start o css).
Proof. intros g J. rewrite start_gos in J. apply in_map_iff in J as (cs & <- & _). reflexivity. Qed.
End First.

(* C155.  From a moment on at which the variable is set and no goroutine is in a call: at every
   later moment the value is what some order of the calls makes of it, of each goroutine the
   first ones in their order; when all have returned, all calls. *)
Theorem C155_kept : forall V C (T : ftype V C) o css a b v,
  let st := f_sched T (f_start o css) a in let st' := f_sched T (f_start o css) (a ++ b) in let left := map fcalls (fgos st) in
  f_quiet st -> fshown T st = Some v -> f_holds T v left ->
  (exists h, beginnings left h /\ fshown T st' = Some (fold_left (fupd T) (map snd h) v)) /\
  (f_returned st' -> exists h, merges left h /\ fshown T st' = Some (fold_left (fupd T) (map snd h) v)).
Proof.
  intros V C T o css a b v st st' left Q S Ho. unfold st'. rewrite run_app. fold st.
  destruct (fvar st) as [p|] eqn:P; [|unfold fshown in S; rewrite P in S; discriminate].
  destruct (held_run T v left p st [] b Ho (held_start T st p v (in_vals T o css a p P) P S Q Ho)) as (h & H).
  assert (Sh : fshown T (f_sched T st b) = Some (fold_left (fupd T) (map snd h) v)) by (unfold fshown; now rewrite (h_var _ _ _ _ _ _ H), (h_val _ _ _ _ _ _ H)).
  split.
  - exists h. split; [|exact Sh]. split; [apply H|]. intros k es E. destruct (nth_error (fgos (f_sched T st b)) k) as [g|] eqn:G.
    + exists (pending g ++ fcalls g). now apply (h_go _ _ _ _ _ _ H k g G).
    + apply nth_error_None in G. rewrite (h_len _ _ _ _ _ _ H) in G. apply nth_error_None in G. congruence.
  - intros R. exists h. split; [|exact Sh]. split; [apply H|]. intros k es E. destruct (nth_error (fgos (f_sched T st b)) k) as [g|] eqn:G.
    + destruct (R g (nth_error_In _ _ G)) as [R1 R2]. destruct (h_go _ _ _ _ _ _ H k g G) as [_ B]. specialize (B es E).
      unfold pending in B. rewrite R1, R2 in B. cbn in B. rewrite app_nil_r in B. now symmetry.
    + apply nth_error_None in G. rewrite (h_len _ _ _ _ _ _ H) in G. apply nth_error_None in G. congruence.
Qed.
(* So for a value made by its constructor. *)
Theorem C155_made : forall V C (T : ftype V C) v css q, f_holds T v css -> f_returned (f_sched T (f_start (Some v) css) q) ->
  exists h, merges css h /\ fshown T (f_sched T (f_start (Some v) css) q) = Some (fold_left (fupd T) (map snd h) v).
Proof.
  intros V C T v css q Ho R. pose proof (C155_kept V C T (Some v) css [] q v) as K. cbv zeta in K. cbn [app f_sched fold_left] in K.
  rewrite start_calls, start_shown in K. destruct (K (start_quiet (Some v) css) eq_refl Ho) as [_ K']. now apply K'.
Qed.

(* C156.  A variable that may be nil, any schedule: when all calls have returned, of each
   goroutine the last calls are there, in their order; the others are lost.  Some are there. *)
Theorem C156_ends : forall V C (T : ftype V C) o css q, f_returned (f_sched T (f_start o css) q) ->
  (o <> None \/ exists cs, In cs css /\ cs <> []) ->
  (exists v h, o = Some v /\ merges css h /\ fshown T (f_sched T (f_start o css) q) = Some (fold_left (fupd T) (map snd h) v)) \/
  (exists h, ends css h /\ h <> [] /\ fshown T (f_sched T (f_start o css) q) = Some (fold_left (fupd T) (map snd h) (fempty T))).
Proof.
  intros V C T o css q R S. destruct (lossy_run T o css q) as (made & base & h & H). set (st := f_sched T (f_start o css) q) in *.
  assert (Hi : forall k es, nth_error css k = Some es -> exists lost, es = lost ++ of k h /\ (made = false -> lost = [])).
  { intros k es F. destruct (nth_error (fgos st) k) as [g|] eqn:G.
    - destruct (l_go _ _ _ _ _ _ _ H k g G) as [_ B]. destruct (B es F) as (lost & E & X). destruct (R g (nth_error_In _ _ G)) as [R1 R2].
      unfold pending in E. rewrite R1, R2 in E. cbn in E. rewrite app_nil_r in E. eauto.
    - apply nth_error_None in G. rewrite (l_len _ _ _ _ _ _ _ H) in G. apply nth_error_None in G. congruence. }
  pose proof (l_var _ _ _ _ _ _ _ H) as W. unfold fshown. destruct (fvar st) as [p|] eqn:P.
  - destruct W as (W1 & W2 & W3). rewrite W2. destruct made.
    + right. exists h. assert (Go : forall k g, nth_error (fgos st) k = Some g -> fat g = FOff) by (intros k g G; now destruct (R g (nth_error_In _ _ G))).
      split; [split; [apply H|]|split].
      * intros k es F. destruct (Hi k es F) as (lost & E & _). now exists lost.
      * destruct (l_some _ _ _ _ _ _ _ H eq_refl) as [K|(k & g & G & K)]; [exact K|]. rewrite (Go k g G) in K. contradiction.
      * destruct (l_fill _ _ _ _ _ _ _ H eq_refl) as [->|(k & g & c & G & K)]; [reflexivity|]. rewrite (Go k g G) in K. discriminate.
    + left. exists base, h. split; [auto|]. split; [|reflexivity]. split; [apply H|]. intros k es F. destruct (Hi k es F) as (lost & E & X). rewrite (X eq_refl) in E. now symmetry.
  - destruct W as (-> & -> & ->). exfalso. destruct S as [S|(cs & J & N)]; [now apply S|]. apply In_nth_error in J as (k & J). destruct (Hi k cs J) as (lost & E & X). rewrite (X eq_refl) in E. now apply N.
Qed.
(* Goroutines that take turns: nothing is lost. *)
Theorem C156_by_turns : forall V C (T : ftype V C) o css q, f_turns T (f_start o css) q -> f_returned (f_sched T (f_start o css) q) ->
  exists h, merges css h /\ fshown T (f_sched T (f_start o css) q) = fold_left (f_set T) (map snd h) o.
Proof.
  intros V C T o css q Tn R. destruct (turn_run T o css q Tn) as (h & H). exists h. split.
  - split; [apply H|]. intros k es F. destruct (nth_error (fgos (f_sched T (f_start o css) q)) k) as [g|] eqn:G.
    + destruct (t_go _ _ _ _ _ H k g G) as [_ B]. destruct (R g (nth_error_In _ _ G)) as [R1 R2]. specialize (B es F). unfold pending in B. rewrite R1, R2 in B. cbn in B. rewrite app_nil_r in B. now symmetry.
    + apply nth_error_None in G. rewrite (t_len _ _ _ _ _ H) in G. apply nth_error_None in G. congruence.
  - apply H. intros g J. now apply R.
Qed.
(* One call, with nothing in between, is that of each type. *)
Theorem C156_types :
  (forall r x, f_set ip_first r x = ipaddr_set r x) /\
  (forall r x, f_set fqdn_first r x = fqdn_set r x) /\
  (forall r x, f_set sf_first r x = sf_set r x) /\
  (forall r x, f_set af_first r x = af_set r x) /\
  (forall kw r x, MkABTV kw (f_set (pair_first kw) r x) = abtv_set (MkABTV kw r) x) /\
  (forall W r x r', pbr_set W r x = Some r' -> f_set (pbr_first W) r x = r') /\
  (forall sh r x, f_set (dow_first sh) r x = dow_shift sh r x) /\
  (forall r x, f_set ssf_first r x = ssf_set r x) /\
  (forall r x, f_set uri_first r x = Some (uri_set (match r with Some u => u | None => uri_new end) x)) /\
  (forall r x, f_set tod_first r x = tod_set r x).
Proof.
  split; [|split; [|split; [|split; [|split; [|split; [|split; [|split; [|split]]]]]]]]; try (intros [r|] x; reflexivity).
  - intros kw [r|] x; unfold f_set, abtv_set, abtv_isZero; cbn; [|reflexivity]. now destruct (kw =? 0)%N.
  - intros W r x r'. unfold pbr_set, f_set. cbn [fzero fempty fupd pbr_first]. destruct r as [v|]; cbn [pbr_isZero].
    + destruct (_ && _)%bool; intros E; (destruct (pbrec_set _ _ _); [now injection E|discriminate E]).
    + intros E. (destruct (pbrec_set _ _ _); [now injection E|discriminate E]).
  - intros sh [r|] x; reflexivity.
Qed.
(* Claims that are false of the code.  A call that has returned can be lost, whatever the
   calls: the value shows the other call alone. *)
Theorem C156_lost : forall V C (T : ftype V C) c c', exists a b,
  let at_ q := f_sched T (f_start None [[c]; [c']]) q in
  (exists g, nth_error (fgos (at_ a)) 0 = Some g /\ fcalls g = [] /\ fat g = FOff) /\ fshown T (at_ a) = Some (fupd T (fempty T) c) /\
  f_returned (at_ (a ++ b)) /\ fshown T (at_ (a ++ b)) = Some (fupd T (fempty T) c').
Proof.
  intros V C [hw e r z u] c c'. destruct hw.
  - exists [0; 1; 0; 0; 0], [1; 1; 1]. cbn. split; [eauto|]. split; [reflexivity|]. split; [|reflexivity]. intros g [<-|[<-|[]]]; now split.
  - exists [0; 1; 0; 0; 0; 0], [1; 1; 1; 1]. cbn. split; [eauto|]. split; [reflexivity|]. split; [|reflexivity]. intros g [<-|[<-|[]]]; now split.
  - exists [0; 1; 0], [1]. cbn. split; [eauto|]. split; [reflexivity|]. split; [|reflexivity]. intros g [<-|[<-|[]]]; now split.
Qed.
(* A strength set by a call that began when the variable was no longer nil can be lost, too. *)
Theorem C156_strength_lost : forall c c', let at_ q := f_sched ssf_first (f_start None [[c]; [c']]) q in
  fshown ssf_first (at_ [0; 0]) = Some None /\
  (exists g, nth_error (fgos (at_ [0; 0])) 1 = Some g /\ fcalls g = [c'] /\ fat g = FOff) /\
  (exists g, nth_error (fgos (at_ [0; 0; 1; 1; 1])) 1 = Some g /\ fcalls g = [] /\ fat g = FOff) /\
  fshown ssf_first (at_ [0; 0; 1; 1; 1]) = Some (ssf_set_inner None c') /\
  f_returned (at_ [0; 0; 1; 1; 1; 0; 0; 0]) /\ fshown ssf_first (at_ [0; 0; 1; 1; 1; 0; 0; 0]) = Some (ssf_set_inner (Some 0%N) c).
Proof.
  intros c c'. cbv zeta. cbn. split; [reflexivity|]. split; [eauto|]. split; [eauto|]. split; [reflexivity|]. split; [|reflexivity]. intros g [<-|[<-|[]]]; now split.
Qed.
Lemma two_merges {E} (c c' : E) h : merges [[c]; [c']] h -> h = [(0, c); (1, c')] \/ h = [(1, c'); (0, c)].
Proof.
  intros [L M]. pose proof (M 0 [c] eq_refl) as M0. pose proof (M 1 [c'] eq_refl) as M1.
  destruct h as [|[k x] h]; [discriminate M0|]. pose proof (L k x ltac:(now left)) as L1. cbn in L1.
  destruct k as [|[|k]]; [| |lia]; cbn in M0, M1.
  - injection M0 as -> M0. destruct h as [|[k y] h]; [discriminate M1|]. pose proof (L k y ltac:(right; now left)) as L2. cbn in L2.
    destruct k as [|[|k]]; [discriminate M0| |lia]. cbn in M0, M1. injection M1 as -> M1. destruct h as [|[k z] h]; [now left|]. pose proof (L k z ltac:(right; right; now left)) as L3. cbn in L3.
    destruct k as [|[|k]]; [discriminate M0|discriminate M1|lia].
  - injection M1 as -> M1. destruct h as [|[k y] h]; [discriminate M0|]. pose proof (L k y ltac:(right; now left)) as L2. cbn in L2.
    destruct k as [|[|k]]; [|discriminate M1|lia]. cbn in M0, M1. injection M0 as -> M0. destruct h as [|[k z] h]; [now right|]. pose proof (L k z ltac:(right; right; now left)) as L3. cbn in L3.
    destruct k as [|[|k]]; [discriminate M0|discriminate M1|lia].
Qed.
Lemma lost_refutes V C (T : ftype V C) c c' : fold_left (f_set T) [c; c'] None <> Some (fupd T (fempty T) c') -> fold_left (f_set T) [c'; c] None <> Some (fupd T (fempty T) c') ->
  ~ (forall css q, f_returned (f_sched T (f_start None css) q) -> exists h, merges css h /\ fshown T (f_sched T (f_start None css) q) = fold_left (f_set T) (map snd h) None).
Proof.
  intros N1 N2 K. destruct (C156_lost V C T c c') as (a & b & _ & _ & R & S). destruct (K _ _ R) as (h & M & E). rewrite S in E.
  apply two_merges in M as [-> | ->]; cbn [map snd] in E; congruence.
Qed.
(* So no order of the calls gives the result. *)
Theorem C156_refuted :
  let all_kept V C (T : ftype V C) := forall css q, f_returned (f_sched T (f_start None css) q) ->
    exists h, merges css h /\ fshown T (f_sched T (f_start None css) q) = fold_left (f_set T) (map snd h) None in
  ~ all_kept _ _ ip_first /\ ~ all_kept _ _ fqdn_first /\ ~ all_kept _ _ af_first /\ ~ all_kept _ _ (pair_first BindUAT) /\ ~ all_kept _ _ uri_first.
Proof.
  cbv zeta. repeat split.
  - apply (lost_refutes _ _ ip_first ["10.0.0.1"%string] ["10.0.0.2"%string]); vm_compute; discriminate.
  - apply (lost_refutes _ _ fqdn_first ["www"%string] ["example"%string]); vm_compute; discriminate.
  - apply (lost_refutes _ _ af_first [FStr "cn"%string] [FStr "(cn=a)"%string]); vm_compute; discriminate.
  - apply (lost_refutes _ _ (pair_first BindUAT) [BAT (Some "cn"%string)] [BAV (Some "x"%string)]); vm_compute; discriminate.
  - apply (lost_refutes _ _ uri_first [UScope 1] [UFilter (Some "(cn=a)"%string)]); vm_compute; discriminate.
Qed.
(* A list made by IP, two goroutines in the middle of each other's calls. *)
Example C155_witness : let css := [[["10.0.0.1"]; ["10.0.0.2"]]; [["10.0.0.3"]]]%string in let v := ["10.0.0.9"]%string in
  let q := [0; 1; 0; 1; 0; 1; 0; 0; 0] in f_holds ip_first v css /\ f_returned (f_sched ip_first (f_start (Some v) css) q) /\
  fshown ip_first (f_sched ip_first (f_start (Some v) css) q) = Some ["10.0.0.9"; "10.0.0.1"; "10.0.0.3"; "10.0.0.2"]%string /\
  (* and a variable that was nil, set by one call before the others begin *)
  let st := f_sched ip_first (f_start None css) [0; 0; 0; 0] in
  f_quiet st /\ fshown ip_first st = Some ["10.0.0.1"]%string /\ f_holds ip_first ["10.0.0.1"]%string (map fcalls (fgos st)) /\
  map fcalls (fgos st) = [[["10.0.0.2"]]; [["10.0.0.3"]]]%string.
Proof.
  cbv zeta. split; [split; reflexivity|]. split; [intros g J; vm_compute in J; destruct J as [<-|[<-|[]]]; now split|]. split; [vm_compute; reflexivity|].
  split; [intros g J; vm_compute in J; destruct J as [<-|[<-|[]]]; reflexivity|]. split; [vm_compute; reflexivity|]. split; [split; reflexivity|vm_compute; reflexivity].
Qed.
(* A nil variable: the first call of goroutine 0 is lost, the last calls of both are there; and
   goroutines that take turns. *)
Example C156_witness : let css := [[["10.0.0.1"]; ["10.0.0.2"]]; [["10.0.0.3"]]]%string in
  let q := [0; 1; 0; 0; 0; 1; 0; 0; 0; 1; 1] in
  f_returned (f_sched ip_first (f_start None css) q) /\
  fshown ip_first (f_sched ip_first (f_start None css) q) = Some ["10.0.0.2"; "10.0.0.3"]%string /\
  let css := [[["10.0.0.1"]]; [["10.0.0.3"]]]%string in let q := [0; 0; 0; 0; 1; 1; 1] in
  f_turns ip_first (f_start None css) q /\ f_returned (f_sched ip_first (f_start None css) q) /\
  fshown ip_first (f_sched ip_first (f_start None css) q) = Some ["10.0.0.1"; "10.0.0.3"]%string.
Proof.
  cbv zeta. split; [intros g J; vm_compute in J; destruct J as [<-|[<-|[]]]; now split|]. split; [vm_compute; reflexivity|]. split.
  - intros a b E i j gi gj. assert (A : exists n, (n <= 7)%nat /\ a = firstn n [0; 0; 0; 0; 1; 1; 1]).
    { exists (List.length a). rewrite E. split; [apply (f_equal (@List.length nat)) in E; rewrite app_length in E; cbn in E; lia|]. rewrite firstn_app, Nat.sub_diag, firstn_all. symmetry. apply app_nil_r. }
    destruct A as (n & L & ->). clear E.
    do 8 (destruct n as [|n]; [destruct i as [|[|i]], j as [|[|j]]; cbn; try (destruct i; discriminate); try (intros _ _; destruct j; discriminate);
      intros [= <-] N1 [= <-] N2; try reflexivity; exfalso; cbn in N1, N2; try (now apply N1); now apply N2|]). lia.
  - split; [intros g J; vm_compute in J; destruct J as [<-|[<-|[]]]; now split|vm_compute; reflexivity].
Qed.
Print Assumptions C155_kept.
Print Assumptions C155_made.
Print Assumptions C156_ends.
Print Assumptions C156_by_turns.
Print Assumptions C156_types.
Print Assumptions C156_lost.
Print Assumptions C156_strength_lost.
Print Assumptions C156_refuted.
