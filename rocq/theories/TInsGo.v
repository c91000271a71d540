(* C173: goroutines that set and print one instruction. *)
From Coq Require Import String List PeanoNat Bool Lia.
From Verif Require Import GoStr MHeap MInsGo SInsGo PWhole PDrain.
Import ListNotations.
Open Scope list_scope.
Open Scope nat_scope.

Lemma prefix_refl {A} (a : list A) : prefix_of a a.
Proof. exists []. now rewrite app_nil_r. Qed.
Lemma prefix_trans {A} (a b c : list A) : prefix_of a b -> prefix_of b c -> prefix_of a c.
Proof. intros [x ->] [y ->]. exists (x ++ y). now rewrite app_assoc. Qed.
Lemma prefix_add {A} (a : list A) x (b : bool) : prefix_of a (if b then a ++ [x] else a).
Proof. destruct b; [now exists [x]|apply prefix_refl]. Qed.
Lemma label_arg w v x : i_arg w v (IL x) = if (0 <? String.length x) && (String.length (ilab v) =? 0) then MkIi x (itrs v) (ipbs v) else v.
Proof. unfold i_arg. destruct (ilab v), x; reflexivity. Qed.

Section World.
Variable w : ipol.
Notation sched := (i_sched w).
Lemma i_app st a b : sched st (a ++ b) = sched (sched st a) b.
Proof. apply fold_left_app. Qed.
Lemma i_snoc st a i : sched st (a ++ [i]) = i_step w (sched st a) i.
Proof. now rewrite i_app. Qed.
Lemma i_step_go st i g0 : nth_error (igos st) i = Some g0 ->
  inow (i_step w st i) = fst (i_gstep w (inow st) g0) /\ nth_error (igos (i_step w st i)) i = Some (snd (i_gstep w (inow st) g0)) /\
  forall j, j <> i -> nth_error (igos (i_step w st i)) j = nth_error (igos st) j.
Proof.
  intros E. unfold i_step. rewrite E. destruct (i_gstep w (inow st) g0) as [v g']. cbn [inow igos fst snd].
  split; [reflexivity|]. split; [apply wr_same; apply nth_error_Some; congruence|]. intros j J. now apply wr_other.
Qed.
Lemma i_step_none st i : nth_error (igos st) i = None -> i_step w st i = st.
Proof. intros E. unfold i_step. now rewrite E. Qed.
Lemma i_step_len st i : List.length (igos (i_step w st i)) = List.length (igos st).
Proof.
  unfold i_step. destruct (nth_error (igos st) i) as [g|]; [|reflexivity].
  destruct (i_gstep w (inow st) g) as [v g']. cbn [igos]. apply wr_len.
Qed.
Lemma i_start_at v css i g : nth_error (igos (i_start v css)) i = Some g -> exists cs, nth_error css i = Some cs /\ g = MkIg cs IIdle [].
Proof. cbn. rewrite nth_error_map. destruct (nth_error css i) as [cs|]; [|discriminate]. intros [= <-]. now exists cs. Qed.

(* ---- rules are only added ---- *)
Lemma i_grow_step st i : prefix_of (itrs (inow st)) (itrs (inow (i_step w st i))) /\ prefix_of (ipbs (inow st)) (ipbs (inow (i_step w st i))).
Proof.
  destruct (nth_error (igos st) i) as [g|] eqn:E; [|rewrite i_step_none by assumption; split; apply prefix_refl].
  destruct (i_step_go st i g E) as (-> & _ & _). unfold i_gstep. destruct (iph g) as [|[|[x|t|p] xs]|x xs|l|l ts]; cbn [fst itrs ipbs]; try (split; apply prefix_refl).
  - destruct (itodo g) as [|[xs|] cs]; split; apply prefix_refl.
  - split; [apply prefix_add|apply prefix_refl].
  - split; [apply prefix_refl|apply prefix_add].
Qed.
Lemma i_grows st q : prefix_of (itrs (inow st)) (itrs (inow (sched st q))) /\ prefix_of (ipbs (inow st)) (ipbs (inow (sched st q))).
Proof.
  induction q as [|y q IH] using rev_ind; [split; apply prefix_refl|]. rewrite i_snoc. destruct (i_grow_step (sched st q) y) as [A B]. destruct IH as [C D].
  split; eapply prefix_trans; eassumption.
Qed.

Section Start.
Variables (v0 : iins) (css : list (list icall)).
Notation at_ q := (sched (i_start v0 css) q).
(* ---- moments ---- *)
Definition m1 (q : list nat) (i n : nat) (l : string) : Prop :=
  exists a b ga, q = a ++ i :: b /\ nth_error (igos (at_ a)) i = Some ga /\ List.length (ires_of ga) = n /\ iph ga = IIdle /\ l = ilab (inow (at_ a)).
Definition m2 (q : list nat) (i n : nat) (l : string) (ts : list string) : Prop :=
  exists a b ga, q = a ++ i :: b /\ m1 a i n l /\ nth_error (igos (at_ a)) i = Some ga /\ List.length (ires_of ga) = n /\ in_print ga /\ ts = itrs (inow (at_ a)).
Definition m3 (q : list nat) (i n : nat) (l : string) (ts ps : list string) : Prop :=
  exists a b ga, q = a ++ i :: b /\ m2 a i n l ts /\ nth_error (igos (at_ a)) i = Some ga /\ List.length (ires_of ga) = n /\ in_print ga /\ ps = ipbs (inow (at_ a)).
Lemma m1_more q y i n l : m1 q i n l -> m1 (q ++ [y]) i n l.
Proof. intros (a & b & ga & -> & Q). exists a, (b ++ [y]), ga. split; [now rewrite <- app_assoc|assumption]. Qed.
Lemma m2_more q y i n l ts : m2 q i n l ts -> m2 (q ++ [y]) i n l ts.
Proof. intros (a & b & ga & -> & Q). exists a, (b ++ [y]), ga. split; [now rewrite <- app_assoc|assumption]. Qed.
Lemma m3_more q y i n l ts ps : m3 q i n l ts ps -> m3 (q ++ [y]) i n l ts ps.
Proof. intros (a & b & ga & -> & Q). exists a, (b ++ [y]), ga. split; [now rewrite <- app_assoc|assumption]. Qed.
Definition seen (q : list nat) (i : nat) (g : igo) : Prop :=
  (forall n l ts ps, nth_error (ires_of g) n = Some (IText l ts ps) -> m3 q i n l ts ps) /\
  match iph g with ILab l => m1 q i (List.length (ires_of g)) l | ITar l ts => m2 q i (List.length (ires_of g)) l ts | _ => True end.
Lemma moments q : forall i g, nth_error (igos (at_ q)) i = Some g -> seen q i g.
Proof.
  induction q as [|y q IH] using rev_ind; intros i g E.
  - apply i_start_at in E as (cs & _ & ->). split; [intros [|n] l ts ps K; discriminate K|exact I].
  - assert (Stay : forall j h, nth_error (igos (at_ q)) j = Some h -> seen (q ++ [y]) j h).
    { intros j h J. destruct (IH j h J) as [A B]. split; [intros n l ts ps K; now apply m3_more, A|]. destruct (iph h); trivial; [now apply m1_more|now apply m2_more]. }
    rewrite i_snoc in E. destruct (nth_error (igos (at_ q)) y) as [g0|] eqn:Y; [|rewrite i_step_none in E by assumption; now apply Stay].
    destruct (i_step_go _ y g0 Y) as (_ & N & O). destruct (Nat.eq_dec i y) as [->|D]; [|rewrite O in E by assumption; now apply Stay].
    rewrite N in E. injection E as <-. destruct (Stay y g0 Y) as [A B]. destruct (IH y g0 Y) as [_ B0].
    assert (Same : forall td ph, (match ph with ILab l => m1 (q ++ [y]) y (List.length (ires_of g0)) l | ITar l ts => m2 (q ++ [y]) y (List.length (ires_of g0)) l ts | _ => True end) -> seen (q ++ [y]) y (MkIg td ph (ires_of g0))) by (intros td ph H; now split).
    assert (Add : forall td r, (forall l ts ps, r = IText l ts ps -> m3 (q ++ [y]) y (List.length (ires_of g0)) l ts ps) -> seen (q ++ [y]) y (MkIg td IIdle (ires_of g0 ++ [r]))).
    { intros td r H. split; [|exact I]. cbn [ires_of]. intros n l ts ps K. destruct (Nat.lt_ge_cases n (List.length (ires_of g0))) as [L|L]; [rewrite nth_error_app1 in K by assumption; now apply A|].
      rewrite nth_error_app2 in K by assumption. destruct (n - List.length (ires_of g0)) as [|m] eqn:Z; [|destruct m; discriminate K]. replace n with (List.length (ires_of g0)) by lia. apply H. now injection K. }
    unfold i_gstep. destruct (iph g0) as [|[|[x|t|p] xs]|x xs|l|l ts] eqn:Ph; cbn [snd].
    + destruct (itodo g0) as [|[xs|] cs] eqn:T; cbn [snd]; [now split; [|rewrite Ph]|now apply Same|]. apply Same. exists q, [], g0. now repeat split.
    + now apply Add.
    + apply Same. now destruct ((0 <? String.length x) && (String.length (ilab (inow (at_ q))) =? 0)).
    + now apply Same.
    + now apply Same.
    + now apply Same.
    + apply Same. exists q, [], g0. unfold in_print. rewrite Ph. now repeat split.
    + apply Add. intros l' ts' ps' [= <- <- <-]. exists q, [], g0. unfold in_print. rewrite Ph. now repeat split.
Qed.
(* ---- what is given ---- *)
Definition from (v : iins) : Prop :=
  (ilab v = ilab v0 \/ i_given css (IL (ilab v))) /\ (forall t, In t (itrs v) -> In t (itrs v0) \/ i_given css (IT t)) /\ (forall p, In p (ipbs v) -> In p (ipbs v0) \/ i_given css (IP p)).
Definition brings (g : igo) : Prop := (exists cs a, In cs css /\ cs = a ++ itodo g) /\
  match iph g with ISetting xs => forall a, In a xs -> i_given css a | IWriting x xs => forall a, In a (IL x :: xs) -> i_given css a | _ => True end.
Lemma from_run q : from (inow (at_ q)) /\ forall j g, nth_error (igos (at_ q)) j = Some g -> brings g.
Proof.
  induction q as [|y q IH] using rev_ind.
  - split; [split; [now left|]; split; now left|]. intros j g E. apply i_start_at in E as (cs & E & ->). apply nth_error_In in E. split; [now exists cs, []|exact I].
  - rewrite i_snoc. set (st := at_ q) in *. destruct IH as [F Go]. destruct (nth_error (igos st) y) as [g0|] eqn:Y; [|rewrite i_step_none by assumption; now split].
    destruct (i_step_go st y g0 Y) as (H & N & O). destruct (Go y g0 Y) as [(cs & a & C & A) B].
    assert (Fin : forall v g', i_gstep w (inow st) g0 = (v, g') -> from v -> brings g' -> from (inow (i_step w st y)) /\ forall j g, nth_error (igos (i_step w st y)) j = Some g -> brings g).
    { intros v g' Eq X1 X2. rewrite Eq in H, N. cbn [fst snd] in H, N. split; [now rewrite H|]. intros j g E. destruct (Nat.eq_dec j y) as [->|D]; [rewrite N in E; now injection E as <-|]. rewrite O in E by assumption. now apply (Go j). }
    assert (Td : exists cs a, In cs css /\ cs = a ++ itodo g0) by now exists cs, a.
    destruct F as (F1 & F2 & F3). unfold i_gstep in Fin. destruct (iph g0) as [|[|[x|t|p] xs]|x xs|l|l ts] eqn:Ph.
    + destruct (itodo g0) as [|[xs|] r] eqn:T; (eapply Fin; [reflexivity|now repeat split|]).
      * split; [now rewrite T|now rewrite Ph].
      * split; [exists cs, (a ++ [ISet xs]); split; [assumption|now rewrite <- app_assoc]|]. cbn. intros b J. exists cs, xs. split; [assumption|]. split; [rewrite A; apply in_or_app; right; now left|assumption].
      * split; [exists cs, (a ++ [IString]); split; [assumption|now rewrite <- app_assoc]|exact I].
    + eapply Fin; [reflexivity|now repeat split|]. now split.
    + eapply Fin; [reflexivity|now repeat split|]. split; [assumption|]. cbn [iph]. destruct ((0 <? String.length x) && (String.length (ilab (inow st)) =? 0)); [exact B|]. intros b J. apply B. now right.
    + eapply Fin; [reflexivity| |split; [assumption|]; cbn; intros b J; apply B; now right]. split; [assumption|]. split; [|assumption]. cbn [itrs]. intros u K. destruct (takeT w (itrs (inow st)) t); [|now apply F2].
      apply in_app_or in K as [K|[<-|[]]]; [now apply F2|]. right. apply B. now left.
    + eapply Fin; [reflexivity| |split; [assumption|]; cbn; intros b J; apply B; now right]. split; [assumption|]. split; [assumption|]. cbn [ipbs]. intros u K. destruct (takeP w (ipbs (inow st)) p); [|now apply F3].
      apply in_app_or in K as [K|[<-|[]]]; [now apply F3|]. right. apply B. now left.
    + eapply Fin; [reflexivity| |split; [assumption|]; cbn; intros b J; apply B; now right]. split; [right; apply B; now left|]. now split.
    + eapply Fin; [reflexivity|now repeat split|]. now split.
    + eapply Fin; [reflexivity|now repeat split|]. now split.
Qed.
(* ---- a call that begins after a moment ---- *)
Definition between (a : list nat) (st : istate) (ts ps : list string) : Prop :=
  (prefix_of (itrs (inow (at_ a))) ts /\ prefix_of ts (itrs (inow st))) /\ prefix_of (ipbs (inow (at_ a))) ps /\ prefix_of ps (ipbs (inow st)).
Lemma begun a b i ga : nth_error (igos (at_ a)) i = Some ga -> iph ga = IIdle -> exists g new, nth_error (igos (at_ (a ++ b))) i = Some g /\ ires_of g = ires_of ga ++ new /\
  (forall l ts ps, In (IText l ts ps) new -> between a (at_ (a ++ b)) ts ps) /\
  match iph g with ITar _ ts => prefix_of (itrs (inow (at_ a))) ts /\ prefix_of ts (itrs (inow (at_ (a ++ b)))) | _ => True end.
Proof.
  intros Ea Pa. induction b as [|y b IH] using rev_ind.
  - rewrite app_nil_r. exists ga, []. split; [assumption|]. split; [now rewrite app_nil_r|]. split; [intros l ts ps []|now rewrite Pa].
  - destruct IH as (g & new & E & R & Nw & Pg). rewrite app_assoc, i_snoc. assert (Gr := i_grow_step (at_ (a ++ b)) y). assert (Ga : prefix_of (itrs (inow (at_ a))) (itrs (inow (at_ (a ++ b)))) /\ prefix_of (ipbs (inow (at_ a))) (ipbs (inow (at_ (a ++ b))))) by (rewrite i_app; apply i_grows).
    set (st := at_ (a ++ b)) in *. destruct Gr as [G1 G2]. destruct Ga as [A1 A2].
    assert (Up : forall ts ps, between a st ts ps -> between a (i_step w st y) ts ps) by (intros ts ps ((X1 & X2) & X3 & X4); repeat split; trivial; eapply prefix_trans; eassumption).
    assert (Nw' : forall l ts ps, In (IText l ts ps) new -> between a (i_step w st y) ts ps) by (intros l ts ps K; now apply Up, (Nw l)).
    destruct (nth_error (igos st) y) as [g0|] eqn:Y; [|rewrite i_step_none by assumption; now exists g, new].
    destruct (i_step_go st y g0 Y) as (_ & N & O). destruct (Nat.eq_dec i y) as [->|D].
    + assert (g0 = g) as -> by congruence. unfold i_gstep in N. destruct (iph g) as [|[|[x|t|p] xs]|x xs|l|l ts] eqn:Ph; cbn [snd] in N.
      * destruct (itodo g) as [|[xs|] cs] eqn:T; cbn [snd] in N; eexists _, new; (split; [exact N|]); (split; [exact R|]); (split; [exact Nw'|]); [now rewrite Ph|exact I|exact I].
      * eexists _, (new ++ [IDone]). split; [exact N|]. cbn [ires_of iph]. split; [now rewrite R, app_assoc|]. split; [|exact I]. intros l ts ps K. apply in_app_or in K as [K|[K|[]]]; [now apply (Nw' l)|discriminate K].
      * eexists _, new. split; [exact N|]. split; [exact R|]. split; [exact Nw'|]. cbn [iph]. now destruct ((0 <? String.length x) && (String.length (ilab (inow st)) =? 0)).
      * eexists _, new. split; [exact N|]. split; [exact R|]. split; [exact Nw'|exact I].
      * eexists _, new. split; [exact N|]. split; [exact R|]. split; [exact Nw'|exact I].
      * eexists _, new. split; [exact N|]. split; [exact R|]. split; [exact Nw'|exact I].
      * eexists _, new. split; [exact N|]. split; [exact R|]. split; [exact Nw'|]. cbn. now split.
      * eexists _, (new ++ [_]). split; [exact N|]. cbn [ires_of iph]. split; [now rewrite R, app_assoc|]. split; [|exact I]. intros l' ts' ps' K. apply in_app_or in K as [K|[K|[]]]; [now apply (Nw' l')|].
        injection K as <- <- <-. destruct Pg as [P1 P2]. split; [split; [assumption|]; eapply prefix_trans; eassumption|]. now split.
    + exists g, new. rewrite O by assumption. split; [assumption|]. split; [assumption|]. split; [assumption|]. destruct (iph g); trivial. destruct Pg as [P1 P2]. split; [assumption|]. eapply prefix_trans; eassumption.
Qed.
(* ---- one goroutine that calls Set ---- *)
Section Sole.
Variables (i : nat) (cs : list icall).
Hypothesis Hi : nth_error css i = Some cs.
Hypothesis Ho : forall j cs', j <> i -> nth_error css j = Some cs' -> forall c, In c cs' -> c = IString.
Definition icur (v : iins) (g : igo) : iins :=
  match iph g with ISetting xs => i_args w v xs | IWriting x xs => i_args w (MkIi x (itrs v) (ipbs v)) xs | _ => v end.
Definition ipend (v : iins) (g : igo) : list iins := match iph g with ILab _ | ITar _ _ => [v] | _ => [] end.
Definition iread (v : iins) (g : igo) : Prop := match iph g with ILab l => l = ilab v | ITar l ts => l = ilab v /\ ts = itrs v | _ => True end.
Definition igoes (st : istate) : Prop :=
  (exists g, nth_error (igos st) i = Some g /\ iread (inow st) g /\ i_said g ++ ipend (inow st) g ++ i_alone w (icur (inow st) g) (itodo g) = i_alone w v0 cs /\ i_left w (icur (inow st) g) (itodo g) = i_left w v0 cs) /\
  forall j g, j <> i -> nth_error (igos st) j = Some g -> (exists cs' a, nth_error css j = Some cs' /\ cs' = a ++ itodo g) /\ match iph g with ISetting _ | IWriting _ _ => False | _ => True end.
Lemma isaid_snoc td ph r x : i_said (MkIg td ph (r ++ [x])) = i_said (MkIg td ph r) ++ match x with IText l ts ps => [MkIi l ts ps] | IDone => [] end.
Proof. unfold i_said. cbn [ires_of]. rewrite flat_map_app. cbn [flat_map]. now rewrite app_nil_r. Qed.
Lemma igoes_run q : igoes (at_ q).
Proof.
  induction q as [|y q IH] using rev_ind.
  - split.
    + exists (MkIg cs IIdle []). split; [cbn; now rewrite nth_error_map, Hi|]. split; [exact I|]. now split.
    + intros j g D E. apply i_start_at in E as (c & E & ->). split; [now exists c, []|exact I].
  - rewrite i_snoc. set (st := at_ q) in *. destruct IH as [(g & E & H & R & L) Oth].
    destruct (nth_error (igos st) y) as [g0|] eqn:Y; [|rewrite i_step_none by assumption; split; [now exists g|assumption]].
    destruct (i_step_go st y g0 Y) as (V & N & O). destruct (Nat.eq_dec y i) as [->|D].
    + assert (g0 = g) as -> by congruence. split; [|intros j h D; rewrite O by assumption; now apply Oth].
      assert (Tx : forall td ph, i_said (MkIg td ph (ires_of g)) = i_said g) by reflexivity.
      assert (Tg : forall td ph x, i_said (MkIg td ph (ires_of g ++ [x])) = i_said g ++ match x with IText l ts ps => [MkIi l ts ps] | IDone => [] end) by (intros; now rewrite isaid_snoc, Tx).
      eexists. split; [exact N|]. rewrite V. clear V N. unfold iread, icur, ipend in H, R, L |- *. unfold i_gstep.
      destruct (iph g) as [|[|a xs]|x xs|l|l ts] eqn:Ph; cbn [app] in R.
      * destruct (itodo g) as [|[xs|] r] eqn:T; cbn [fst snd iph itodo].
        -- rewrite Ph, T. now repeat split.
        -- rewrite Tx. now repeat split.
        -- rewrite Tx. now repeat split.
      * cbn [fst snd iph itodo]. rewrite Tg, app_nil_r. now repeat split.
      * unfold i_args in R, L |- *. cbn [fold_left] in R, L. destruct a as [x|t|p]; cbn [fst snd iph itodo]; rewrite ?Tx.
        -- rewrite label_arg in R, L. destruct ((0 <? String.length x) && (String.length (ilab (inow st)) =? 0)); cbn [iph]; now repeat split.
        -- now repeat split.
        -- now repeat split.
      * cbn [fst snd iph itodo]. rewrite Tx. now repeat split.
      * cbn [fst snd iph itodo]. rewrite Tx. now repeat split.
      * destruct H as [-> ->]. cbn [fst snd iph itodo]. rewrite Tg, <- app_assoc. destruct (inow st). now repeat split.
    + destruct (Oth y g0 D Y) as [(cs' & a & A & B) P0].
      assert (K : inow (i_step w st y) = inow st /\ exists g', nth_error (igos (i_step w st y)) y = Some g' /\ (exists cs' a, nth_error css y = Some cs' /\ cs' = a ++ itodo g') /\ match iph g' with ISetting _ | IWriting _ _ => False | _ => True end).
      { unfold i_gstep in V, N. destruct (iph g0) as [|xs|x xs|l|l ts] eqn:Ph; try contradiction.
        - destruct (itodo g0) as [|[x|] r] eqn:T.
          + split; [exact V|]. eexists. split; [exact N|]. cbn [snd]. rewrite T, Ph. split; [now exists cs', a|exact I].
          + assert (Q : ISet x = IString) by (apply (Ho y cs' D A); rewrite B; apply in_or_app; right; now left). discriminate Q.
          + split; [exact V|]. eexists. split; [exact N|]. cbn [snd iph itodo]. split; [exists cs', (a ++ [IString]); split; [assumption|now rewrite <- app_assoc]|exact I].
        - split; [exact V|]. eexists. split; [exact N|]. split; [now exists cs', a|exact I].
        - split; [exact V|]. eexists. split; [exact N|]. split; [now exists cs', a|exact I]. }
      destruct K as (K1 & g' & G' & G1 & G2). split.
      * exists g. rewrite O by (intros X; now apply D). rewrite K1. now repeat split.
      * intros j h Dj J. destruct (Nat.eq_dec j y) as [->|D2]; [assert (h = g') as -> by congruence; now split|]. rewrite O in J by assumption. now apply (Oth j).
Qed.
End Sole.
End Start.
End World.
(* Rules are only added; label and rules are those of the start or were given. *)
Theorem C173_grow : forall w v css q q', let at_ q := inow (i_sched w (i_start v css) q) in
  prefix_of (itrs (at_ q)) (itrs (at_ (q ++ q'))) /\ prefix_of (ipbs (at_ q)) (ipbs (at_ (q ++ q'))).
Proof. intros w v css q q' at_. unfold at_. rewrite i_app. apply i_grows. Qed.
Theorem C173_given : forall w v css q, let now := inow (i_sched w (i_start v css) q) in
  (ilab now = ilab v \/ i_given css (IL (ilab now))) /\ (forall t, In t (itrs now) -> In t (itrs v) \/ i_given css (IT t)) /\ (forall p, In p (ipbs now) -> In p (ipbs v) \/ i_given css (IP p)).
Proof. intros w v css q. apply (from_run w v css q). Qed.
(* String prints the label of the moment it begins, the target rules of a later moment of the
   call and the permission-bind rules of a still later one. *)
Theorem C173_moments : forall w v css q i g n l ts ps, let at_ q := i_sched w (i_start v css) q in
  nth_error (igos (at_ q)) i = Some g -> nth_error (ires_of g) n = Some (IText l ts ps) ->
  exists a b c d ga gb gc, q = a ++ i :: b ++ i :: c ++ i :: d /\
    nth_error (igos (at_ a)) i = Some ga /\ List.length (ires_of ga) = n /\ iph ga = IIdle /\ l = ilab (inow (at_ a)) /\
    nth_error (igos (at_ (a ++ i :: b))) i = Some gb /\ List.length (ires_of gb) = n /\ in_print gb /\ ts = itrs (inow (at_ (a ++ i :: b))) /\
    nth_error (igos (at_ (a ++ i :: b ++ i :: c))) i = Some gc /\ List.length (ires_of gc) = n /\ in_print gc /\ ps = ipbs (inow (at_ (a ++ i :: b ++ i :: c))).
Proof.
  intros w v css q i g n l ts ps at_ E K. destruct (moments w v css q i g E) as [M _]. destruct (M n l ts ps K) as (q3 & d & gc & -> & (q2 & c & gb & -> & (a & b & ga & -> & A) & B) & C).
  assert (Q : (a ++ i :: b) ++ i :: c = a ++ i :: b ++ i :: c) by now rewrite <- app_assoc. rewrite Q in C.
  exists a, b, c, d, ga, gb, gc. split; [rewrite <- !app_assoc; cbn [app]; rewrite <- ?app_assoc; reflexivity|]. unfold at_. destruct A as (A1 & A2 & A3 & A4), B as (B1 & B2 & B3 & B4), C as (C1 & C2 & C3 & C4). now repeat split.
Qed.
(* A call of String that begins after a moment prints all rules of that moment, in their order,
   and only rules that are there when it returns. *)
Theorem C173_begun : forall w v css a b i ga g, let at_ q := i_sched w (i_start v css) q in
  nth_error (igos (at_ a)) i = Some ga -> iph ga = IIdle -> nth_error (igos (at_ (a ++ b))) i = Some g ->
  exists new, ires_of g = ires_of ga ++ new /\ forall l ts ps, In (IText l ts ps) new ->
    (prefix_of (itrs (inow (at_ a))) ts /\ prefix_of ts (itrs (inow (at_ (a ++ b))))) /\ prefix_of (ipbs (inow (at_ a))) ps /\ prefix_of ps (ipbs (inow (at_ (a ++ b)))).
Proof.
  intros w v css a b i ga g at_ Ea Pa E. destruct (begun w v css a b i ga Ea Pa) as (g' & new & E' & R & Nw & _). assert (g' = g) as -> by (unfold at_ in E; congruence). now exists new.
Qed.
(* When one goroutine calls Set and the others do not, its own calls of String print what they
   would if it were alone, and the instruction is in the end what its calls leave. *)
Theorem C173_sole : forall w v css i cs g q, nth_error css i = Some cs ->
  (forall j cs', j <> i -> nth_error css j = Some cs' -> forall c, In c cs' -> c = IString) ->
  let st := i_sched w (i_start v css) q in nth_error (igos st) i = Some g -> i_returned g -> i_said g = i_alone w v cs /\ inow st = i_left w v cs.
Proof.
  intros w v css i cs g q Ei Ot st Eg [T P]. destruct (igoes_run w v css i cs Ei Ot q) as [(g' & E & _ & R & L) _]. fold st in E, R, L. assert (g' = g) as -> by congruence.
  unfold ipend, icur in R, L. rewrite P, T in R, L. cbn in R, L. rewrite app_nil_r in R. now split.
Qed.
Theorem C173_returns : forall w v css q, exists q', forall g, In g (igos (i_sched w (i_start v css) (q ++ q'))) -> i_returned g.
Proof.
  intros w v css q.
  set (left := fun g => match iph g with IIdle => 0 | ISetting xs => 1 + 2 * List.length xs | IWriting _ xs => 2 + 2 * List.length xs | ILab _ => 2 | ITar _ _ => 1 end).
  destruct (drain istate igo igos (i_step w) i_returned (fun g => List.length (itodo g)) (fun _ g => left g)) with (s := i_sched w (i_start v css) q) as [q' Q].
  - apply i_step_len.
  - intros st i j D. destruct (nth_error (igos st) i) as [g0|] eqn:E; [now apply (i_step_go w _ _ _ E)|now rewrite i_step_none].
  - intros st i g E. destruct (i_step_go w st i g E) as (_ & N & _). unfold i_gstep in N. unfold left. destruct (iph g) as [|[|[x|t|p] xs]|x xs|l|l ts] eqn:P.
    + destruct (itodo g) as [|[xs|] cs] eqn:T; [left; now split| |]; right; eexists; (split; [exact N|]); left; cbn; lia.
    + right. eexists. split; [exact N|]. right. cbn. lia.
    + right. eexists. split; [exact N|]. right. cbn [snd iph itodo List.length]. destruct ((0 <? String.length x) && (String.length (ilab (inow st)) =? 0)); lia.
    + right. eexists. split; [exact N|]. right. cbn. lia.
    + right. eexists. split; [exact N|]. right. cbn. lia.
    + right. eexists. split; [exact N|]. right. cbn. lia.
    + right. eexists. split; [exact N|]. right. cbn. lia.
    + right. eexists. split; [exact N|]. right. cbn. lia.
  - exists q'. rewrite i_app. exact Q.
Qed.
Print Assumptions C173_grow.
Print Assumptions C173_given.
Print Assumptions C173_moments.
Print Assumptions C173_begun.
Print Assumptions C173_sole.
Print Assumptions C173_returns.
