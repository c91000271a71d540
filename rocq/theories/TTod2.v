(* C165 and C166: one goroutine that sets a TimeOfDay variable; what Set returns. *)
From Coq Require Import String List PeanoNat NArith Bool Lia.
From Verif Require Import GoStr MTime MHeap MTod STod PWhole TTod.
Import ListNotations.
Open Scope list_scope.

Local Notation sched := t_sched.

Section Sole.
Variables (t : tod) (css : list (list tcall)) (i : nat) (cs : list tcall).
Hypothesis Hi : nth_error css i = Some cs.
Hypothesis Ho : forall j cs', j <> i -> nth_error css j = Some cs' -> forall c, In c cs' -> c = TString.
Definition cur (st : tstate) (g : tgo) : tod :=
  match tph g with TByte0 n _ | TByte1 n _ => Some n | TAssign p => time_at (theap st) (Some p) | _ => t_time st end.
Definition pend (st : tstate) (g : tgo) : list (tod + string) :=
  match tph g with
  | TIdle => []
  | TByte0 _ _ | TByte1 _ _ | TAssign _ | TResult => [inl (cur st g)]
  | TRead0 p | TRead1 p _ => [inr (tod_string (time_at (theap st) (Some p)))]
  end.
Definition goes (st : tstate) : Prop :=
  (exists g, nth_error (tgos st) i = Some g /\ t_results st g ++ pend st g ++ t_alone (cur st g) (ttodo g) = t_alone t cs /\ t_left (cur st g) (ttodo g) = t_left t cs) /\
  forall j g, j <> i -> nth_error (tgos st) j = Some g -> match tph g with TIdle | TRead0 _ | TRead1 _ _ => True | _ => False end.
Lemma results_same st st' g : inv t css st -> (exists j, nth_error (tgos st) j = Some g) ->
  (forall p, seen st p -> two (theap st') p = two (theap st) p) -> t_results st' g = t_results st g.
Proof.
  intros I [j J] S. unfold t_results. apply map_ext_in. intros [[p|]|s] K; trivial. cbn. rewrite S; trivial. right. exists j, g. split; [assumption|now right].
Qed.
Lemma goes_run q : goes (sched (t_start t css) q).
Proof.
  induction q as [|y q IH] using rev_ind.
  - split.
    + exists (MkTg cs TIdle []). change (sched (t_start t css) []) with (t_start t css). split; [cbn; now rewrite nth_error_map, Hi|].
      assert (T : t_time (t_start t css) = t). { unfold t_time. cbn. destruct t as [n|]; [|reflexivity]. cbn. unfold two. cbn. now rewrite number_bytes. }
      unfold cur. cbn [tph t_results tres_of map pend ttodo app]. now rewrite T.
    + intros j g D E. apply t_start_at in E as (c & _ & ->). exact I.
  - rewrite t_snoc. assert (Iq := inv_run t css q). set (st := sched (t_start t css) q) in *. destruct IH as [(g & E & R & L) Oth].
    assert (Sn := fun p => seen_step t css st y p Iq).
    destruct (nth_error (tgos st) y) as [g0|] eqn:Y; [|rewrite t_step_none by assumption; split; [now exists g|assumption]].
    destruct (t_step_go st y g0 Y) as (H & V & N & O). destruct (Nat.eq_dec y i) as [->|D].
    + (* the goroutine that sets *)
      assert (g0 = g) as -> by congruence. split; [|intros j h D; rewrite O by assumption; now apply Oth].
      eexists. split; [exact N|]. assert (Ph := iv_phase t css st Iq i g E). unfold at_phase in Ph.
      assert (Mk := iv_makes t css st Iq i g). unfold makes in Mk.
      assert (Rs := results_same st (t_step st i) g Iq (ex_intro _ i E) Sn).
      assert (Rs' : forall td ph, t_results (t_step st i) (MkTg td ph (tres_of g)) = t_results st g) by (intros; exact Rs).
      assert (Rs2 : forall td ph r, t_results (t_step st i) (MkTg td ph (tres_of g ++ [r])) = t_results st g ++ t_results (t_step st i) (MkTg td ph [r])).
      { intros. unfold t_results at 1. cbn [tres_of]. rewrite map_app. f_equal. exact Rs. }
      assert (Tt : tvar (t_step st i) = tvar st -> t_time (t_step st i) = t_time st).
      { intros V'. unfold t_time. rewrite V'. destruct (tvar st) as [p|] eqn:Vp; [|reflexivity]. cbn. rewrite Sn; trivial. now left. }
      unfold t_gstep in *. unfold pend, cur in R, L. unfold pend, cur.
      destruct (tph g) as [|n p|n p|p| |p|p b] eqn:P; cbn [fst snd] in *.
      * destruct (ttodo g) as [|[x|] r] eqn:T; cbn [fst snd] in *.
        -- rewrite P, T, Rs, (Tt V). now split.
        -- cbn [tph ttodo]. rewrite Rs'. now split.
        -- destruct (tvar st) as [p|] eqn:Vp; cbn [tph ttodo].
           ++ rewrite Rs', (Tt V). assert (time_at (theap (t_step st i)) (Some p) = t_time st) as ->. { rewrite <- (Tt V). unfold t_time. now rewrite V. } now split.
           ++ rewrite Rs2, (Tt V), <- app_assoc. cbn. split; [|exact L]. rewrite <- R. cbn. unfold t_time. rewrite Vp. reflexivity.
      * cbn [tph ttodo]. rewrite Rs'. now split.
      * cbn [tph ttodo]. rewrite Rs'. destruct Ph as [_ F]. rewrite H. destruct (Mk p E eq_refl) as [Lp _].
        assert (X : time_at (wr (theap st) p (fst (two (theap st) p), n mod 256))%N (Some p) = Some n). { cbn. rewrite two_same by assumption. rewrite F. now rewrite number_bytes. }
        rewrite X. now split.
      * cbn [tph ttodo]. rewrite Rs'. assert (t_time (t_step st i) = time_at (theap st) (Some p)) as ->. { unfold t_time. now rewrite V, H. } now split.
      * cbn [tph ttodo]. rewrite Rs2, (Tt V), <- app_assoc. split; [|exact L]. rewrite <- R. unfold t_results at 2. cbn [tres_of map app]. repeat f_equal.
        rewrite <- (Tt V). unfold t_time. now rewrite V.
      * cbn [tph ttodo]. rewrite Rs', (Tt V), H. now split.
      * cbn [tph ttodo]. rewrite Rs2, (Tt V), <- app_assoc. split; [|exact L]. rewrite <- R. unfold t_results at 2. cbn [tres_of map app]. repeat f_equal.
        subst b. cbn. now destruct (two (theap st) p).
    + (* one that prints *)
      assert (G0 := Oth y g0 D Y). assert (Td := iv_todo t css st Iq y g0 Y).
      assert (HV : theap (t_step st y) = theap st /\ tvar (t_step st y) = tvar st /\ match tph (snd (t_gstep (theap st) (tvar st) g0)) with TIdle | TRead0 _ | TRead1 _ _ => True | _ => False end).
      { rewrite H, V. unfold t_gstep. destruct (tph g0) eqn:P; try contradiction; [|cbn; now repeat split|cbn; now repeat split].
        destruct (ttodo g0) as [|[x|] r] eqn:T.
        - cbn. rewrite P. now repeat split.
        - destruct Td as (c & a & A & B). discriminate (Ho y c D A (TSet x)). rewrite B. apply in_or_app. right. now left.
        - cbn. destruct (tvar st); now repeat split. }
      destruct HV as (H' & V' & Ph'). split.
      * exists g. rewrite O by (intros X; now apply D). split; [assumption|]. unfold pend, cur, t_results, t_time in *. rewrite H', V'. now split.
      * intros j h Dj J. destruct (Nat.eq_dec j y) as [->|D2]; [rewrite N in J; now injection J as <-|]. rewrite O in J by assumption. now apply (Oth j).
Qed.
End Sole.
(* When one goroutine calls Set and the others only String, each of its calls returns what it
   would if it were alone, and the variable ends with the time its calls leave. *)
Theorem C165_sole : forall t css i cs g q, nth_error css i = Some cs ->
  (forall j cs', j <> i -> nth_error css j = Some cs' -> forall c, In c cs' -> c = TString) ->
  let st := sched (t_start t css) q in t_returned st -> nth_error (tgos st) i = Some g ->
  t_results st g = t_alone t cs /\ t_time st = t_left t cs.
Proof.
  intros t css i cs g q Ei Ot st Rt Eg. destruct (goes_run t css i cs Ei Ot q) as [(g' & E & R & L) _]. fold st in E, R, L.
  assert (g' = g) as -> by congruence. destruct (Rt g (nth_error_In _ _ Eg)) as [T P]. unfold pend, cur in R, L. rewrite P, T in R, L. cbn in R, L. rewrite app_nil_r in R. now split.
Qed.
Print Assumptions C165_sole.

(* ---- C166 ---- *)
Lemma wr_id {A} (h : list A) : forall l c, nth_error h l = Some c -> wr h l c = h.
Proof. induction h as [|x h IH]; intros [|l] c E; cbn in *; [easy|easy|now injection E as ->|]. f_equal. now apply IH. Qed.
(* one Set per goroutine: some goroutine gets the time it gave, and that time is left *)
Definition ones (xs : list targ) : list (list tcall) := map (fun x => [TSet x]) xs.
Section Ones.
Variables (t : tod) (xs : list targ).
Let css := ones xs.
Definition prog1 (st : tstate) (g : tgo) (x : targ) : Prop :=
  match tph g with
  | TIdle => ttodo g = [TSet x] /\ tres_of g = [] \/ ttodo g = [] /\ exists p, tres_of g = [RTime p]
  | TByte0 n _ | TByte1 n _ => ttodo g = [] /\ tres_of g = [] /\ Some n = ToD [x]
  | TAssign p => ttodo g = [] /\ tres_of g = [] /\ time_at (theap st) (Some p) = ToD [x]
  | TResult => ttodo g = [] /\ tres_of g = []
  | _ => False
  end.
Definition lasts (st : tstate) : Prop :=
  exists k g x, nth_error (tgos st) k = Some g /\ nth_error xs k = Some x /\ t_time st = ToD [x] /\
    (tph g = TResult \/ ttodo g = [] /\ tph g = TIdle /\ t_results st g = [inl (ToD [x])]).
Definition ones_inv (st : tstate) : Prop :=
  (forall j g, nth_error (tgos st) j = Some g -> exists x, nth_error xs j = Some x /\ prog1 st g x) /\
  ((forall j g, nth_error (tgos st) j = Some g -> tph g <> TResult /\ tres_of g = []) \/ lasts st) /\
  (forall j g p, nth_error (tgos st) j = Some g -> In (RTime p) (tres_of g) -> exists x, In x xs /\ time_at (theap st) p = ToD [x]).
Lemma ones_run q : ones_inv (sched (t_start t css) q).
Proof.
  induction q as [|y q IH] using rev_ind.
  - split; [|split].
    + intros j g E. apply t_start_at in E as (c & E & ->). unfold css, ones in E. rewrite nth_error_map in E. destruct (nth_error xs j) as [x|]; [|discriminate E].
      injection E as <-. exists x. split; [reflexivity|]. left. now split.
    + left. intros j g E. apply t_start_at in E as (c & E & ->). now split.
    + intros j g p E. apply t_start_at in E as (c & E & ->). intros [].
  - rewrite t_snoc. assert (Iq := inv_run t css q). set (st := sched (t_start t css) q) in *. destruct IH as (Pr & La & Gi).
    assert (Sn := fun p => seen_step t css st y p Iq).
    destruct (nth_error (tgos st) y) as [g0|] eqn:Y; [|rewrite t_step_none by assumption; now repeat split].
    destruct (t_step_go st y g0 Y) as (H & V & N & O).
    destruct (Pr y g0 Y) as (x & X & Px). assert (Ph := iv_phase t css st Iq y g0 Y). unfold at_phase in Ph.
    assert (Mk := fun p => iv_makes t css st Iq y g0 p Y). unfold makes in Mk.
    assert (Keep : forall j g p, j <> y -> nth_error (tgos st) j = Some g -> makes g p -> two (theap (t_step st y)) p = two (theap st) p).
    { intros j g p D J M. destruct (iv_makes t css st Iq j g p J M) as (Lp & _ & _ & Un). rewrite H. unfold t_gstep.
      destruct (tph g0) as [|n r|n r|r| |r|r b] eqn:P0; cbn [fst]; trivial.
      - destruct (ttodo g0) as [|[]]; cbn [fst]; trivial. now apply two_app.
      - apply two_other. intros ->. apply D. symmetry. apply (Un y g0 Y). unfold makes. now rewrite P0.
      - apply two_other. intros ->. apply D. symmetry. apply (Un y g0 Y). unfold makes. now rewrite P0. }
    assert (PrO : forall j g, j <> y -> nth_error (tgos st) j = Some g -> exists z, nth_error xs j = Some z /\ prog1 (t_step st y) g z).
    { intros j g D J. destruct (Pr j g J) as (z & Z & Pz). exists z. split; [assumption|]. unfold prog1 in *. destruct (tph g) as [|n r|n r|r| |r|r b] eqn:Pg; trivial.
      destruct Pz as (A & B & C). split; [assumption|]. split; [assumption|]. cbn. rewrite (Keep j g r); trivial. unfold makes. now rewrite Pg. }
    assert (Tt : tvar (t_step st y) = tvar st -> t_time (t_step st y) = t_time st).
    { intros V'. unfold t_time. rewrite V'. destruct (tvar st) as [p|] eqn:Vp; [|reflexivity]. cbn. rewrite Sn; trivial. now left. }
    assert (LaO : tvar (t_step st y) = tvar st -> forall k g z, k <> y -> nth_error (tgos st) k = Some g -> nth_error xs k = Some z -> t_time st = ToD [z] ->
      (tph g = TResult \/ ttodo g = [] /\ tph g = TIdle /\ t_results st g = [inl (ToD [z])]) -> lasts (t_step st y)).
    { intros V' k g z D K Z Tz Q. exists k, g, z. rewrite O by assumption. split; [assumption|]. split; [assumption|]. rewrite (Tt V'). split; [assumption|].
      destruct Q as [Q|(A & B & C)]; [now left|]. right. split; [assumption|]. split; [assumption|]. rewrite <- C. apply (results_same t css st (t_step st y) g Iq); [now exists k|assumption]. }
    assert (GiO : forall g', nth_error (tgos (t_step st y)) y = Some g' ->
      (forall p, In (RTime p) (tres_of g') -> In (RTime p) (tres_of g0) \/ exists z, In z xs /\ time_at (theap (t_step st y)) p = ToD [z]) ->
      forall j g p, nth_error (tgos (t_step st y)) j = Some g -> In (RTime p) (tres_of g) -> exists z, In z xs /\ time_at (theap (t_step st y)) p = ToD [z]).
    { intros g' N' Q j g p J K. assert (Old : forall k h, nth_error (tgos st) k = Some h -> In (RTime p) (tres_of h) -> exists z, In z xs /\ time_at (theap (t_step st y)) p = ToD [z]).
      { intros k h A B. rewrite (kept_step t css st y k h p Iq A B). now apply (Gi k h). }
      destruct (Nat.eq_dec j y) as [->|D]; [assert (g = g') as -> by congruence; destruct (Q p K) as [Z|Z]; [now apply (Old y g0)|assumption]|].
      rewrite O in J by assumption. now apply (Old j g). }
    (* the invariant holds again when the goroutine that steps goes on *)
    assert (Go : forall g', nth_error (tgos (t_step st y)) y = Some g' -> prog1 (t_step st y) g' x ->
      (tph g' <> TResult /\ tres_of g' = [] /\ tph g0 <> TResult /\ tres_of g0 = [] /\ tvar (t_step st y) = tvar st) -> ones_inv (t_step st y)).
    { intros g' N' P' (A & B & C & C' & F). split; [|split; [|apply (GiO g' N'); rewrite B; intros p []]].
      - intros j g J. destruct (Nat.eq_dec j y) as [->|D]; [assert (g = g') as -> by congruence; now exists x|]. rewrite O in J by assumption. now apply PrO.
      - destruct La as [Non|(k & g & z & K & Z & Tz & Q)].
        + left. intros j g J. destruct (Nat.eq_dec j y) as [->|D]; [assert (g = g') as -> by congruence; now split|]. rewrite O in J by assumption. now apply (Non j).
        + right. destruct (Nat.eq_dec k y) as [->|D]; [|now apply (LaO F k g z)]. assert (g = g0) as -> by congruence.
          destruct Q as [Q|(_ & _ & Q)]; [contradiction|]. unfold t_results in Q. rewrite C' in Q. discriminate Q. }
    unfold prog1 in Px. unfold t_gstep in H, V, N. destruct (tph g0) as [|n p|n p|p| |p|p b] eqn:P; cbn [fst snd] in *; try contradiction.
    + destruct Px as [[T R]|[T [p R]]]; rewrite T in H, V, N; cbn [fst snd] in *.
      * apply (Go _ N); [|cbn; repeat split; trivial; discriminate]. cbn. repeat split; trivial.
      * (* nothing to do *)
        assert (Sm : t_step st y = st). { unfold t_step. rewrite Y. unfold t_gstep. rewrite P, T. destruct st as [h v gs]. cbn. f_equal. apply wr_id. exact Y. }
        rewrite Sm. now repeat split.
    + apply (Go _ N); [|cbn; repeat split; trivial; try discriminate; apply Px]. exact Px.
    + apply (Go _ N); [|cbn; repeat split; trivial; try discriminate; apply Px]. unfold prog1. cbn [tph ttodo tres_of]. destruct Px as (A & B & C). split; [assumption|]. split; [assumption|].
      rewrite H. cbn. destruct (Mk p eq_refl) as [Lp _]. rewrite two_same by assumption. destruct Ph as [_ F]. rewrite F, number_bytes. exact C.
    + (* the assignment *)
      destruct Px as (A & B & C). split; [|split; [|apply (GiO _ N); cbn; auto]].
      * intros j g J. destruct (Nat.eq_dec j y) as [->|D]; [rewrite N in J; injection J as <-; exists x; now repeat split|]. rewrite O in J by assumption. now apply PrO.
      * right. exists y. eexists. exists x. split; [exact N|]. split; [assumption|]. split; [unfold t_time; rewrite V, H; exact C|]. now left.
    + (* the result *)
      destruct Px as (A & B). assert (La' : lasts st) by (destruct La as [Non|La]; [now destruct (Non y g0 Y)|exact La]).
      split; [|split; [|apply (GiO _ N); cbn [tres_of]; intros p K; apply in_app_or in K as [K|[K|[]]]; [now left|]; injection K as <-; right;
        destruct La' as (k & g & z & _ & Z & Tz & _); exists z; split; [now apply nth_error_In in Z|]; rewrite <- Tz, <- (Tt V); unfold t_time; now rewrite V]].
      * intros j g J. destruct (Nat.eq_dec j y) as [->|D]; [rewrite N in J; injection J as <-; exists x; split; [assumption|]; right; cbn; rewrite B; cbn; split; [assumption|now exists (tvar st)]|].
        rewrite O in J by assumption. now apply PrO.
      * right. destruct La as [Non|(k & g & z & K & Z & Tz & Q)]; [now destruct (Non y g0 Y)|]. destruct (Nat.eq_dec k y) as [->|D]; [|now apply (LaO V k g z)].
        exists y. eexists. exists z. split; [exact N|]. split; [assumption|]. rewrite (Tt V). split; [assumption|]. right. cbn [ttodo tph]. split; [assumption|]. split; [reflexivity|].
        unfold t_results. cbn [tres_of]. rewrite B. cbn [map app]. rewrite <- Tz, <- (Tt V). unfold t_time. now rewrite V.
Qed.
End Ones.
(* Any number of goroutines that call Set once each: one of them gets the time it gave and the
   variable is left with that time; each of the others gets a time that
   was given. *)
Theorem C166_last : forall t xs q, xs <> [] -> let st := sched (t_start t (ones xs)) q in t_returned st ->
  (exists k g x, nth_error (tgos st) k = Some g /\ nth_error xs k = Some x /\ t_results st g = [inl (ToD [x])] /\ t_time st = ToD [x]) /\
  forall j g, nth_error (tgos st) j = Some g -> exists r, t_results st g = [inl r] /\ (exists x, In x xs /\ r = ToD [x]).
Proof.
  intros t xs q Ne st Rt. destruct (ones_run t xs q) as (Pr & La & Gi). fold st in Pr, La, Gi.
  assert (Res : forall j g, nth_error (tgos st) j = Some g -> exists p, tres_of g = [RTime p]).
  { intros j g J. destruct (Pr j g J) as (x & X & Px). destruct (Rt g (nth_error_In _ _ J)) as [T P]. unfold prog1 in Px. rewrite P, T in Px. destruct Px as [[A _]|[_ A]]; [discriminate A|exact A]. }
  split.
  - destruct La as [Non|(k & g & x & K & X & Tx & Q)].
    + assert (L : List.length (tgos st) = List.length xs).
      { unfold st. clear. induction q as [|y q IH] using rev_ind; [unfold t_sched, t_start, ones; cbn [fold_left tgos]; now rewrite !map_length|]. now rewrite t_snoc, t_step_len. }
      destruct (tgos st) as [|g gs] eqn:G; [destruct xs; [now elim Ne|discriminate L]|]. destruct (Non 0 g eq_refl) as [_ A]. destruct (Res 0 g eq_refl) as [p B]. congruence.
    + exists k, g, x. destruct Q as [Q|(_ & _ & Q)]; [destruct (Rt g (nth_error_In _ _ K)) as [_ P]; congruence|]. now repeat split.
  - intros j g J. destruct (Res j g J) as [p B]. exists (time_at (theap st) p). split; [unfold t_results; now rewrite B|].
    apply (Gi j g p J). rewrite B. now left.
Qed.
(* Two goroutines that call Set once each: exactly these outcomes are possible. *)
Theorem C166_exact : forall t x y r0 r1 v,
  (exists q, let st := sched (t_start t [[TSet x]; [TSet y]]) q in t_returned st /\ t_time st = v /\
     exists g0 g1, tgos st = [g0; g1] /\ t_results st g0 = [inl r0] /\ t_results st g1 = [inl r1]) <->
  v = ToD [x] /\ r0 = ToD [x] /\ (r1 = ToD [x] \/ r1 = ToD [y]) \/ v = ToD [y] /\ r1 = ToD [y] /\ (r0 = ToD [x] \/ r0 = ToD [y]).
Proof.
  intros t x y r0 r1 v. split.
  - intros (q & Rt & Tv & g0 & g1 & G & R0 & R1). change [[TSet x]; [TSet y]] with (ones [x; y]) in *.
    destruct (C166_last t [x; y] q) as [(k & g & z & K & Z & Rz & Tz) Oth]; [discriminate|assumption|]. rewrite G in *.
    assert (In2 : forall j g r, nth_error [g0; g1] j = Some g -> t_results (sched (t_start t (ones [x; y])) q) g = [inl r] -> r = ToD [x] \/ r = ToD [y]).
    { intros j h r J R. destruct (Oth j h J) as (r' & R' & w & W & E). assert (r' = r) as -> by congruence. destruct W as [<-|[<-|[]]]; [now left|now right]. }
    destruct k as [|[|k]]; [| |destruct k; discriminate K]; injection K as <-; injection Z as <-.
    + left. assert (r0 = ToD [x]) by congruence. split; [congruence|]. split; [assumption|]. now apply (In2 1 g1).
    + right. assert (r1 = ToD [y]) by congruence. split; [congruence|]. split; [assumption|]. now apply (In2 0 g0).
  - assert (Run : forall q w0 w1 w, let st := sched (t_start t [[TSet x]; [TSet y]]) q in
      (exists h a b, st = MkTs h w [MkTg [] TIdle [RTime a]; MkTg [] TIdle [RTime b]] /\ time_at h a = w0 /\ time_at h b = w1 /\ time_at h w = v) ->
      w0 = r0 -> w1 = r1 ->
      t_returned st /\ t_time st = v /\ exists g0 g1, tgos st = [g0; g1] /\ t_results st g0 = [inl r0] /\ t_results st g1 = [inl r1]).
    { intros q w0 w1 w st (h & a & b & E & <- & <- & W) <- <-. rewrite E. split; [intros g [<-|[<-|[]]]; now split|]. split; [exact W|]. eexists _, _. split; [reflexivity|]. now split. }
    assert (F : forall n, number (n / 256, n mod 256)%N = n) by exact number_bytes.
    intros [(-> & -> & [-> | ->])|(-> & -> & [-> | ->])].
    + exists [0; 0; 0; 1; 1; 1; 1; 0; 1; 0]. eapply Run with (w := Some (match t with None => 0 | _ => 1 end)); [|reflexivity|reflexivity].
      destruct t; (eexists _, _, _; split; [cbv [sched fold_left t_step t_start nth_error tgos map theap tvar t_gstep tph ttodo tres_of wr List.length app two nth fst snd t_sched]; reflexivity|]);
      cbn; rewrite ?F; now repeat split.
    + exists [1; 1; 1; 1; 1; 0; 0; 0; 0; 0]. eapply Run with (w := Some (match t with None => 1 | _ => 2 end)); [|reflexivity|reflexivity].
      destruct t; (eexists _, _, _; split; [cbv [sched fold_left t_step t_start nth_error tgos map theap tvar t_gstep tph ttodo tres_of wr List.length app two nth fst snd t_sched]; reflexivity|]);
      cbn; rewrite ?F; now repeat split.
    + exists [0; 0; 0; 0; 0; 1; 1; 1; 1; 1]. eapply Run with (w := Some (match t with None => 1 | _ => 2 end)); [|reflexivity|reflexivity].
      destruct t; (eexists _, _, _; split; [cbv [sched fold_left t_step t_start nth_error tgos map theap tvar t_gstep tph ttodo tres_of wr List.length app two nth fst snd t_sched]; reflexivity|]);
      cbn; rewrite ?F; now repeat split.
    + exists [0; 0; 0; 0; 1; 1; 1; 1; 0; 1]. eapply Run with (w := Some (match t with None => 1 | _ => 2 end)); [|reflexivity|reflexivity].
      destruct t; (eexists _, _, _; split; [cbv [sched fold_left t_step t_start nth_error tgos map theap tvar t_gstep tph ttodo tres_of wr List.length app two nth fst snd t_sched]; reflexivity|]);
      cbn; rewrite ?F; now repeat split.
Qed.
(* Set returns the time it was given: false. *)
Theorem C166_refuted : ~ forall t css q i g k x cs r, let st := sched (t_start t css) q in
  nth_error css i = Some cs -> nth_error cs k = Some (TSet x) -> nth_error (tgos st) i = Some g -> nth_error (t_results st g) k = Some (inl r) ->
  r = ToD [x].
Proof.
  intros C. destruct (proj2 (C166_exact None (TStr "0900") (TStr "1700") (ToD [TStr "1700"]) (ToD [TStr "1700"]) (ToD [TStr "1700"]))) as (q & Rt & Tv & g0 & g1 & G & R0 & R1).
  - right. split; [reflexivity|]. split; [reflexivity|]. now right.
  - assert (D := C None [[TSet (TStr "0900")]; [TSet (TStr "1700")]] q 0 g0 0 (TStr "0900") [TSet (TStr "0900")] (ToD [TStr "1700"]) eq_refl eq_refl).
    cbv zeta in D. rewrite G, R0 in D. discriminate (D eq_refl eq_refl).
Qed.
(* It holds of a goroutine that alone calls Set. *)
Theorem C166_sole : forall t css i cs g q k x r, nth_error css i = Some cs ->
  (forall j cs', j <> i -> nth_error css j = Some cs' -> forall c, In c cs' -> c = TString) ->
  let st := sched (t_start t css) q in nth_error (tgos st) i = Some g ->
  nth_error cs k = Some (TSet x) -> nth_error (t_results st g) k = Some (inl r) -> r = ToD [x].
Proof.
  intros t css i cs g q k x r Ei Ot st Eg K R. destruct (goes_run t css i cs Ei Ot q) as [(g' & E & A & _) _]. fold st in E, A.
  assert (g' = g) as -> by congruence. assert (B : nth_error (t_alone t cs) k = Some (inl r)). { rewrite <- A, nth_error_app1; [assumption|]. apply nth_error_Some. congruence. }
  clear - K B. revert t k K B. induction cs as [|c cs IH]; intros t [|k] K B; try discriminate.
  - injection K as ->. cbn in B. now injection B as <-.
  - destruct c; cbn in B; eapply (IH _ k); eassumption.
Qed.
Print Assumptions C166_last.
Print Assumptions C166_exact.
Print Assumptions C166_refuted.
Print Assumptions C166_sole.

(* ---- concrete cases ---- *)
Example C165_witness : let css := [[TSet (TStr "0900"); TString]; [TString; TString]] in
  let q := [0; 1; 1; 0; 1; 0; 0; 1; 0; 1; 0; 0; 1; 0; 1] in let st := sched (t_start (ToD [TStr "1215"]) css) q in
  t_returned st /\ t_time st = ToD [TStr "0900"] /\
  map (t_results st) (tgos st) = [[inl (ToD [TStr "0900"]); inr "0900"%string]; [inr "1215"%string; inr "0900"%string]].
Proof. vm_compute. split; [intros g [<-|[<-|[]]]; now split|now split]. Qed.
Example C166_witness : let st := sched (t_start None (ones [TStr "0900"; TStr "1700"; TOther])) [0; 1; 2; 0; 1; 2; 0; 1; 2; 0; 2; 1; 0; 1; 2] in
  t_returned st /\ t_time st = ToD [TStr "1700"] /\ map (t_results st) (tgos st) = [[inl (ToD [TStr "1700"])]; [inl (ToD [TStr "1700"])]; [inl (ToD [TStr "1700"])]].
Proof. vm_compute. split; [intros g [<-|[<-|[<-|[]]]]; now split|now split]. Qed.
