(* C167, C168: one goroutine that sets a SecurityStrengthFactor; panics of String. *)
From Coq Require Import String List PeanoNat NArith ZArith Bool Lia.
From Verif Require Import GoStr MMisc MSec MHeap MSsf SSsf PWhole TSsf.
Import ListNotations.
Open Scope list_scope.
Open Scope nat_scope.

Local Notation sched := s_sched.
Local Opaque ssf_set_inner itoa.

Section Sole.
Variables (c0 : option N) (css : list (list scall)) (i : nat) (cs : list scall).
Hypothesis Hi : nth_error css i = Some cs.
Hypothesis Ho : forall j cs', j <> i -> nth_error css j = Some cs' -> forall c, In c cs' -> c = SString.
Notation at_ q := (sched (s_start (Some c0) css) q).
Definition scur (st : sstate) (g : sgo) : ssfv :=
  match sph g with SFind f | SWrite f _ => ssf_set (s_value st) f | _ => s_value st end.
Definition spend (st : sstate) (g : sgo) : list string :=
  match sph g with SCheck _ | SDeref _ => [ssf_string (s_value st)] | _ => [] end.
Definition sgoes (st : sstate) : Prop :=
  (exists g, nth_error (sgos st) i = Some g /\ s_texts g ++ spend st g ++ s_alone (scur st g) (stodo g) = s_alone (Some c0) cs /\
    s_left (scur st g) (stodo g) = s_left (Some c0) cs /\ sph g <> SPanic /\ (forall p, sph g = SDeref p -> s_value st <> Some None)) /\
  forall j g, j <> i -> nth_error (sgos st) j = Some g -> match sph g with SIdle | SCheck _ | SDeref _ | SPanic => True | _ => False end.
Lemma texts_snoc td ph r x : s_texts (MkSg td ph (r ++ [x])) = s_texts (MkSg td ph r) ++ match x with SText s => [s] | SVar _ => [] end.
Proof. unfold s_texts. cbn [sres_of]. rewrite flat_map_app. cbn [flat_map]. now rewrite app_nil_r. Qed.
Lemma sgoes_run q : sgoes (at_ q).
Proof.
  induction q as [|y q IH] using rev_ind.
  - split.
    + exists (MkSg cs SIdle []). split; [cbn; now rewrite nth_error_map, Hi|]. split; [reflexivity|]. split; [reflexivity|]. split; discriminate.
    + intros j g D E. apply s_start_at in E as (c & _ & ->). exact I.
  - rewrite s_snoc. assert (Iq := sinv_run c0 css q). set (st := at_ q) in *. destruct IH as [(g & E & R & L & Np & Nd) Oth].
    destruct (sv_heap c0 css st Iq) as [c Hc]. assert (Hv := sv_var c0 css st Iq).
    destruct (nth_error (sgos st) y) as [g0|] eqn:Y; [|rewrite s_step_none by assumption; split; [now exists g|assumption]].
    destruct (s_step_go st y g0 Y) as (H & V & N & O). destruct (sv_go c0 css st Iq y g0 Y) as ((cs' & a & A & B) & _ & Pg).
    assert (Va : s_value st = Some c) by (unfold s_value; now rewrite Hc, Hv). rewrite Hc, Hv in H, V, N.
    destruct (Nat.eq_dec y i) as [->|D].
    + assert (g0 = g) as -> by congruence. split; [|intros j h D; rewrite O by assumption; now apply Oth].
      eexists. split; [exact N|]. unfold spend, scur in R, L |- *. rewrite Va in R, L, Nd.
      assert (Vs : sheap (s_step st i) = [c] -> svar (s_step st i) = Some 0 -> s_value (s_step st i) = Some c) by (intros X1 X2; unfold s_value; now rewrite X1, X2).
      assert (Tx : forall td ph, s_texts (MkSg td ph (sres_of g)) = s_texts g) by reflexivity.
      unfold s_gstep in *. destruct (sph g) as [|f|f|f p|f|f p| |p|p|] eqn:Ph; cbn [fst snd] in *; try contradiction.
      * destruct (stodo g) as [|[f|] r] eqn:T; cbn [fst snd] in *; rewrite (Vs H V).
        -- rewrite Ph, T. split; [exact R|]. split; [exact L|]. split; discriminate.
        -- cbn [sph stodo]. rewrite Tx. split; [exact R|]. split; [exact L|]. split; discriminate.
        -- cbn [sph stodo]. rewrite Tx. split; [exact R|]. split; [exact L|]. split; discriminate.
      * rewrite (Vs H V). cbn [sph stodo]. rewrite Tx. split; [exact R|]. split; [exact L|]. split; discriminate.
      * destruct Pg as [-> _]. cbn in H. assert (s_value (s_step st i) = ssf_set (Some c) f) as -> by (unfold s_value; rewrite H, V; reflexivity).
        cbn [sph stodo]. rewrite Tx. split; [exact R|]. split; [exact L|]. split; discriminate.
      * rewrite (Vs H V). cbn [sph stodo]. rewrite texts_snoc, app_nil_r. split; [exact R|]. split; [exact L|]. split; discriminate.
      * subst p. rewrite (Vs H V). cbn [cell nth] in *. destruct c as [n|]; cbn [sph stodo].
        -- rewrite Tx. split; [exact R|]. split; [exact L|]. split; [discriminate|]. intros p _. discriminate.
        -- rewrite texts_snoc, <- app_assoc. split; [exact R|]. split; [exact L|]. split; discriminate.
      * subst p. rewrite (Vs H V). cbn [cell nth] in *. destruct c as [n|]; cbn [sph stodo]; [|now elim (Nd 0)].
        rewrite texts_snoc, <- app_assoc. split; [exact R|]. split; [exact L|]. split; discriminate.
    + assert (G0 := Oth y g0 D Y).
      assert (HV : sheap (s_step st y) = [c] /\ svar (s_step st y) = Some 0 /\ match sph (snd (s_gstep [c] (Some 0) g0)) with SIdle | SCheck _ | SDeref _ | SPanic => True | _ => False end).
      { rewrite H, V. unfold s_gstep. destruct (sph g0) as [|f|f|f p|f|f p| |p|p|] eqn:P; try contradiction.
        - destruct (stodo g0) as [|[f|] r] eqn:T; cbn.
          + rewrite P. now repeat split.
          + discriminate (Ho y cs' D A (SSet f)). rewrite B. apply in_or_app. right. now left.
          + now repeat split.
        - cbn [fst snd]. destruct (cell [c] p); now repeat split.
        - cbn [fst snd]. destruct (cell [c] p); now repeat split.
        - cbn. rewrite P. now repeat split. }
      destruct HV as (H' & V' & Ph'). assert (Vs : s_value (s_step st y) = s_value st) by (rewrite Va; unfold s_value; now rewrite H', V'). split.
      * exists g. rewrite O by (intros X; now apply D). split; [assumption|]. unfold spend, scur in *. rewrite Vs. now repeat split.
      * intros j h Dj J. destruct (Nat.eq_dec j y) as [->|D2]; [rewrite N in J; now injection J as <-|]. rewrite O in J by assumption. now apply (Oth j).
Qed.
End Sole.
(* When one goroutine calls Set and the others only String, that goroutine does not panic, its
   own calls of String return what they would if it were alone, and the variable ends with the
   value its calls leave. *)
Theorem C167_sole : forall c css i cs g q, nth_error css i = Some cs ->
  (forall j cs', j <> i -> nth_error css j = Some cs' -> forall c, In c cs' -> c = SString) ->
  let st := sched (s_start (Some c) css) q in nth_error (sgos st) i = Some g ->
  sph g <> SPanic /\ (s_returned g -> s_texts g = s_alone (Some c) cs /\ s_value st = s_left (Some c) cs).
Proof.
  intros c css i cs g q Ei Ot st Eg. destruct (sgoes_run c css i cs Ei Ot q) as [(g' & E & R & L & Np & _) _]. fold st in E, R, L.
  assert (g' = g) as -> by congruence. split; [assumption|]. intros [T P]. unfold spend, scur in R, L. rewrite P, T in R, L. cbn in R, L. rewrite app_nil_r in R. now split.
Qed.
Print Assumptions C167_sole.

(* A variable that was never set and that nobody sets stays so, and every text is 0. *)
Theorem C167_unset : forall css q, (forall cs f, In cs css -> ~ In (SSet f) cs) ->
  let st := sched (s_start None css) q in s_value st = None /\ forall i g r, nth_error (sgos st) i = Some g -> In r (sres_of g) -> r = SText "0".
Proof.
  intros css q Hn. enough (U : svar (sched (s_start None css) q) = None /\ forall i g, nth_error (sgos (sched (s_start None css) q)) i = Some g ->
    (exists cs a, In cs css /\ cs = a ++ stodo g) /\ sph g = SIdle /\ forall r, In r (sres_of g) -> r = SText "0").
  { destruct U as [V U]. split; [unfold s_value; now rewrite V|]. intros i g r E J. now apply (U i g E). }
  induction q as [|y q IH] using rev_ind.
  - split; [reflexivity|]. intros i g E. apply s_start_at in E as (cs & E & ->). apply nth_error_In in E. split; [now exists cs, []|]. split; [reflexivity|]. intros r [].
  - rewrite s_snoc. set (st := sched (s_start None css) q) in *. destruct IH as [V U].
    destruct (nth_error (sgos st) y) as [g0|] eqn:Y; [|rewrite s_step_none by assumption; now split].
    destruct (s_step_go st y g0 Y) as (_ & V' & N & O). destruct (U y g0 Y) as ((cs & a & I & A) & P & R). rewrite V in V', N. unfold s_gstep in V', N. rewrite P in V', N.
    destruct (stodo g0) as [|[f|] r] eqn:T; cbn [fst snd] in V', N.
    + split; [assumption|]. intros i g E. destruct (Nat.eq_dec i y) as [->|D]; [|rewrite O in E by assumption; now apply (U i)]. rewrite N in E. injection E as <-. now apply (U y).
    + elim (Hn cs f I). rewrite A. apply in_or_app. right. now left.
    + split; [assumption|]. intros i g E. destruct (Nat.eq_dec i y) as [->|D]; [|rewrite O in E by assumption; now apply (U i)]. rewrite N in E. injection E as <-. cbn.
      split; [exists cs, (a ++ [SString]); split; [assumption|now rewrite <- app_assoc]|]. split; [reflexivity|]. intros x J. apply in_app_or in J as [J|[<-|[]]]; [now apply R|reflexivity].
Qed.
Print Assumptions C167_unset.

(* ---- C168: String beside calls of Set ---- *)
Definition il (c : option N) (l : list sarg) : option N := fold_left ssf_set_inner l c.
Lemma il_left l : forall c, s_left (Some c) (map SSet l) = Some (il c l).
Proof. induction l as [|f l IH]; intros c; [reflexivity|]. cbn [map s_left]. unfold ssf_set. rewrite IH. reflexivity. Qed.
Lemma il_app c a b : il c (a ++ b) = il (il c a) b.
Proof. apply fold_left_app. Qed.
Lemma il_clear l : forall c, c <> None -> il c l = None -> exists f, In f l /\ clears f.
Proof.
  induction l as [|f l IH]; intros c D E; [now elim D|]. cbn in E. destruct (ssf_set_inner c f) as [n|] eqn:S.
  - destruct (IH (Some n)) as (f' & A & B); [discriminate|exact E|]. exists f'. split; [now right|assumption].
  - exists f. split; [now left|]. destruct (sarg_other f) as [->|F]; [rewrite inner_other in S; now elim D|]. now apply (clears_inner f c).
Qed.
Lemma clear_inner f c : clears f -> ssf_set_inner c f = None.
Proof.
  unfold clears, ssf_set. intros [= E]. destruct (sarg_other f) as [->|F]; [rewrite inner_other in E; discriminate E|]. rewrite <- E. now apply inner_given.
Qed.
Section Panic.
Variables (c0 : option N) (fs : list sarg).
Notation at_ q := (sched (s_start (Some c0) [[SString]; map SSet fs]) q).
Definition pinv (st : sstate) : Prop := exists g0 g1 done,
  sheap st = [il c0 done] /\ svar st = Some 0 /\ sgos st = [g0; g1] /\
  match sph g1 with
  | SIdle | SRet => exists r, fs = done ++ r /\ stodo g1 = map SSet r
  | SFind f => exists r, fs = done ++ f :: r /\ stodo g1 = map SSet r
  | SWrite f p => p = 0 /\ exists r, fs = done ++ f :: r /\ stodo g1 = map SSet r
  | _ => False
  end /\
  match sph g0 with
  | SIdle => stodo g0 = [SString] \/ stodo g0 = []
  | SCheck p => p = 0 /\ stodo g0 = []
  | SDeref p => p = 0 /\ stodo g0 = [] /\ exists a b, done = a ++ b /\ il c0 a <> None
  | SPanic => exists a b, fs = a ++ b /\ il c0 a <> None /\ exists f, In f b /\ clears f
  | _ => False
  end.
Lemma pinv_run q : pinv (at_ q).
Proof.
  induction q as [|y q IH] using rev_ind.
  - exists (MkSg [SString] SIdle []), (MkSg (map SSet fs) SIdle []), []. split; [reflexivity|]. split; [reflexivity|]. split; [reflexivity|]. split; [now exists fs|now left].
  - rewrite s_snoc. destruct IH as (g0 & g1 & done & H & V & G & P1 & P0). set (st := at_ q) in *. unfold s_step. rewrite G, H, V.
    destruct y as [|[|y]]; cbn [nth_error].
    + unfold s_gstep. destruct (sph g0) as [|f|f|f p|f|f p| |p|p|] eqn:Ph; try contradiction.
      * destruct P0 as [T|T]; rewrite T; eexists _, g1, done; cbn [sheap svar sgos wr]; (split; [reflexivity|]); (split; [reflexivity|]); (split; [reflexivity|]); (split; [assumption|]); cbn; [now split|rewrite Ph; now right].
      * destruct P0 as [-> T]. cbn [cell nth]. destruct (il c0 done) as [n|] eqn:Il.
        -- eexists _, g1, done; cbn [sheap svar sgos wr]; rewrite Il; (split; [reflexivity|]); (split; [reflexivity|]); (split; [reflexivity|]); (split; [assumption|]); cbn.
           split; [reflexivity|]. split; [assumption|]. exists done, []. split; [now rewrite app_nil_r|]. rewrite Il. discriminate.
        -- eexists _, g1, done; cbn [sheap svar sgos wr]; rewrite Il; (split; [reflexivity|]); (split; [reflexivity|]); (split; [reflexivity|]); (split; [assumption|]); cbn. now right.
      * destruct P0 as (-> & T & a & b & D & Na). cbn [cell nth]. destruct (il c0 done) as [n|] eqn:Il.
        -- eexists _, g1, done; cbn [sheap svar sgos wr]; rewrite Il; (split; [reflexivity|]); (split; [reflexivity|]); (split; [reflexivity|]); (split; [assumption|]); cbn. now right.
        -- assert (Fs : exists r, fs = done ++ r). { destruct (sph g1); try contradiction; [| |destruct P1 as [_ P1]|]; destruct P1 as (r & F & _); eexists; exact F. }
           destruct Fs as [r F]. eexists _, g1, done; cbn [sheap svar sgos wr]; rewrite Il; (split; [reflexivity|]); (split; [reflexivity|]); (split; [reflexivity|]); (split; [assumption|]); cbn.
           rewrite D, il_app in Il. destruct (il_clear b _ Na Il) as (f & I1 & I2). exists a, (b ++ r). split; [now rewrite app_assoc, <- D|]. split; [assumption|].
           exists f. split; [apply in_or_app; now left|assumption].
      * eexists _, g1, done; cbn [sheap svar sgos wr]; (split; [reflexivity|]); (split; [reflexivity|]); (split; [reflexivity|]); (split; [assumption|]). now rewrite Ph.
    + assert (Gr : forall f, match sph g0 with SIdle => stodo g0 = [SString] \/ stodo g0 = [] | SCheck p => p = 0 /\ stodo g0 = []
        | SDeref p => p = 0 /\ stodo g0 = [] /\ exists a b, done ++ [f] = a ++ b /\ il c0 a <> None
        | SPanic => exists a b, fs = a ++ b /\ il c0 a <> None /\ exists f, In f b /\ clears f | _ => False end).
      { intros f. destruct (sph g0); trivial. destruct P0 as (A & B & a & b & D & Na). split; [assumption|]. split; [assumption|]. exists a, (b ++ [f]). split; [now rewrite D, app_assoc|assumption]. }
      unfold s_gstep. destruct (sph g1) as [|f|f|f p|f|f p| |p|p|] eqn:Ph; try contradiction.
      * destruct P1 as ([|f r] & F & T); rewrite T; cbn [map]; eexists g0, _, done; cbn [sheap svar sgos wr]; (split; [reflexivity|]); (split; [reflexivity|]); (split; [reflexivity|]); (split; [|assumption]); cbn.
        -- rewrite Ph. now exists [].
        -- now exists r.
      * destruct P1 as (r & F & T). eexists g0, _, done; cbn [sheap svar sgos wr]; (split; [reflexivity|]); (split; [reflexivity|]); (split; [reflexivity|]); (split; [|assumption]); cbn.
        split; [reflexivity|]. now exists r.
      * destruct P1 as (-> & r & F & T). eexists g0, _, (done ++ [f]); cbn [sheap svar sgos wr cell nth]. rewrite il_app.
        (split; [reflexivity|]); (split; [reflexivity|]); (split; [reflexivity|]); (split; [|apply Gr]). cbn. exists r. split; [now rewrite <- app_assoc|assumption].
      * destruct P1 as (r & F & T). eexists g0, _, done; cbn [sheap svar sgos wr]; (split; [reflexivity|]); (split; [reflexivity|]); (split; [reflexivity|]); (split; [|assumption]); cbn. now exists r.
    + assert (nth_error (@nil sgo) y = None) as -> by now destruct y. exists g0, g1, done. rewrite H, V, G. now repeat split.
Qed.
Lemma run_sets g0 l : forall c r rest, exists q r', sched (MkSs [c] (Some 0) [g0; MkSg (map SSet (l ++ rest)) SIdle r]) q = MkSs [il c l] (Some 0) [g0; MkSg (map SSet rest) SIdle r'].
Proof.
  induction l as [|f l IH]; intros c r rest.
  - exists [], r. reflexivity.
  - destruct (IH (ssf_set_inner c f) (r ++ [SVar (Some 0)]) rest) as (q & r' & Q). exists ([1; 1; 1; 1] ++ q), r'. rewrite s_app. exact Q.
Qed.
End Panic.
(* A call of String beside a goroutine that calls Set: it can panic exactly when the value can
   have a factor that is taken away later. *)
Theorem C168_exact : forall c fs,
  (exists q g, nth_error (sgos (sched (s_start (Some c) [[SString]; map SSet fs]) q)) 0 = Some g /\ sph g = SPanic) <->
  exists a b, fs = a ++ b /\ s_left (Some c) (map SSet a) <> Some None /\ exists f, In f b /\ clears f.
Proof.
  intros c fs. split.
  - intros (q & g & E & P). destruct (pinv_run c fs q) as (g0 & g1 & done & _ & _ & G & _ & P0). rewrite G in E. injection E as ->. rewrite P in P0.
    destruct P0 as (a & b & F & Na & I). exists a, b. split; [assumption|]. split; [rewrite il_left; now intros [= X]|assumption].
  - intros (a & b & -> & Na & f & I & C). rewrite il_left in Na. apply in_split in I as (b1 & b2 & ->).
    destruct (run_sets (MkSg [SString] SIdle []) a c [] (b1 ++ f :: b2)) as (q1 & r1 & Q1).
    destruct (run_sets (MkSg [] (SDeref 0) []) (b1 ++ [f]) (il c a) r1 b2) as (q2 & r2 & Q2).
    exists (q1 ++ [0; 0] ++ q2 ++ [0]), (MkSg [] SPanic []). rewrite !s_app. change (s_start (Some c) [[SString]; map SSet (a ++ b1 ++ f :: b2)]) with
      (MkSs [c] (Some 0) [MkSg [SString] SIdle []; MkSg (map SSet (a ++ b1 ++ f :: b2)) SIdle []]). rewrite Q1.
    assert (X : sched (MkSs [il c a] (Some 0) [MkSg [SString] SIdle []; MkSg (map SSet (b1 ++ f :: b2)) SIdle r1]) [0; 0] =
      MkSs [il c a] (Some 0) [MkSg [] (SDeref 0) []; MkSg (map SSet (b1 ++ f :: b2)) SIdle r1]).
    { cbn. unfold s_step. cbn. destruct (il c a) as [n|]; [reflexivity|]. now elim Na. }
    rewrite X. replace (b1 ++ f :: b2) with ((b1 ++ [f]) ++ b2) by (rewrite <- app_assoc; reflexivity). rewrite Q2.
    rewrite il_app. cbn [il fold_left]. change (fold_left ssf_set_inner [f] (il (il c a) b1)) with (ssf_set_inner (il (il c a) b1) f). rewrite (clear_inner f _ C). now split.
Qed.
(* A variable that was never set, one call of Set and one of String: String returns 0, 1 or the
   text of the value given, whatever that is, and can panic exactly when nothing is given. *)
Section Unset.
Variable f : sarg.
Notation at_ q := (sched (s_start None [[SSet f]; [SString]]) q).
Let e := ssf_set_inner (Some 0%N) f.
Definition stage (k : nat) (h : list (option N)) (v : option nat) (g : sgo) : Prop :=
  match k with
  | 0 => h = [] /\ v = None /\ (sph g = SIdle /\ stodo g = [SSet f] \/ sph g = SNew f /\ stodo g = [])
  | 1 => h = [None] /\ v = Some 0 /\ (sph g = SFill f \/ sph g = SFillAt f 0) /\ stodo g = []
  | 2 => h = [Some 0%N] /\ v = Some 0 /\ (sph g = SFind f \/ sph g = SWrite f 0) /\ stodo g = []
  | _ => h = [e] /\ v = Some 0 /\ (sph g = SRet \/ sph g = SIdle) /\ stodo g = []
  end.
Definition reader (k : nat) (g : sgo) : Prop :=
  match sph g with
  | SIdle => stodo g = [SString] /\ sres_of g = [] \/ stodo g = [] /\ exists s, sres_of g = [SText s] /\ (s = "0" \/ s = "1" \/ s = ssf_string (Some e))%string
  | SCheck p => p = 0 /\ stodo g = [] /\ sres_of g = [] /\ 1 <= k
  | SDeref p => p = 0 /\ stodo g = [] /\ sres_of g = [] /\ 2 <= k
  | SPanic => stodo g = [] /\ sres_of g = [] /\ e = None
  | _ => False
  end.
Definition uinv (st : sstate) : Prop := exists g0 g1 k, sgos st = [g0; g1] /\ stage k (sheap st) (svar st) g0 /\ reader k g1.
Lemma reader_up k k' g : k <= k' -> reader k g -> reader k' g.
Proof. intros L. unfold reader. destruct (sph g); trivial; intros (A & B & C & D); repeat split; trivial; lia. Qed.
Lemma itoa_1 : itoa (0 + 1) = "1"%string.
Proof. vm_compute. reflexivity. Qed.
Lemma uinv_run q : uinv (at_ q).
Proof.
  induction q as [|y q IH] using rev_ind.
  - exists (MkSg [SSet f] SIdle []), (MkSg [SString] SIdle []), 0. split; [reflexivity|]. split; [cbn; split; [reflexivity|]; split; [reflexivity|]; now left|]. left. now split.
  - rewrite s_snoc. destruct IH as (g0 & g1 & k & G & S & R). set (st := at_ q) in *. unfold s_step. rewrite G.
    destruct y as [|[|y]]; cbn [nth_error].
    + destruct k as [|[|[|k]]]; unfold stage in S; unfold s_gstep.
      * destruct S as (-> & -> & [[P T]|[P T]]); rewrite P, ?T; eexists _, g1, _; (split; [reflexivity|]).
        -- split; [|exact R]. cbn. split; [reflexivity|]. split; [reflexivity|]. right. now split.
        -- split; [|apply (reader_up 0 1); [lia|exact R]]. cbn. split; [reflexivity|]. split; [reflexivity|]. split; [now left|first [assumption|reflexivity]].
      * destruct S as (-> & -> & [P|P] & T); rewrite P; eexists _, g1, _; (split; [reflexivity|]).
        -- split; [|exact R]. cbn. split; [reflexivity|]. split; [reflexivity|]. split; [now right|first [assumption|reflexivity]].
        -- split; [|apply (reader_up 1 2); [lia|exact R]]. cbn. split; [reflexivity|]. split; [reflexivity|]. split; [now left|first [assumption|reflexivity]].
      * destruct S as (-> & -> & [P|P] & T); rewrite P; eexists _, g1, _; (split; [reflexivity|]).
        -- split; [|exact R]. cbn. split; [reflexivity|]. split; [reflexivity|]. split; [now right|first [assumption|reflexivity]].
        -- split; [|apply (reader_up 2 3); [lia|exact R]]. cbn. split; [reflexivity|]. split; [reflexivity|]. split; [now left|first [assumption|reflexivity]].
      * destruct S as (H & V & PP & T). rewrite H, V. destruct PP as [P|P]; rewrite P; rewrite ?T.
        -- exists (MkSg [] SIdle (sres_of g0 ++ [SVar (Some 0)])), g1, (S (S (S k))). split; [reflexivity|]. split; [|exact R]. cbn. split; [reflexivity|]. split; [reflexivity|]. split; [now right|reflexivity].
        -- exists g0, g1, (S (S (S k))). split; [reflexivity|]. split; [|exact R]. cbn. split; [reflexivity|]. split; [reflexivity|]. split; [now right|assumption].
    + assert (Cl : 1 <= k -> svar st = Some 0 /\ exists c, sheap st = [c] /\ (c = None \/ c = Some 0%N \/ c = e) /\ (2 <= k -> c = Some 0%N \/ c = e) /\ (c = None -> 2 <= k -> c = e)).
      { intros K. destruct k as [|[|[|k]]]; [lia| | |]; destruct S as (H & V & _); (split; [assumption|]); rewrite H; eexists; (split; [reflexivity|]).
        - split; [now left|]. split; intros; lia.
        - split; [right; now left|]. split; [intros _; now left|discriminate].
        - split; [right; now right|]. split; [intros _; now right|reflexivity]. }
      unfold s_gstep. unfold reader in R. destruct (sph g1) as [|x|x|x p|x|x p| |p|p|] eqn:P; try contradiction.
      * destruct R as [[T R]|[T (s & R & Q)]]; rewrite T.
        -- exists g0. destruct (svar st) as [p|] eqn:V; eexists _, k; (split; [reflexivity|]); (split; [exact S|]); cbn.
           ++ assert (p = 0 /\ 1 <= k) as [-> K]. { destruct k as [|[|[|k]]]; destruct S as (_ & V' & _); try discriminate V'; injection V' as ->; split; trivial; lia. } now repeat split.
           ++ right. rewrite R. split; [reflexivity|]. exists "0"%string. split; [reflexivity|now left].
        -- exists g0, g1, k. split; [reflexivity|]. split; [exact S|]. unfold reader. rewrite P. right. split; [assumption|]. now exists s.
      * destruct R as (-> & T & R & K). destruct (Cl K) as (V & c & H & C1 & C2 & C3). rewrite H. cbn [cell nth]. exists g0. destruct c as [n|]; eexists _, k; (split; [reflexivity|]).
        -- split; [cbn [sheap svar]; rewrite <- H; exact S|]. cbn. repeat split; trivial. destruct k as [|[|k]]; [lia| |lia]. destruct S as (H' & _). congruence.
        -- split; [cbn [sheap svar]; rewrite <- H; exact S|]. cbn. right. rewrite R. split; [assumption|]. eexists. split; [reflexivity|now left].
      * destruct R as (-> & T & R & K). destruct (Cl ltac:(lia)) as (V & c & H & C1 & C2 & C3). rewrite H. cbn [cell nth]. exists g0. destruct c as [n|]; eexists _, k; (split; [reflexivity|]).
        -- split; [cbn [sheap svar]; rewrite <- H; exact S|]. cbn. right. rewrite R. split; [assumption|]. eexists. split; [reflexivity|]. right.
           destruct (C2 K) as [[= ->]|C]; [left; exact itoa_1|right]. now rewrite <- C.
        -- split; [cbn [sheap svar]; rewrite <- H; exact S|]. cbn. split; [assumption|]. split; [assumption|]. symmetry. now apply C3.
      * exists g0, g1, k. split; [reflexivity|]. split; [exact S|]. unfold reader. now rewrite P.
    + assert (nth_error (@nil sgo) y = None) as -> by now destruct y. exists g0, g1, k. now rewrite G.
Qed.
End Unset.
Theorem C168_unset : forall f,
  (forall s, (exists q g, nth_error (sgos (sched (s_start None [[SSet f]; [SString]]) q)) 1 = Some g /\ s_texts g = [s]) <->
     s = "0"%string \/ s = "1"%string \/ s = ssf_string (ssf_set None f)) /\
  ((exists q g, nth_error (sgos (sched (s_start None [[SSet f]; [SString]]) q)) 1 = Some g /\ sph g = SPanic) <-> clears f).
Proof.
  intros f. split; [intros s|]; split.
  - intros (q & g & E & T). destruct (uinv_run f q) as (g0 & g1 & k & G & _ & R). rewrite G in E. injection E as ->. unfold reader in R. unfold s_texts in T. destruct (sph g); try contradiction.
    + destruct R as [[_ R]|[_ (s' & R & Q)]]; rewrite R in T; [discriminate T|]. injection T as ->. exact Q.
    + destruct R as (_ & _ & R & _). rewrite R in T. discriminate T.
    + destruct R as (_ & _ & R & _). rewrite R in T. discriminate T.
    + destruct R as (_ & R & _). rewrite R in T. discriminate T.
  - intros [-> | [-> | ->]].
    + exists [1]. eexists. split; reflexivity.
    + exists [0; 0; 0; 0; 1; 1; 1]. eexists. split; [reflexivity|]. exact (f_equal (fun s => [s]) itoa_1).
    + assert (X : sched (s_start None [[SSet f]; [SString]]) [0; 0; 0; 0; 0; 0] = MkSs [ssf_set_inner (Some 0%N) f] (Some 0) [MkSg [] SRet []; MkSg [SString] SIdle []]) by reflexivity.
      exists ([0; 0; 0; 0; 0; 0] ++ [1; 1; 1]). rewrite s_app, X. unfold ssf_set. destruct (ssf_set_inner (Some 0%N) f) as [n|]; eexists; (split; reflexivity).
  - intros (q & g & E & P). destruct (uinv_run f q) as (g0 & g1 & k & G & _ & R). rewrite G in E. injection E as ->. unfold reader in R. rewrite P in R.
    destruct R as (_ & _ & R). unfold clears, ssf_set. now rewrite R.
  - intros C. assert (X : sched (s_start None [[SSet f]; [SString]]) [0; 0; 0; 0; 1; 1; 0; 0] = MkSs [ssf_set_inner (Some 0%N) f] (Some 0) [MkSg [] SRet []; MkSg [] (SDeref 0) []]) by reflexivity.
    exists ([0; 0; 0; 0; 1; 1; 0; 0] ++ [1]). rewrite s_app, X, (clear_inner f _ C). eexists. split; reflexivity.
Qed.
(* String never panics and returns the text of the value of the start or of one given: false. *)
Theorem C168_refuted :
  (exists c css q i g, (forall j cs, nth_error css j = Some cs -> List.length cs = 1) /\ nth_error (sgos (sched (s_start (Some c) css) q)) i = Some g /\ sph g = SPanic) /\
  (exists css q i g s, (forall x, s_gives css x -> ssf_string x <> s) /\ ssf_string None <> s /\ nth_error (sgos (sched (s_start None css) q)) i = Some g /\ In s (s_texts g)).
Proof.
  split.
  - destruct (proj2 (C168_exact (Some 55%N) [SNil])) as (q & g & E & P).
    + exists [], [SNil]. split; [reflexivity|]. split; [discriminate|]. exists SNil. split; [now left|vm_compute; reflexivity].
    + exists (Some 55%N), [[SString]; map SSet [SNil]], q, 0, g. split; [|now split]. intros [|[|[|j]]] cs [= <-]; reflexivity.
  - destruct (C168_unset (SInt 56)) as [T _]. destruct (proj2 (T "1"%string)) as (q & g & E & X); [right; now left|].
    exists [[SSet (SInt 56)]; [SString]], q, 1, g, "1"%string. split; [|split; [vm_compute; discriminate|split; [assumption|rewrite X; now left]]].
    intros x (cs & f & c & [<-|[<-|[]]] & I & _ & ->); destruct I as [I|[]]; try discriminate I. injection I as <-. unfold ssf_set. vm_compute. discriminate.
Qed.
Print Assumptions C168_exact.
Print Assumptions C168_unset.
Print Assumptions C168_refuted.

(* ---- concrete cases ---- *)
Example C167_safe_witness : let css := [[SSet (SInt 56); SString]; [SSet (SStr "max"); SString]; [SSet SOther; SString]] in
  (forall cs f, In cs css -> In (SSet f) cs -> ~ clears f) /\
  let st := sched (s_start None css) [0; 1; 0; 1; 0; 0; 1; 1; 2; 0; 2; 0; 1; 0; 1; 0; 2; 2; 0; 0; 2; 1; 2; 1; 1; 1; 2; 1; 0; 1; 2; 0; 1; 2; 0; 1; 2] in
  map s_texts (sgos st) = [["256"%string]; ["256"%string]; ["256"%string]] /\ s_value st = SSF [SInt 256].
Proof.
  split; [|vm_compute; now split]. intros cs f I. cbn in I. destruct I as [<-|[<-|[<-|[]]]]; intros [J|[J|[]]]; try discriminate J; injection J as <-; vm_compute; discriminate.
Qed.
Example C167_witness : let css := [[SSet SNil; SString; SSet (SInt 128)]; [SString; SString]] in
  let st := sched (s_start (Some (Some 55%N)) css) [1; 0; 1; 1; 0; 0; 0; 0; 1; 1; 0; 0; 0; 0; 0] in
  Forall s_returned (sgos st) /\ map s_texts (sgos st) = [["0"%string]; ["56"%string; "0"%string]] /\ s_value st = SSF [SInt 128].
Proof. vm_compute. split; [|now split]. repeat constructor. Qed.
