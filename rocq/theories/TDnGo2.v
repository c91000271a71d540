(* C169, C170: one goroutine that sets a distinguished name; mixtures of two names. *)
From Coq Require Import String List PeanoNat NArith Bool Lia.
From Verif Require Import GoStr MKw MMisc MLists MHeap MDnGo SDnGo PWhole TDnGo.
Import ListNotations.
Open Scope list_scope.
Open Scope nat_scope.

Local Opaque chopDNPfx LocalScheme.
Section Bad.
Variable bad : string.
Notation sched := (d_sched bad).

Section Sole.
Variables (k0 : N) (s0 : string) (css : list (list dncall)) (i : nat) (cs : list dncall).
Hypothesis Hi : nth_error css i = Some cs.
Hypothesis Ho : forall j cs', j <> i -> nth_error css j = Some cs' -> forall x k, ~ In (DSet x k) cs'.
Notation d0 := (MkDN k0 (Some s0)).
Notation at_ q := (sched (d_start (Some d0) css) q).
Definition dcur (d : dname) (g : dgo) : dname :=
  match dph g with DZero x k _ | DFind x k | DKw x k _ => dname_set d x k | DText x _ => MkDN (dn_kw d) (Some (chopDNPfx x)) | _ => d end.
Definition dpend (d : dname) (g : dgo) : list (string + N * string) :=
  match dph g with
  | DCheck _ | DName _ => [inl (dn_string bad (Some d))]
  | DAsk _ | DKey _ => [inr (dn_kw d, dn_string bad (Some d))]
  | DPrint k _ => [inr (k, dn_string bad (Some d))]
  | _ => []
  end.
Definition dgoes (st : dstate) : Prop :=
  (exists g d, nth_error (dgos st) i = Some g /\ d_value st = Some d /\ d_said g ++ dpend d g ++ d_alone bad (dcur d g) (dtodo g) = d_alone bad d0 cs /\
    d_left (dcur d g) (dtodo g) = d_left d0 cs /\ forall k p, dph g = DPrint k p -> k = dn_kw d) /\
  forall j g, j <> i -> nth_error (dgos st) j = Some g -> match dph g with DZero _ _ _ | DMake _ _ | DFind _ _ | DKw _ _ _ | DText _ _ | DRet => False | _ => True end.
Lemma said_snoc td ph r x : d_said (MkDg td ph (r ++ [x])) = d_said (MkDg td ph r) ++ match x with DStr s => [inl s] | DEq k s => [inr (k, s)] | _ => [] end.
Proof. unfold d_said. cbn [dres_of]. rewrite flat_map_app. cbn [flat_map]. now rewrite app_nil_r. Qed.
Lemma dgoes_run q : dgoes (at_ q).
Proof.
  induction q as [|y q IH] using rev_ind.
  - split.
    + exists (MkDg cs DIdle []), d0. split; [cbn; now rewrite nth_error_map, Hi|]. split; [reflexivity|]. split; [reflexivity|]. split; [reflexivity|]. discriminate.
    + intros j g D E. apply d_start_at in E as (c & _ & ->). exact I.
  - rewrite d_snoc. assert (Iq := dinv_run bad k0 s0 css q). destruct (d_value_at bad k0 s0 css q) as (k & s & Va & Hh & _). set (st := at_ q) in *. destruct IH as [(g & d & E & Vd & R & L & Pk) Oth].
    assert (d = MkDN k (Some s)) as -> by congruence. assert (Hv := dv_var k0 s0 css st Iq).
    destruct (nth_error (dgos st) y) as [g0|] eqn:Y; [|rewrite d_step_none by assumption; split; [now exists g, (MkDN k (Some s))|assumption]].
    destruct (d_step_go bad st y g0 Y) as (H & V & N & O). destruct (dv_go k0 s0 css st Iq y g0 Y) as ((cs' & a & A & B) & Pg & _). unfold at_phase in Pg.
    rewrite Hh, Hv in H, V, N. assert (Val : forall d, dheap (d_step bad st y) = [d] -> dvar (d_step bad st y) = Some 0 -> d_value (d_step bad st y) = Some d) by (intros d X1 X2; unfold d_value; now rewrite X1, X2).
    destruct (Nat.eq_dec y i) as [->|D].
    + assert (g0 = g) as -> by congruence. split; [|intros j h D; rewrite O by assumption; now apply Oth].
      assert (Tx : forall td ph, d_said (MkDg td ph (dres_of g)) = d_said g) by reflexivity.
      unfold dpend, dcur in R, L |- *.
      unfold d_gstep in *. destruct (dph g) as [|x0 k1 p|x0 k1|x0 k1|x0 k1 p|x0 p| |p|p|p|p|k1 p|] eqn:Ph; cbn [fst snd] in *; try contradiction.
      * destruct (dtodo g) as [|[x0 k1| |] r] eqn:T; cbn [fst snd] in *; eexists; eexists; (split; [exact N|]); (split; [apply Val; [exact H|exact V]|]).
        -- rewrite Ph, T. split; [exact R|]. split; [exact L|]. discriminate.
        -- cbn [dph dtodo]. rewrite Tx. split; [exact R|]. split; [exact L|]. discriminate.
        -- cbn [dph dtodo]. rewrite Tx. split; [exact R|]. split; [exact L|]. discriminate.
        -- cbn [dph dtodo]. rewrite Tx. split; [exact R|]. split; [exact L|]. discriminate.
      * destruct Pg as [-> _]. cbn in N. eexists; eexists; (split; [exact N|]); (split; [apply Val; [exact H|exact V]|]). cbn [dph dtodo]. rewrite Tx. split; [exact R|]. split; [exact L|]. discriminate.
      * eexists; eexists; (split; [exact N|]); (split; [apply Val; [exact H|exact V]|]). unfold dname_set in R, L |- *. cbn [dph dtodo]. destruct (String.length x0 =? 0) eqn:Le; cbn [dph]; rewrite Tx.
        -- split; [exact R|]. split; [exact L|]. discriminate.
        -- unfold dname_set. rewrite Le. split; [exact R|]. split; [exact L|]. discriminate.
      * destruct Pg as (-> & _ & Ne). cbn in H. eexists; eexists; (split; [exact N|]); (split; [apply Val; [exact H|exact V]|]). cbn [dph dtodo dn_kw]. rewrite Tx.
        unfold dname_set, newDistinguishedName in R, L. apply filled_len in Ne. rewrite Ne in R, L. split; [exact R|]. split; [exact L|]. discriminate.
      * destruct Pg as (-> & _ & Ne). cbn in H. eexists; eexists; (split; [exact N|]); (split; [apply Val; [exact H|exact V]|]). cbn [dph dtodo]. rewrite Tx. split; [exact R|]. split; [exact L|]. discriminate.
      * eexists; eexists; (split; [exact N|]); (split; [apply Val; [exact H|exact V]|]). cbn [dph dtodo]. rewrite said_snoc, app_nil_r. split; [exact R|]. split; [exact L|]. discriminate.
      * subst p. cbn [dobj nth dn_text] in N. eexists; eexists; (split; [exact N|]); (split; [apply Val; [exact H|exact V]|]). cbn [dph dtodo]. rewrite Tx. split; [exact R|]. split; [exact L|]. discriminate.
      * subst p. cbn [dobj nth dn_text] in N. eexists; eexists; (split; [exact N|]); (split; [apply Val; [exact H|exact V]|]). cbn [dph dtodo]. rewrite said_snoc, <- app_assoc. split; [exact R|]. split; [exact L|]. discriminate.
      * subst p. cbn [dobj nth dn_text] in N. eexists; eexists; (split; [exact N|]); (split; [apply Val; [exact H|exact V]|]). cbn [dph dtodo]. rewrite Tx. split; [exact R|]. split; [exact L|]. discriminate.
      * subst p. cbn [dobj nth dn_kw] in N. eexists; eexists; (split; [exact N|]); (split; [apply Val; [exact H|exact V]|]). cbn [dph dtodo]. rewrite Tx. split; [exact R|]. split; [exact L|]. now intros k' p [= <- _].
      * destruct Pg as [-> _]. cbn [dobj nth dn_text] in N. eexists; eexists; (split; [exact N|]); (split; [apply Val; [exact H|exact V]|]). cbn [dph dtodo]. rewrite said_snoc, <- app_assoc. split; [exact R|]. split; [exact L|]. discriminate.
      * eexists; eexists; (split; [exact N|]); (split; [apply Val; [exact H|exact V]|]). rewrite Ph. split; [exact R|]. split; [exact L|]. discriminate.
    + assert (G0 := Oth y g0 D Y).
      assert (HV : dheap (d_step bad st y) = [MkDN k (Some s)] /\ dvar (d_step bad st y) = Some 0 /\ match dph (snd (d_gstep bad [MkDN k (Some s)] (Some 0) g0)) with DZero _ _ _ | DMake _ _ | DFind _ _ | DKw _ _ _ | DText _ _ | DRet => False | _ => True end).
      { rewrite H, V. unfold d_gstep. destruct (dph g0) as [|x0 k1 p|x0 k1|x0 k1|x0 k1 p|x0 p| |p|p|p|p|k1 p|] eqn:P; try contradiction.
        - destruct (dtodo g0) as [|[x0 k1| |] r] eqn:T; cbn.
          + rewrite P. now repeat split.
          + elim (Ho y cs' D A x0 k1). rewrite B. apply in_or_app. right. now left.
          + now repeat split.
          + now repeat split.
        - cbn [fst snd]. destruct (dn_text (dobj [MkDN k (Some s)] p)); now repeat split.
        - cbn [fst snd]. destruct (dn_text (dobj [MkDN k (Some s)] p)); now repeat split.
        - cbn [fst snd]. destruct (dn_text (dobj [MkDN k (Some s)] p)); now repeat split.
        - now repeat split.
        - cbn [fst snd]. destruct (dn_text (dobj [MkDN k (Some s)] p)); now repeat split.
        - cbn. rewrite P. now repeat split. }
      destruct HV as (H' & V' & Ph'). split.
      * exists g, (MkDN k (Some s)). rewrite O by (intros X; now apply D). split; [assumption|]. split; [now apply Val|]. now repeat split.
      * intros j h Dj J. destruct (Nat.eq_dec j y) as [->|D2]; [rewrite N in J; now injection J as <-|]. rewrite O in J by assumption. now apply (Oth j).
Qed.
End Sole.
End Bad.
(* When one goroutine calls Set and the others do not, its own calls of String and Eq return
   what they would if it were alone, and the variable ends with the name its calls leave. *)
Theorem C169_sole : forall bad k s css i cs g q, nth_error css i = Some cs ->
  (forall j cs', j <> i -> nth_error css j = Some cs' -> forall x k, ~ In (DSet x k) cs') ->
  let st := d_sched bad (d_start (Some (MkDN k (Some s))) css) q in nth_error (dgos st) i = Some g -> d_returned g ->
  d_said g = d_alone bad (MkDN k (Some s)) cs /\ d_value st = Some (d_left (MkDN k (Some s)) cs).
Proof.
  intros bad k s css i cs g q Ei Ot st Eg [T P]. destruct (dgoes_run bad k s css i cs Ei Ot q) as [(g' & d & E & Vd & R & L & _) _]. fold st in E, Vd.
  assert (g' = g) as -> by congruence. unfold dpend, dcur in R, L. rewrite P, T in R, L. cbn in R, L. rewrite app_nil_r in R. split; [assumption|]. now rewrite Vd, L.
Qed.
Print Assumptions C169_sole.

(* A name that was set before: what Set returns is the variable itself and shows every later
   name; Eq never fails to make a rule. *)
Theorem C169_shared : forall bad k s css q i g, let at_ q := d_sched bad (d_start (Some (MkDN k (Some s))) css) q in nth_error (dgos (at_ q)) i = Some g ->
  (forall p q', In (DVar p) (dres_of g) -> option_map (dobj (dheap (at_ (q ++ q')))) p = d_value (at_ (q ++ q'))) /\ ~ In DBad (dres_of g).
Proof.
  intros bad k s css q i g at_ E. destruct (dv_go k s css _ (dinv_run bad k s css q) i g E) as (_ & _ & B & R). split; [|exact B].
  intros p q' K. rewrite (R p K). unfold d_value, at_. now rewrite (dv_var k s css _ (dinv_run bad k s css (q ++ q'))).
Qed.
Print Assumptions C169_shared.
(* A variable that was never set and that nobody sets stays so: String says that the name is
   bad, Eq makes no rule. *)
Theorem C169_unset : forall bad css q, (forall cs x k, In cs css -> ~ In (DSet x k) cs) ->
  let st := d_sched bad (d_start None css) q in d_value st = None /\ forall i g r, nth_error (dgos st) i = Some g -> In r (dres_of g) -> r = DStr bad \/ r = DBad.
Proof.
  intros bad css q Hn. enough (U : dvar (d_sched bad (d_start None css) q) = None /\ forall i g, nth_error (dgos (d_sched bad (d_start None css) q)) i = Some g ->
    (exists cs a, In cs css /\ cs = a ++ dtodo g) /\ dph g = DIdle /\ forall r, In r (dres_of g) -> r = DStr bad \/ r = DBad).
  { destruct U as [V U]. split; [unfold d_value; now rewrite V|]. intros i g r E J. now apply (U i g E). }
  induction q as [|y q IH] using rev_ind.
  - split; [reflexivity|]. intros i g E. apply d_start_at in E as (cs & E & ->). apply nth_error_In in E. split; [now exists cs, []|]. split; [reflexivity|]. intros r [].
  - rewrite d_snoc. set (st := d_sched bad (d_start None css) q) in *. destruct IH as [V U].
    destruct (nth_error (dgos st) y) as [g0|] eqn:Y; [|rewrite d_step_none by assumption; now split].
    destruct (d_step_go bad st y g0 Y) as (_ & V' & N & O). destruct (U y g0 Y) as ((cs & a & I & A) & P & R). rewrite V in V', N. unfold d_gstep in V', N. rewrite P in V', N.
    destruct (dtodo g0) as [|c r] eqn:T.
    + cbn [fst snd] in V', N. split; [assumption|]. intros i g E. destruct (Nat.eq_dec i y) as [->|D]; [|rewrite O in E by assumption; now apply (U i)]. rewrite N in E. injection E as <-. now apply (U y).
    + destruct c as [x k| |]; cbn [fst snd] in V', N.
      * elim (Hn cs x k I). rewrite A. apply in_or_app. right. now left.
      * split; [assumption|]. intros i g E. destruct (Nat.eq_dec i y) as [->|D]; [|rewrite O in E by assumption; now apply (U i)]. rewrite N in E. injection E as <-. cbn.
        split; [exists cs, (a ++ [DString]); split; [assumption|now rewrite <- app_assoc]|]. split; [reflexivity|]. intros x J. apply in_app_or in J as [J|[<-|[]]]; [now apply R|now left].
      * split; [assumption|]. intros i g E. destruct (Nat.eq_dec i y) as [->|D]; [|rewrite O in E by assumption; now apply (U i)]. rewrite N in E. injection E as <-. cbn.
        split; [exists cs, (a ++ [DRule]); split; [assumption|now rewrite <- app_assoc]|]. split; [reflexivity|]. intros x J. apply in_app_or in J as [J|[<-|[]]]; [now apply R|now right].
Qed.
Print Assumptions C169_unset.

(* Goroutines that all give the same name, to a variable that was never set: it is unset or has
   that name at every moment, and whatever they print is that or what an unset one prints. *)
Section Same.
Variables (bad : string) (x : string) (k : N) (css : list (list dncall)).
Hypothesis Hx : x <> EmptyString.
Hypothesis Hs : forall cs y l, In cs css -> In (DSet y l) cs -> y = x /\ l = k.
Notation d := (newDistinguishedName x k).
Notation at_ q := (d_sched bad (d_start None css) q).
Definition same_res (r : dres) : Prop := match r with DVar p => True | DStr s => s = bad \/ s = dn_string bad (Some d) | DEq l s => l = k /\ s = dn_string bad (Some d) | DBad => True end.
Definition same_go (n : nat) (v : option nat) (g : dgo) : Prop := (exists cs a, In cs css /\ cs = a ++ dtodo g) /\
  match dph g with
  | DZero y l p => y = x /\ l = k /\ p < n /\ v <> None
  | DMake y l => y = x /\ l = k
  | DFind y l => y = x /\ l = k /\ v <> None
  | DKw y l p => y = x /\ l = k /\ p < n
  | DText y p => y = x /\ p < n
  | DCheck p | DName p | DAsk p | DKey p => p < n
  | DPrint l p => l = k /\ p < n
  | DPanic => False
  | _ => True
  end /\ forall r, In r (dres_of g) -> same_res r.
Definition same_inv (st : dstate) : Prop :=
  (forall o, In o (dheap st) -> o = d) /\ (forall p, dvar st = Some p -> p < List.length (dheap st)) /\ forall j g, nth_error (dgos st) j = Some g -> same_go (List.length (dheap st)) (dvar st) g.
Lemma d_is : d = MkDN k (Some (chopDNPfx x)).
Proof. destruct x; [now elim Hx|reflexivity]. Qed.
Lemma wr_in {A} (h : list A) p a o : In o (wr h p a) -> In o h \/ o = a.
Proof. revert p. induction h as [|b h IH]; intros [|p] K; cbn in K |- *; try tauto; destruct K as [K|K]; auto. destruct (IH p K); auto. Qed.
Lemma same_more n n' v v' g : n <= n' -> (v <> None -> v' <> None) -> same_go n v g -> same_go n' v' g.
Proof.
  intros L V (A & B & C). split; [assumption|]. split; [|assumption]. destruct (dph g); trivial; try lia; intuition (auto; lia).
Qed.
Lemma same_run q : same_inv (at_ q).
Proof.
  induction q as [|y q IH] using rev_ind.
  - split; [intros o []|]. split; [discriminate|]. intros j g E. apply d_start_at in E as (cs & E & ->). apply nth_error_In in E. split; [now exists cs, []|]. split; [exact I|]. intros r [].
  - rewrite d_snoc. set (st := at_ q) in *. destruct IH as (Ho & Hv & Go).
    destruct (nth_error (dgos st) y) as [g0|] eqn:Y; [|rewrite d_step_none by assumption; now split].
    destruct (d_step_go bad st y g0 Y) as (H & V & N & O). destruct (Go y g0 Y) as ((cs & a & C & A) & P & R).
    assert (Fin : forall h v g', d_gstep bad (dheap st) (dvar st) g0 = (h, v, g') -> (forall o, In o h -> o = d) -> (forall p, v = Some p -> p < List.length h) -> List.length (dheap st) <= List.length h ->
      (dvar st <> None -> v <> None) -> same_go (List.length h) v g' -> same_inv (d_step bad st y)).
    { intros h v g' Eq X1 X2 X3 X4 X5. rewrite Eq in H, V, N. cbn [fst snd] in H, V, N. split; [now rewrite H|]. split; [now rewrite H, V|]. rewrite H, V. intros j g E.
      destruct (Nat.eq_dec j y) as [->|D]; [rewrite N in E; now injection E as <-|]. rewrite O in E by assumption. eapply same_more; [exact X3|exact X4|]. now apply (Go j). }
    assert (Td : exists cs a, In cs css /\ cs = a ++ dtodo g0) by now exists cs, a.
    assert (Add : forall r, same_res r -> forall r', In r' (dres_of g0 ++ [r]) -> same_res r') by (intros r X r' K; apply in_app_or in K as [K|[<-|[]]]; [now apply R|assumption]).
    assert (Ob : forall p, p < List.length (dheap st) -> dobj (dheap st) p = d) by (intros p L; apply Ho; now apply nth_In).
    assert (Td' : forall c r, dtodo g0 = c :: r -> exists cs a, In cs css /\ cs = a ++ r) by (intros c r T; exists cs, (a ++ [c]); split; [assumption|]; rewrite <- app_assoc; cbn [app]; now rewrite <- T).
    assert (Dt := d_is). unfold d_gstep in Fin. destruct (dph g0) as [|x0 k1 p|x0 k1|x0 k1|x0 k1 p|x0 p| |p|p|p|p|k1 p|] eqn:Ph.
    + destruct (dtodo g0) as [|[x0 k1| |] r] eqn:T.
      * eapply Fin; [reflexivity|assumption|assumption|lia|trivial|]. now apply (Go y).
      * destruct (Hs cs x0 k1 C) as [-> ->]; [rewrite A; apply in_or_app; right; now left|]. eapply Fin; [reflexivity|assumption|assumption|lia|trivial|].
        split; [now apply (Td' (DSet x k))|]. split; [|assumption]. cbn [dph]. destruct (dvar st) as [p|] eqn:E; [|now split]. split; [reflexivity|]. split; [reflexivity|]. split; [now apply Hv|discriminate].
      * eapply Fin; [reflexivity|assumption|assumption|lia|trivial|]. destruct (dvar st) as [p|] eqn:E; (split; [now apply (Td' DString)|]); cbn [dph dres_of]; [split; [now apply Hv|assumption]|]. split; [exact I|]. apply Add. now left.
      * eapply Fin; [reflexivity|assumption|assumption|lia|trivial|]. destruct (dvar st) as [p|] eqn:E; (split; [now apply (Td' DRule)|]); cbn [dph dres_of]; [split; [now apply Hv|assumption]|]. split; [exact I|]. apply Add. exact I.
    + destruct P as (-> & -> & P & Nv). eapply Fin; [reflexivity|assumption|assumption|lia|trivial|]. split; [assumption|]. split; [|assumption]. cbn [dph]. rewrite (Ob p P), Dt. now repeat split.
    + destruct P as [-> ->]. eapply Fin; [reflexivity| | | | |].
      * intros o K. apply in_app_or in K as [K|[<-|[]]]; [now apply Ho|reflexivity].
      * intros p [= <-]. rewrite app_length. cbn. lia.
      * rewrite app_length. lia.
      * discriminate.
      * split; [assumption|]. split; [|assumption]. cbn. now repeat split.
    + destruct P as (-> & -> & P). eapply Fin; [reflexivity|assumption|assumption|lia|trivial|]. split; [assumption|]. split; [|assumption]. cbn [dph]. apply filled_len in Hx. rewrite Hx.
      destruct (dvar st) as [p|] eqn:E; [|now elim P]. split; [reflexivity|]. split; [reflexivity|]. now apply Hv.
    + destruct P as (-> & -> & P). eapply Fin; [reflexivity| | | |trivial|].
      * intros o K. apply wr_in in K as [K| ->]; [now apply Ho|]. now rewrite (Ob p P), Dt.
      * rewrite wr_len. assumption.
      * rewrite wr_len. lia.
      * split; [assumption|]. split; [|assumption]. cbn. rewrite wr_len. now split.
    + destruct P as (-> & P). eapply Fin; [reflexivity| | | |trivial|].
      * intros o K. apply wr_in in K as [K| ->]; [now apply Ho|]. now rewrite (Ob p P), Dt.
      * rewrite wr_len. assumption.
      * rewrite wr_len. lia.
      * split; [assumption|]. split; [exact I|assumption].
    + eapply Fin; [reflexivity|assumption|assumption|lia|trivial|]. split; [assumption|]. split; [exact I|]. now apply Add.
    + eapply Fin; [reflexivity|assumption|assumption|lia|trivial|]. rewrite (Ob p P), Dt. split; [assumption|]. now split.
    + eapply Fin; [reflexivity|assumption|assumption|lia|trivial|]. rewrite (Ob p P), Dt. split; [assumption|]. split; [exact I|]. apply Add. right. now rewrite Dt.
    + eapply Fin; [reflexivity|assumption|assumption|lia|trivial|]. rewrite (Ob p P), Dt. split; [assumption|]. now split.
    + eapply Fin; [reflexivity|assumption|assumption|lia|trivial|]. rewrite (Ob p P), Dt. split; [assumption|]. now split.
    + destruct P as [-> P]. eapply Fin; [reflexivity|assumption|assumption|lia|trivial|]. rewrite (Ob p P), Dt. split; [assumption|]. split; [exact I|]. apply Add. split; [reflexivity|]. now rewrite Dt.
    + destruct P.
Qed.
End Same.
Theorem C169_same : forall bad x k css q, x <> EmptyString -> (forall cs y l, In cs css -> In (DSet y l) cs -> y = x /\ l = k) ->
  let st := d_sched bad (d_start None css) q in let d := newDistinguishedName x k in
  (d_value st = None \/ d_value st = Some d) /\
  forall i g r, nth_error (dgos st) i = Some g -> In r (dres_of g) -> match r with DStr s => s = bad \/ s = dn_string bad (Some d) | DEq l s => l = k /\ s = dn_string bad (Some d) | _ => True end.
Proof.
  intros bad x k css q Hx Hs st d. destruct (same_run bad x k css Hx Hs q) as (Ho & Hv & Go). fold st in Ho, Hv, Go. split.
  - unfold d_value. destruct (dvar st) as [p|]; [right|now left]. f_equal. apply Ho. apply nth_In. now apply Hv.
  - intros i g r E K. destruct (Go i g E) as (_ & _ & R). exact (R r K).
Qed.
Print Assumptions C169_same.
(* two that give the same name to a new variable, one after it was made by the other, and one
   that prints it *)
Example C169_same_witness : let st := d_sched "bad" (d_start None [[DSet "ou=A" 1%N]; [DSet "ou=A" 1%N]; [DString; DString]]) [0; 1; 2; 0; 1; 2; 2; 2; 0; 1; 0; 1] in
  (forall cs y l, In cs [[DSet "ou=A" 1%N]; [DSet "ou=A" 1%N]; [DString; DString]] -> In (DSet y l) cs -> y = "ou=A" /\ l = 1%N) /\
  d_value st = Some (newDistinguishedName "ou=A" 1) /\ option_map dres_of (nth_error (dgos st) 2) = Some [DStr "bad"; DStr "ldap:///ou=A"].
Proof.
  split; [|split; reflexivity]. intros cs y l [<-|[<-|[<-|[]]]] K; cbn in K; destruct K as [K|K]; try discriminate; try (injection K as <- <-; now split); try destruct K as [K|K]; try discriminate; destruct K.
Qed.

(* ---- C170 ---- *)
Section Two.
Variables (bad : string) (k0 : N) (s0 : string) (x y : string) (k l : N).
Hypothesis Hx : x <> EmptyString.
Hypothesis Hy : y <> EmptyString.
Notation at_ q := (d_sched bad (d_start (Some (MkDN k0 (Some s0))) [[DSet x k]; [DSet y l]]) q).
(* how far a goroutine is: 0 before it writes the keyword, 1 before it writes the text, 2 after *)
Definition far (w : nat) (g : dgo) (z : string) (m : N) : Prop :=
  match dph g with
  | DIdle => dtodo g = [DSet z m] /\ w = 0 \/ dtodo g = [] /\ w = 2
  | DZero z' m' p => z' = z /\ m' = m /\ p = 0 /\ dtodo g = [] /\ w = 0
  | DFind z' m' => z' = z /\ m' = m /\ dtodo g = [] /\ w = 0
  | DKw z' m' p => z' = z /\ m' = m /\ p = 0 /\ dtodo g = [] /\ w = 0
  | DText z' p => z' = z /\ p = 0 /\ dtodo g = [] /\ w = 1
  | DRet => dtodo g = [] /\ w = 2
  | _ => False
  end.
Definition two_inv (st : dstate) : Prop := exists g0 g1 a b w0 w1,
  dgos st = [g0; g1] /\ dheap st = [MkDN a (Some b)] /\ dvar st = Some 0 /\ far w0 g0 x k /\ far w1 g1 y l /\
  (1 <= w0 \/ 1 <= w1 -> a = k \/ a = l) /\ (2 <= w0 \/ 2 <= w1 -> b = chopDNPfx x \/ b = chopDNPfx y).
Lemma far_step g w z m a b : z <> EmptyString -> far w g z m -> exists w' a' b',
  d_gstep bad [MkDN a (Some b)] (Some 0) g = ([MkDN a' (Some b')], Some 0, snd (d_gstep bad [MkDN a (Some b)] (Some 0) g)) /\
  far w' (snd (d_gstep bad [MkDN a (Some b)] (Some 0) g)) z m /\ w <= w' /\
  (w' = w /\ a' = a /\ b' = b \/ w = 0 /\ w' = 1 /\ a' = m /\ b' = b \/ w = 1 /\ w' = 2 /\ a' = a /\ b' = chopDNPfx z).
Proof.
  intros Nz F. unfold far in F. unfold d_gstep. destruct (dph g) as [|x0 k1 p|x0 k1|x0 k1|x0 k1 p|x0 p| |p|p|p|p|k1 p|] eqn:Ph; try contradiction.
  - destruct F as [[T ->]|[T ->]]; rewrite T; eexists _, a, b; cbn [snd]; (split; [reflexivity|]).
    + unfold far. cbn. split; [now repeat split|]. split; [lia|]. now left.
    + unfold far. rewrite Ph, T. split; [right; split; reflexivity|]. split; [lia|]. now left.
  - destruct F as (-> & -> & -> & T & ->). eexists _, a, b; cbn [snd]; (split; [reflexivity|]). unfold far. cbn. split; [now repeat split|]. split; [lia|]. now left.
  - destruct F as (-> & -> & T & ->). apply filled_len in Nz. rewrite Nz. eexists _, a, b; cbn [snd]; (split; [reflexivity|]). unfold far. cbn. split; [now repeat split|]. split; [lia|]. now left.
  - destruct F as (-> & -> & -> & T & ->). eexists _, m, b; cbn [snd]; (split; [reflexivity|]). unfold far. cbn. split; [now repeat split|]. split; [lia|]. right. now left.
  - destruct F as (-> & -> & T & ->). eexists _, a, (chopDNPfx z); cbn [snd]; (split; [reflexivity|]). unfold far. cbn. split; [now repeat split|]. split; [lia|]. right. now right.
  - destruct F as (T & ->). eexists _, a, b; cbn [snd]; (split; [reflexivity|]). unfold far. cbn. split; [right; split; [exact T|reflexivity]|]. split; [lia|]. now left.
Qed.
Lemma two_run q : two_inv (at_ q).
Proof.
  induction q as [|i q IH] using rev_ind.
  - exists (MkDg [DSet x k] DIdle []), (MkDg [DSet y l] DIdle []), k0, s0, 0, 0. split; [reflexivity|]. split; [reflexivity|]. split; [reflexivity|].
    split; [left; now split|]. split; [left; now split|]. split; lia.
  - rewrite d_snoc. destruct IH as (g0 & g1 & a & b & w0 & w1 & G & H & V & F0 & F1 & Ka & Kb). unfold d_step. rewrite G, H, V. destruct i as [|[|i]]; cbn [nth_error].
    + destruct (far_step g0 w0 x k a b Hx F0) as (w' & a' & b' & -> & F & Lw & C). eexists _, g1, a', b', w', w1. split; [reflexivity|]. split; [reflexivity|]. split; [reflexivity|].
      split; [exact F|]. split; [exact F1|]. destruct C as [(-> & -> & ->)|[(-> & -> & -> & ->)|(-> & -> & -> & ->)]]; (split; [|]); try assumption; intros; auto; apply Kb; lia.
    + destruct (far_step g1 w1 y l a b Hy F1) as (w' & a' & b' & -> & F & Lw & C). eexists g0, _, a', b', w0, w'. split; [reflexivity|]. split; [reflexivity|]. split; [reflexivity|].
      split; [exact F0|]. split; [exact F|]. destruct C as [(-> & -> & ->)|[(-> & -> & -> & ->)|(-> & -> & -> & ->)]]; (split; [|]); try assumption; intros; auto; apply Kb; lia.
    + assert (nth_error (@nil dgo) i = None) as -> by now destruct i. exists g0, g1, a, b, w0, w1. now repeat split.
Qed.
End Two.
(* Two goroutines that call Set once each leave exactly the four mixtures of their keywords and
   texts. *)
Theorem C170_exact : forall bad d0 x y k l d, dn_isZero (Some d0) = false -> x <> EmptyString -> y <> EmptyString ->
  (exists q, let st := d_sched bad (d_start (Some d0) [[DSet x k]; [DSet y l]]) q in (forall g, In g (dgos st) -> d_returned g) /\ d_value st = Some d) <->
  exists m s, d = MkDN m (Some s) /\ (m = k \/ m = l) /\ (s = chopDNPfx x \/ s = chopDNPfx y).
Proof.
  intros bad [k0 [s0|]] x y k l d Z Hx Hy; [clear Z|discriminate Z]. split.
  - intros (q & R & Vd). destruct (two_run bad k0 s0 x y k l Hx Hy q) as (g0 & g1 & a & b & w0 & w1 & G & H & V & F0 & _ & Ka & Kb).
    unfold d_value in Vd. rewrite V, H in Vd. injection Vd as <-. exists a, b. split; [reflexivity|].
    destruct (R g0) as [T P]; [rewrite G; now left|]. unfold far in F0. rewrite P, T in F0. destruct F0 as [[Q _]|[_ ->]]; [discriminate Q|]. split; [apply Ka; lia|apply Kb; lia].
  - intros (m & s & -> & M & S). destruct x as [|cx x]; [now elim Hx|]. destruct y as [|cy y]; [now elim Hy|].
    assert (Do : forall q, let st := d_sched bad (d_start (Some (MkDN k0 (Some s0))) [[DSet (String cx x) k]; [DSet (String cy y) l]]) q in
      (exists r0 r1, dgos st = [MkDg [] DIdle r0; MkDg [] DIdle r1]) -> d_value st = Some (MkDN m (Some s)) -> exists q', let st := d_sched bad (d_start (Some (MkDN k0 (Some s0))) [[DSet (String cx x) k]; [DSet (String cy y) l]]) q' in
      (forall g, In g (dgos st) -> d_returned g) /\ d_value st = Some (MkDN m (Some s))).
    { intros q st (r0 & r1 & G) Vd. exists q. fold st. split; [|exact Vd]. intros g J. rewrite G in J. destruct J as [<-|[<-|[]]]; now split. }
    destruct M as [-> | ->], S as [-> | ->].
    + apply (Do [1; 1; 1; 1; 1; 1; 0; 0; 0; 0; 0; 0]); [eexists _, _|]; reflexivity.
    + apply (Do [1; 1; 1; 1; 0; 0; 0; 0; 0; 0; 1; 1]); [eexists _, _|]; reflexivity.
    + apply (Do [0; 0; 0; 0; 1; 1; 1; 1; 1; 1; 0; 0]); [eexists _, _|]; reflexivity.
    + apply (Do [0; 0; 0; 0; 0; 0; 1; 1; 1; 1; 1; 1]); [eexists _, _|]; reflexivity.
Qed.
(* A rule made by Eq beside one call of Set is exactly one of the four mixtures of the old and
   the new name. *)
Theorem C170_rule : forall bad k0 s0 x k m s, x <> EmptyString ->
  (exists q g, nth_error (dgos (d_sched bad (d_start (Some (MkDN k0 (Some s0))) [[DSet x k]; [DRule]]) q)) 1 = Some g /\ dres_of g = [DEq m s]) <->
  (m = k0 \/ m = k) /\ (s = dn_string bad (Some (MkDN k0 (Some s0))) \/ s = dn_string bad (Some (newDistinguishedName x k))).
Proof.
  intros bad k0 s0 x k m s Hx. assert (Nx : dn_string bad (Some (newDistinguishedName x k)) = (LocalScheme ++ chopDNPfx x)%string) by (destruct x; [now elim Hx|reflexivity]). split.
  - intros (q & g & E & R). destruct (C169_rule bad k0 s0 [[DSet x k]; [DRule]] q 1 g 0 m s E) as (a & b & c & ga & gb & d & Q & _ & _ & _ & Vd & -> & _ & _ & _ & ->); [now rewrite R|].
    destruct (C169_parts bad k0 s0 [[DSet x k]; [DRule]] a) as (k1 & s1 & V1 & K1 & _). rewrite V1 in Vd. injection Vd as <-.
    destruct (C169_parts bad k0 s0 [[DSet x k]; [DRule]] (a ++ 1 :: b)) as (k2 & s2 & V2 & _ & S2). rewrite V2, Nx. cbn [dn_kw dn_string]. split.
    + destruct K1 as [->|(cs & z & [<-|[<-|[]]] & [J|[]] & _)]; [now left| |discriminate J]. injection J as _ <-. now right.
    + destruct S2 as [->|(cs & z & k3 & [<-|[<-|[]]] & [J|[]] & _ & ->)]; [now left| |discriminate J]. injection J as <- _. now right.
  - rewrite Nx. intros [M S]. destruct x as [|cx x]; [now elim Hx|]. destruct M as [-> | ->], S as [-> | ->].
    + exists [1; 1; 1; 1]. eexists. split; reflexivity.
    + exists [1; 1; 1; 0; 0; 0; 0; 0; 1]. eexists. split; reflexivity.
    + exists [0; 0; 0; 0; 1; 1; 1; 1]. eexists. split; reflexivity.
    + exists [0; 0; 0; 0; 0; 1; 1; 1; 1]. eexists. split; reflexivity.
Qed.
(* A variable that was never set: a name that a goroutine has set can be lost to a call of Set
   with an empty text, which on a name that is set does nothing. *)
Theorem C170_lost : forall bad y k l, y <> EmptyString ->
  exists q, let st := d_sched bad (d_start None [[DSet EmptyString k]; [DSet y l; DString]]) q in
  (forall g, In g (dgos st) -> d_returned g) /\ d_value st = Some (MkDN k None) /\
  exists g, nth_error (dgos st) 1 = Some g /\ d_said g = [inl (dn_string bad (Some (newDistinguishedName y l)))].
Proof.
  intros bad y k l Hy. destruct y as [|cy y]; [now elim Hy|]. exists [0; 1; 1; 1; 1; 1; 1; 1; 1; 1; 0; 0; 0].
  split; [|split; [reflexivity|eexists; split; reflexivity]]. intros g [<-|[<-|[]]]; now split.
Qed.
(* Names that are only ever set as a whole are seen as a whole: false. *)
Theorem C170_refuted : ~ forall bad d0 css q d, dn_isZero (Some d0) = false -> let st := d_sched bad (d_start (Some d0) css) q in
  (forall g, In g (dgos st) -> d_returned g) -> d_value st = Some d -> d = d0 \/ exists cs x k, In cs css /\ In (DSet x k) cs /\ d = newDistinguishedName x k.
Proof.
  intros C. assert (X := C170_exact badBDN (MkDN BindUDN (Some "cn=a"%string)) "cn=admins" "cn=jesse" BindGDN BindUDN (MkDN BindGDN (Some "cn=jesse"%string)) eq_refl ltac:(discriminate) ltac:(discriminate)).
  destruct (proj2 X) as (q & R & Vd).
  - exists BindGDN, "cn=jesse"%string. split; [reflexivity|]. split; [now left|]. right. vm_compute. reflexivity.
  - destruct (C badBDN (MkDN BindUDN (Some "cn=a"%string)) _ q _ eq_refl R Vd) as [E|(cs & x & k & [<-|[<-|[]]] & [J|[]] & E)]; [discriminate E| |]; injection J as <- <-; vm_compute in E; discriminate E.
Qed.
Print Assumptions C170_exact.
Print Assumptions C170_rule.
Print Assumptions C170_lost.
Print Assumptions C170_refuted.

(* ---- concrete cases ---- *)
Example C169_witness : let css := [[DSet "ldap:///cn=admins" BindGDN; DRule]; [DString; DRule]] in
  let st := d_sched badBDN (d_start (UDN "cn=jesse") css) [1; 0; 0; 0; 1; 0; 1; 1; 1; 1; 0; 0; 0; 1; 0; 0; 0; 0; 0; 1; 1] in
  Forall d_returned (dgos st) /\ d_value st = GDN "cn=admins" /\
  map d_said (dgos st) = [[inr (BindGDN, "ldap:///cn=admins"%string)]; [inl "ldap:///cn=jesse"%string; inr (BindGDN, "ldap:///cn=admins"%string)]].
Proof. vm_compute. split; [|now split]. repeat constructor. Qed.
