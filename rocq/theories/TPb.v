(* C161: goroutines that set and print one permission-bind rule. *)
From Coq Require Import String List PeanoNat NArith Bool Lia.
From Verif Require Import GoStr MHeap MMisc MRights MConv MAci MPb SPb PAci PWhole PDrain.
Import ListNotations.
Open Scope list_scope.

Section T.
Variable W : world.
Local Notation sched := (q_sched W).
Local Notation step := (q_step W).
Local Notation gstep := (q_gstep W).

Lemma q_app st a b : sched st (a ++ b) = sched (sched st a) b.
Proof. apply fold_left_app. Qed.
Lemma q_snoc st a i : sched st (a ++ [i]) = step (sched st a) i.
Proof. now rewrite q_app. Qed.
Lemma q_step_go st i g0 : nth_error (qgos st) i = Some g0 ->
  qrule (step st i) = fst (gstep (qrule st) g0) /\
  nth_error (qgos (step st i)) i = Some (snd (gstep (qrule st) g0)) /\
  forall j, j <> i -> nth_error (qgos (step st i)) j = nth_error (qgos st) j.
Proof.
  intros E. unfold q_step. rewrite E. destruct (gstep (qrule st) g0) as [r g']. cbn [qrule qgos fst snd].
  split; [reflexivity|]. split; [apply wr_same; apply nth_error_Some; congruence|]. intros j J. now apply wr_other.
Qed.
Lemma q_step_none st i : nth_error (qgos st) i = None -> step st i = st.
Proof. intros E. unfold q_step. now rewrite E. Qed.
Lemma q_step_len st i : List.length (qgos (step st i)) = List.length (qgos st).
Proof.
  unfold q_step. destruct (nth_error (qgos st) i) as [g|]; [|reflexivity].
  destruct (gstep (qrule st) g) as [r g']. cbn [qgos]. apply wr_len.
Qed.
Lemma q_step_in st i g : In g (qgos (step st i)) ->
  In g (qgos st) \/ exists g0, nth_error (qgos st) i = Some g0 /\ g = snd (gstep (qrule st) g0).
Proof.
  unfold q_step. destruct (nth_error (qgos st) i) as [g0|] eqn:E; [|now left].
  destruct (gstep (qrule st) g0) as [r g'] eqn:S. cbn [qgos]. intros I. apply wr_in in I as [->|I]; [|now left].
  right. exists g0. split; [reflexivity|]. now rewrite S.
Qed.

(* ---- the parts of the rule ---- *)
Section Parts.
Variables (r0 : pbrec) (css : list (list qcall)).
Definition fine_p (p : permission) : Prop :=
  perm_valid p = true /\ (p = pb_p r0 \/ exists x, q_gives W css x /\ stands_p W x p).
Definition fine_b (o : option bctx) : Prop :=
  exists b, o = Some b /\ (pb_b r0 = Some b \/ exists x, q_gives W css x /\ stands_b W x b).
Definition fine_op (o : qop) : Prop :=
  match o with QP p => fine_p p | QB b => fine_b b | QTextB p => fine_p p | _ => True end.
Definition fine_go (g : qgo) : Prop :=
  Forall fine_op (qcur g) /\ (forall c, In c (qtodo g) -> exists cs, In cs css /\ In c cs) /\
  (forall t, In t (qtexts g) -> exists p b, fine_p p /\ fine_b (Some b) /\ t = rule_shown W p b).

Lemma parse_parts s v : parsePBR W s = Gives (Some v) -> perm_valid (pb_p v) = true /\ exists b, pb_b v = Some b.
Proof.
  intros E. apply parsePBR_valid in E. apply pbr_valid_iff in E as (d & n & b & E). injection E as ->. split; [reflexivity|now exists b].
Qed.
Lemma set_fine cs : In cs css -> forall xs a, In (QSet (a ++ xs)) cs -> Forall (taken W) a -> Forall fine_op (set_ops W xs).
Proof.
  intros C. induction xs as [|x xs IH]; intros a I F; [constructor|].
  assert (G : taken W x -> q_gives W css x /\ Forall fine_op (set_ops W xs)).
  { intros Tx. assert (F' : Forall (taken W) (a ++ [x])) by (apply Forall_app; split; [assumption|now constructor]). split.
    - exists cs, a, xs. now repeat split.
    - apply (IH (a ++ [x])); [now rewrite <- app_assoc|assumption]. }
  destruct x as [s|p|b|]; cbn [set_ops].
  - destruct (parsePBR W s) as [| |[v|]] eqn:E; try (now constructor). constructor.
    + split; [now apply (parse_parts s v)|]. right. exists (PAStr s). split; [apply G; now exists v|]. right. now exists s, v.
    + constructor; [|apply G; now exists v]. destruct (parse_parts s v E) as [_ [b B]]. exists b. split; [assumption|]. right.
      exists (PAStr s). split; [apply G; now exists v|]. right. now exists s, v.
  - destruct (perm_valid p) eqn:V; [|constructor]. constructor; [|now apply G].
    split; [assumption|]. right. exists (PAPerm p). split; [now apply G|now left].
  - destruct (bctx_valid b) eqn:V; [|constructor]. constructor; [|now apply G].
    exists b. split; [reflexivity|]. right. exists (PABind b). split; [now apply G|now left].
  - now apply G.
Qed.
Lemma gstep_fine r g : fine_p (pb_p r) -> fine_b (pb_b r) -> fine_go g ->
  fine_p (pb_p (fst (gstep r g))) /\ fine_b (pb_b (fst (gstep r g))) /\ fine_go (snd (gstep r g)).
Proof.
  intros P B (C & T & X). unfold q_gstep.
  assert (Go : forall k, Forall fine_op k -> fine_go (MkQg (qtodo g) k (qtexts g))) by (intros k K; now repeat split).
  destruct (qcur g) as [|o k] eqn:Cg.
  - destruct (qtodo g) as [|c t] eqn:E; cbn [fst snd].
    + split; [assumption|]. split; [assumption|]. unfold fine_go. rewrite Cg, E. split; [constructor|]. split; [intros c []|assumption].
    + split; [assumption|]. split; [assumption|]. repeat split; cbn [qcur qtodo qtexts].
      * destruct (T c (or_introl eq_refl)) as (cs & I & J). destruct c as [xs|]; cbn [call_ops]; [|now repeat constructor].
        apply (set_fine cs I xs []); [assumption|constructor].
      * intros d D. apply T. now right.
      * assumption.
  - inversion C as [|? ? Co Ck]; subst. cbn [fine_op] in Co.
    destruct P as [Pv P0]. assert (P : fine_p (pb_p r)) by now split. destruct B as (b & Bb & B0). assert (B : fine_b (pb_b r)) by now exists b.
    destruct o; cbn [fine_op] in Co.
    + cbn [fst snd pb_p pb_b]. now auto.
    + cbn [fst snd pb_p pb_b]. now auto.
    + destruct (perm_is_zero (pb_p r)); cbn [fst snd]; repeat (split; [assumption|]); apply Go; now repeat constructor.
    + rewrite Bb. cbn [fst snd]. rewrite Bb. repeat (split; [assumption || now rewrite <- Bb|]). apply Go; now repeat constructor.
    + rewrite Pv. cbn [fst snd]. repeat (split; [assumption|]). apply Go; now repeat constructor.
    + rewrite Bb. cbn [fst snd]. rewrite Bb. repeat (split; [assumption || now rewrite <- Bb|]). apply Go; now repeat constructor.
    + cbn [fst snd]. repeat (split; [assumption|]). apply Go. constructor; [exact P|constructor].
    + cbn [fst snd]. repeat (split; [assumption|]). repeat split; cbn [qcur qtodo qtexts]; [constructor|assumption|].
      intros t I. apply in_app_or in I as [I|[<-|[]]]; [now apply X|]. exists p, b. split; [assumption|]. split; [now exists b|].
      unfold rule_shown. now rewrite Bb.
Qed.
Lemma fine_run (V : pbr_valid (Some r0) = true) q : let st := sched (q_start r0 css) q in
  fine_p (pb_p (qrule st)) /\ fine_b (pb_b (qrule st)) /\ forall g, In g (qgos st) -> fine_go g.
Proof.
  induction q as [|i q IH] using rev_ind.
  - cbn. apply pbr_valid_iff in V as (d & n & b & E). injection E as E. split; [|split].
    + split; [now rewrite E|now left].
    + exists b. rewrite E. split; [reflexivity|now left].
    + intros g H. apply in_map_iff in H as (cs & <- & I). unfold fine_go. cbn [qcur qtodo qtexts]. split; [constructor|]. split; [|intros t []]. intros c J. now exists cs.
  - cbn zeta. rewrite q_snoc. set (st := sched (q_start r0 css) q) in *. cbn zeta in IH. destruct IH as (P & B & G).
    destruct (nth_error (qgos st) i) as [g0|] eqn:E; [|rewrite q_step_none by assumption; exact (conj P (conj B G))].
    destruct (q_step_go st i g0 E) as (R & _ & _). destruct (gstep_fine (qrule st) g0 P B (G g0 (nth_error_In _ _ E))) as (P' & B' & G').
    rewrite R. split; [assumption|]. split; [assumption|]. intros g I. apply q_step_in in I as [I|(g1 & E1 & ->)]; [now apply G|].
    rewrite E in E1. injection E1 as <-. assumption.
Qed.
End Parts.

(* Both parts are there at every moment, and each is the one of the start or one given. *)
Theorem C161_kept : forall r css q, pbr_valid (Some r) = true ->
  let r' := qrule (sched (q_start r css) q) in
  pbr_valid (Some r') = true /\
  (pb_p r' = pb_p r \/ exists x, q_gives W css x /\ stands_p W x (pb_p r')) /\
  (exists b, pb_b r' = Some b /\ (pb_b r = Some b \/ exists x, q_gives W css x /\ stands_b W x b)).
Proof.
  intros r css q V r'. destruct (fine_run r css V q) as ([P1 P2] & (b & B1 & B2) & _). fold r' in P1, P2, B1, B2.
  split; [|split; [assumption|now exists b]]. destruct r' as [p ob]. cbn [pb_p pb_b] in *. subst ob. destruct p; [discriminate P1|reflexivity].
Qed.
(* Each String returns the text of a permission and a bind rule of the start or given:
   never the marker of a rule that is not valid. *)
Theorem C161_given : forall r css q g t, pbr_valid (Some r) = true ->
  In g (qgos (sched (q_start r css) q)) -> In t (qtexts g) ->
  exists p b, t = rule_shown W p b /\
    (p = pb_p r \/ exists x, q_gives W css x /\ stands_p W x p) /\
    (pb_b r = Some b \/ exists x, q_gives W css x /\ stands_b W x b).
Proof.
  intros r css q g t V I J. destruct (fine_run r css V q) as (_ & _ & G). destruct (G g I) as (_ & _ & X).
  destruct (X t J) as (p & b & [_ P] & (b' & E & B) & ->). injection E as <-. exists p, b. now repeat split.
Qed.

(* ---- the moments of the reads ---- *)
Section Moments.
Variables (r0 : pbrec) (css : list (list qcall)) (V : pbr_valid (Some r0) = true).
Notation at_ q := (sched (q_start r0 css) q).
(* goroutine i is in a call, k texts returned *)
Definition during (q : list nat) (i k : nat) : Prop :=
  exists g, nth_error (qgos (at_ q)) i = Some g /\ qcur g <> [] /\ List.length (qtexts g) = k.
Definition text_from (q : list nat) (i k : nat) (t : string) : Prop :=
  exists a b c o, q = a ++ b ++ c /\ during a i k /\ during (a ++ b) i k /\ pb_b (qrule (at_ (a ++ b))) = Some o /\
    t = rule_shown W (pb_p (qrule (at_ a))) o.
Lemma text_more q i' i k t : text_from q i k t -> text_from (q ++ [i']) i k t.
Proof. intros (a & b & c & o & -> & H). exists a, b, (c ++ [i']), o. split; [now rewrite <- !app_assoc|assumption]. Qed.
Definition held (q : list nat) (i : nat) (g : qgo) : Prop :=
  match qcur g with
  | QTextB p :: _ => exists a b, q = a ++ b /\ during a i (List.length (qtexts g)) /\ p = pb_p (qrule (at_ a))
  | _ => True
  end.
Lemma no_read xs : forall p k, set_ops W xs <> QTextB p :: k.
Proof.
  induction xs as [|[s|p|b|] xs IH]; intros p' k; cbn [set_ops]; try discriminate; [| | |apply IH].
  - destruct (parsePBR W s) as [| |[v|]]; discriminate.
  - destruct (perm_valid p); discriminate.
  - destruct (bctx_valid b); discriminate.
Qed.
Lemma all_reads xs : Forall (fun o => match o with QP _ | QB _ => True | _ => False end) (set_ops W xs).
Proof.
  induction xs as [|[s|p|b|] xs IH]; cbn [set_ops]; [constructor| | | |assumption].
  - destruct (parsePBR W s) as [| |[v|]]; now repeat constructor.
  - destruct (perm_valid p); now repeat constructor.
  - destruct (bctx_valid b); now repeat constructor.
Qed.
(* the rest of a call is writes, or one read *)
Definition shape (k : list qop) : Prop :=
  Forall (fun o => match o with QP _ | QB _ => True | _ => False end) k \/ exists o, k = [o].
Lemma gstep_shape r g : shape (qcur g) -> shape (qcur (snd (gstep r g))).
Proof.
  intros S. unfold q_gstep. destruct (qcur g) as [|o k] eqn:C.
  - destruct (qtodo g) as [|c t]; cbn [snd]; [now rewrite C|]. cbn [qcur]. destruct c as [xs|]; [left; apply all_reads|right; now exists QZeroP].
  - destruct o; cbn [snd qcur]; try (destruct S as [S|[o' S]]; [inversion S; subst|injection S as <- ->]; now left).
    + destruct (perm_is_zero _); right; eexists; reflexivity.
    + destruct (pb_b r); cbn [snd qcur]; [right; eexists; reflexivity|left; constructor].
    + destruct (perm_valid _); cbn [snd qcur]; [right; eexists; reflexivity|left; constructor].
    + destruct (pb_b r); cbn [snd qcur]; [right; eexists; reflexivity|left; constructor].
    + right; eexists; reflexivity.
Qed.
Lemma moments_run q i g : nth_error (qgos (at_ q)) i = Some g ->
  shape (qcur g) /\ held q i g /\ forall k t, nth_error (qtexts g) k = Some t -> text_from q i k t.
Proof.
  revert i g. induction q as [|j q IH] using rev_ind; intros i g.
  - cbn. rewrite nth_error_map. destruct (nth_error css i) as [cs|]; [|discriminate]. intros [= <-]. cbn [qcur qtexts]. repeat split.
    + left. constructor.
    + intros [|k] t; discriminate.
  - rewrite q_snoc. set (st := at_ q) in *. destruct (nth_error (qgos st) j) as [g0|] eqn:E.
    2:{ rewrite q_step_none by assumption. intros H. destruct (IH i g H) as (S & Hd & T). split; [assumption|]. split; [|intros k t K; now apply text_more, T].
        unfold held in *. destruct (qcur g) as [|[] ?]; trivial. destruct Hd as (a & b & -> & D). exists a, (b ++ [j]). now rewrite <- app_assoc. }
    destruct (q_step_go st j g0 E) as (_ & N & O). destruct (Nat.eq_dec i j) as [->|D].
    2:{ rewrite O by assumption. intros H. destruct (IH i g H) as (S & Hd & T). split; [assumption|]. split; [|intros k t K; now apply text_more, T].
        unfold held in *. destruct (qcur g) as [|[] ?]; trivial. destruct Hd as (a & b & -> & D'). exists a, (b ++ [j]). now rewrite <- app_assoc. }
    rewrite N. intros [= <-]. destruct (IH j g0 E) as (S & Hd & T). split; [now apply gstep_shape|].
    destruct (fine_run r0 css V q) as ([Pv _] & (b & Bb & _) & _). fold st in Pv, Bb.
    assert (Old : forall k t, nth_error (qtexts g0) k = Some t -> text_from (q ++ [j]) j k t) by (intros k t K; now apply text_more, T).
    unfold q_gstep. destruct (qcur g0) as [|o k] eqn:C.
    { destruct (qtodo g0) as [|c t]; cbn [snd].
      - unfold held. rewrite C. now split.
      - unfold held. cbn [qcur qtexts]. split; [|assumption]. destruct c as [xs|]; cbn [call_ops]; [|exact I].
        destruct (set_ops W xs) as [|[] ?] eqn:X; trivial. exfalso. now apply (no_read xs p l). }
    assert (K1 : match o with QP _ | QB _ => forall p l, k <> QTextB p :: l | _ => True end).
    { destruct S as [S|[o' S]]; [|injection S as <- ->; now destruct o]. inversion S as [|? ? _ Sk]; subst. destruct o; trivial; intros p' l ->; inversion Sk; contradiction. }
    destruct o; cbn [snd].
    + split; [|assumption]. unfold held. cbn [qcur]. destruct k as [|[] ?]; trivial. now destruct (K1 p0 k).
    + split; [|assumption]. unfold held. cbn [qcur]. destruct k as [|[] ?]; trivial. now destruct (K1 p k).
    + destruct (perm_is_zero _); cbn [snd]; now split.
    + rewrite Bb. cbn [snd]. now split.
    + rewrite Pv. cbn [snd]. now split.
    + rewrite Bb. cbn [snd]. now split.
    + split; [|assumption]. unfold held. cbn [qcur qtexts]. exists q, [j]. split; [reflexivity|]. split; [|reflexivity].
      exists g0. fold st. split; [assumption|]. split; [now rewrite C|reflexivity].
    + unfold held at 1. cbn [qcur qtexts]. split; [exact I|]. intros n t H. unfold held in Hd. rewrite C in Hd. destruct Hd as (a & b' & -> & Da & ->).
      destruct (Nat.lt_ge_cases n (List.length (qtexts g0))) as [L|L]; [rewrite nth_error_app1 in H by assumption; now apply Old|].
      rewrite nth_error_app2 in H by assumption. destruct (n - List.length (qtexts g0)) as [|m] eqn:M; [|now destruct m].
      injection H as <-. assert (n = List.length (qtexts g0)) as -> by lia. exists a, b', [j], b. split; [now rewrite <- app_assoc|]. split; [assumption|].
      fold st. rewrite Bb. split; [|split; [reflexivity|reflexivity]]. exists g0. fold st. split; [assumption|]. split; [now rewrite C|reflexivity].
Qed.
End Moments.
(* Each String returns the permission of one moment during the call with the bind rule of
   that or a later moment during the call. *)
Theorem C161_text : forall r css q i g k t, pbr_valid (Some r) = true ->
  let at_ q := sched (q_start r css) q in
  nth_error (qgos (at_ q)) i = Some g -> nth_error (qtexts g) k = Some t ->
  exists a b c o, q = a ++ b ++ c /\ pb_b (qrule (at_ (a ++ b))) = Some o /\
    t = rule_shown W (pb_p (qrule (at_ a))) o /\
    (* the goroutine is in a call, with as many texts returned as precede t *)
    (exists ga, nth_error (qgos (at_ a)) i = Some ga /\ qcur ga <> [] /\ List.length (qtexts ga) = k) /\
    (exists gb, nth_error (qgos (at_ (a ++ b))) i = Some gb /\ qcur gb <> [] /\ List.length (qtexts gb) = k).
Proof.
  intros r css q i g k t V at_ E T. destruct (moments_run r css V q i g E) as (_ & _ & H).
  destruct (H k t T) as (a & b & c & o & -> & A & B & O & ->). exists a, b, c, o. now repeat split.
Qed.

(* ---- what is left of the calls of one goroutine ---- *)
Section Sole.
Variable X : Type.
Variable get : pbrec -> X.
Variable own : qop -> option X.
Definition put (x : X) (o : qop) : X := match own o with Some y => y | None => x end.
Hypothesis reads : forall o, match o with QP _ | QB _ => True | _ => own o = None end.
Hypothesis get_p : forall p r, get (MkPB p (pb_b r)) = put (get r) (QP p).
Hypothesis get_b : forall b r, get (MkPB (pb_p r) b) = put (get r) (QB b).
Definition rest (g : qgo) : list qop := qcur g ++ flat_map (call_ops W) (qtodo g).
Lemma put_read x o : match o with QP _ | QB _ => True | _ => put x o = x end.
Proof. generalize (reads o). destruct o; trivial; unfold put; now intros ->. Qed.
Lemma gstep_rest r g : shape (qcur g) -> fold_left put (rest (snd (gstep r g))) (get (fst (gstep r g))) = fold_left put (rest g) (get r).
Proof.
  intros S. unfold rest, q_gstep. destruct (qcur g) as [|o k] eqn:C.
  - destruct (qtodo g) as [|c t] eqn:E; cbn [fst snd qcur qtodo]; [now rewrite C, E|]. cbn [flat_map app]. reflexivity.
  - assert (K : match o with QP _ | QB _ => True | _ => k = [] end).
    { destruct S as [S|[o' S]]; [inversion S; subst; now destruct o|injection S as <- ->; now destruct o]. }
    generalize (put_read (get r) o). intros Q.
    destruct o; cbn [fst snd qcur qtodo app fold_left]; rewrite ?get_p, ?get_b; try reflexivity; subst k.
    + rewrite Q. destruct (perm_is_zero _); cbn [fst snd qcur qtodo app fold_left]; now rewrite (put_read (get r) QZeroB) || rewrite (put_read (get r) QValidP).
    + rewrite Q. destruct (pb_b r); cbn [fst snd qcur qtodo app fold_left]; rewrite ?(put_read (get r) QValidP); reflexivity.
    + rewrite Q. destruct (perm_valid _); cbn [fst snd qcur qtodo app fold_left]; rewrite ?(put_read (get r) QValidB); reflexivity.
    + rewrite Q. destruct (pb_b r); cbn [fst snd qcur qtodo app fold_left]; rewrite ?(put_read (get r) QTextP); reflexivity.
    + rewrite Q. now rewrite (put_read (get r) (QTextB (pb_p r))).
    + rewrite Q. reflexivity.
Qed.
Definition silent (g : qgo) : Prop := Forall (fun o => own o = None) (rest g).
Lemma gstep_silent r g : shape (qcur g) -> silent g -> silent (snd (gstep r g)) /\ get (fst (gstep r g)) = get r.
Proof.
  intros S Q. unfold silent, rest, q_gstep in *. destruct (qcur g) as [|o k] eqn:C.
  - destruct (qtodo g) as [|c t] eqn:E; cbn [fst snd qcur qtodo]; [rewrite C, E; now split|]. now split.
  - cbn [app] in Q. inversion Q as [|? ? Qo Qk]; subst. assert (Qt : Forall (fun o => own o = None) (flat_map (call_ops W) (qtodo g))) by now apply Forall_app in Qk.
    destruct o; cbn [fst snd qcur qtodo app].
    + split; [assumption|]. rewrite get_p. unfold put. now rewrite Qo.
    + split; [assumption|]. rewrite get_b. unfold put. now rewrite Qo.
    + destruct (perm_is_zero _); cbn [fst snd qcur qtodo app]; split; trivial; constructor; trivial; [exact (reads QZeroB)|exact (reads QValidP)].
    + destruct (pb_b r); cbn [fst snd qcur qtodo app]; split; trivial; constructor; trivial; exact (reads QValidP).
    + destruct (perm_valid _); cbn [fst snd qcur qtodo app]; split; trivial; constructor; trivial; exact (reads QValidB).
    + destruct (pb_b r); cbn [fst snd qcur qtodo app]; split; trivial; constructor; trivial; exact (reads QTextP).
    + split; trivial. constructor; trivial. exact (reads (QTextB _)).
    + now split.
Qed.
Lemma sole_run r css i cs q : nth_error css i = Some cs ->
  (forall j cs', j <> i -> nth_error css j = Some cs' -> Forall (fun o => own o = None) (flat_map (call_ops W) cs')) ->
  let st := sched (q_start r css) q in
  (exists g, nth_error (qgos st) i = Some g /\ shape (qcur g) /\ fold_left put (rest g) (get (qrule st)) = fold_left put (flat_map (call_ops W) cs) (get r)) /\
  (forall j g, j <> i -> nth_error (qgos st) j = Some g -> shape (qcur g) /\ silent g).
Proof.
  intros Ei O. induction q as [|j q IH] using rev_ind.
  - cbn. rewrite nth_error_map, Ei. split.
    + eexists. split; [reflexivity|]. split; [left; constructor|reflexivity].
    + intros j g D. rewrite nth_error_map. destruct (nth_error css j) as [cs'|] eqn:E; [|discriminate]. intros [= <-]. split; [left; constructor|].
      apply (O j cs' D E).
  - cbn zeta. rewrite q_snoc. set (st := sched (q_start r css) q) in *. destruct IH as ((g & G & S & F) & Q).
    destruct (nth_error (qgos st) j) as [g0|] eqn:E; [|rewrite q_step_none by assumption; split; [now exists g|assumption]].
    destruct (q_step_go st j g0 E) as (R & N & T). destruct (Nat.eq_dec j i) as [->|D].
    + rewrite E in G. injection G as ->. split.
      * eexists. split; [exact N|]. split; [now apply gstep_shape|]. rewrite R, gstep_rest by assumption. assumption.
      * intros k h K. rewrite T by assumption. now apply Q.
    + destruct (Q j g0 D E) as [S0 Q0]. destruct (gstep_silent (qrule st) g0 S0 Q0) as [Q1 R1]. split.
      * exists g. rewrite T by congruence. split; [assumption|]. split; [assumption|]. now rewrite R, R1.
      * intros k h K. destruct (Nat.eq_dec k j) as [->|K']; [rewrite N; intros [= <-]; split; [now apply gstep_shape|assumption]|].
        rewrite T by assumption. now apply Q.
Qed.
End Sole.
(* the effect of the writes of a call is that of the call *)
Definition app_op (r : pbrec) (o : qop) : pbrec :=
  match o with QP p => MkPB p (pb_b r) | QB b => MkPB (pb_p r) b | _ => r end.
Lemma set_ops_set xs : forall r v, pbrec_set W r xs = Some v -> fold_left app_op (set_ops W xs) r = v.
Proof.
  induction xs as [|[s|p|b|] xs IH]; intros r v; cbn [pbrec_set set_ops fold_left]; [congruence| | | |apply IH].
  - destruct (parsePBR W s) as [| |[x|]]; cbn [fold_left app_op pb_p pb_b]; intros H; try congruence. apply IH in H. now destruct x.
  - destruct (perm_valid p); [apply IH|cbn; congruence].
  - destruct (bctx_valid b); [apply IH|cbn; congruence].
Qed.
Lemma set_valid xs : forall r v, pbrec_set W r xs = Some v -> perm_valid (pb_p r) = true -> perm_valid (pb_p v) = true.
Proof.
  induction xs as [|[s|p|b|] xs IH]; intros r v; cbn [pbrec_set]; [congruence| | | |apply IH].
  - destruct (parsePBR W s) as [| |[x|]] eqn:E; intros H Q; try congruence. apply IH in H; [assumption|]. now apply (parse_parts s x).
  - destruct (perm_valid p) eqn:V; [|congruence]. intros H _. now apply IH in H.
  - destruct (bctx_valid b); [|congruence]. intros H P. now apply IH in H.
Qed.
Lemma sets_ops cs : forall r v, perm_valid (pb_p r) = true -> pbr_sets W (Some r) (sets_of cs) = Some (Some v) ->
  fold_left app_op (flat_map (call_ops W) cs) r = v.
Proof.
  induction cs as [|[xs|] cs IH]; intros r v P H.
  - cbn in H. cbn. congruence.
  - cbn [sets_of flat_map app] in H. fold (sets_of cs) in H. cbn [pbr_sets] in H. unfold pbr_set in H. cbn [pbr_isZero] in H.
    unfold perm_valid in P. apply negb_true_iff in P. rewrite P in H. cbn [andb] in H. destruct (pbrec_set W r xs) as [w|] eqn:E; [|discriminate].
    cbn [flat_map call_ops]. rewrite fold_left_app, (set_ops_set xs r w E). apply IH; [|assumption]. apply (set_valid xs r w E). unfold perm_valid. now rewrite P.
  - cbn [flat_map call_ops app fold_left app_op]. cbn [sets_of flat_map app] in H. now apply IH.
Qed.
Lemma returned_rest st i g : q_returned st -> nth_error (qgos st) i = Some g -> rest g = [].
Proof. intros R E. destruct (R g (nth_error_In _ _ E)) as [A B]. unfold rest. now rewrite A, B. Qed.
Definition own_p (o : qop) : option permission := match o with QP p => Some p | _ => None end.
Definition own_b (o : qop) : option (option bctx) := match o with QB b => Some b | _ => None end.
Lemma fold_p ops : forall r, fold_left (put permission own_p) ops (pb_p r) = pb_p (fold_left app_op ops r).
Proof. induction ops as [|o ops IH]; intros r; [reflexivity|]. cbn [fold_left]. rewrite <- IH. f_equal. now destruct o. Qed.
Lemma fold_b ops : forall r, fold_left (put (option bctx) own_b) ops (pb_b r) = pb_b (fold_left app_op ops r).
Proof. induction ops as [|o ops IH]; intros r; [reflexivity|]. cbn [fold_left]. rewrite <- IH. f_equal. now destruct o. Qed.
Lemma no_perm_ops xs : (forall x p, In x xs -> ~ stands_p W x p) -> Forall (fun o => own_p o = None) (set_ops W xs).
Proof.
  induction xs as [|x xs IH]; intros N; [constructor|]. assert (M : forall y p, In y xs -> ~ stands_p W y p) by (intros y p I; apply N; now right).
  destruct x as [s|p|b|]; cbn [set_ops].
  - destruct (parsePBR W s) as [| |[v|]] eqn:E; try (now constructor). exfalso. apply (N (PAStr s) (pb_p v)); [now left|]. right. now exists s, v.
  - exfalso. apply (N (PAPerm p) p); now left.
  - destruct (bctx_valid b); [|constructor]. constructor; [reflexivity|now apply IH].
  - now apply IH.
Qed.
Lemma no_bind_ops xs : (forall x b, In x xs -> ~ stands_b W x b) -> Forall (fun o => own_b o = None) (set_ops W xs).
Proof.
  induction xs as [|x xs IH]; intros N; [constructor|]. assert (M : forall y b, In y xs -> ~ stands_b W y b) by (intros y b I; apply N; now right).
  destruct x as [s|p|b|]; cbn [set_ops].
  - destruct (parsePBR W s) as [| |[v|]] eqn:E; try (now constructor). exfalso. destruct (parse_parts s v E) as [_ [b B]]. apply (N (PAStr s) b); [now left|]. right. now exists s, v.
  - destruct (perm_valid p); [|constructor]. constructor; [reflexivity|now apply IH].
  - exfalso. apply (N (PABind b) b); now left.
  - now apply IH.
Qed.

(* If one goroutine alone gives permissions, then once all calls have returned the permission
   is the one that its calls, made one after the other on the rule by nobody else, leave;
   the same for bind rules. *)
Theorem C161_sole : forall r css i cs q v, pbr_valid (Some r) = true -> nth_error css i = Some cs ->
  pbr_sets W (Some r) (sets_of cs) = Some (Some v) ->
  let st := sched (q_start r css) q in q_returned st ->
  ((forall j cs', j <> i -> nth_error css j = Some cs' -> no_perm W cs') -> pb_p (qrule st) = pb_p v) /\
  ((forall j cs', j <> i -> nth_error css j = Some cs' -> no_bind W cs') -> pb_b (qrule st) = pb_b v).
Proof.
  intros r css i cs q v V Ei H st R.
  assert (P : perm_valid (pb_p r) = true). { apply pbr_valid_iff in V as (d & n & b & E). injection E as ->. reflexivity. }
  assert (Z := sets_ops cs r v P H). split; intros O.
  - destruct (sole_run permission pb_p own_p) with (r := r) (css := css) (i := i) (cs := cs) (q := q) as ((g & G & _ & F) & _); trivial.
    + now intros [].
    + intros j cs' D E. specialize (O j cs' D E). apply Forall_forall. intros o I. apply in_flat_map in I as (c & Ic & Io).
      destruct c as [xs|]; cbn [call_ops] in Io; [|destruct Io as [<-|[]]; reflexivity].
      assert (A := no_perm_ops xs (fun x p J => O xs x p Ic J)). rewrite Forall_forall in A. now apply A.
    + fold st in G, F. rewrite (returned_rest st i g R G) in F. cbn [fold_left] in F. rewrite F, fold_p, Z. reflexivity.
  - destruct (sole_run (option bctx) pb_b own_b) with (r := r) (css := css) (i := i) (cs := cs) (q := q) as ((g & G & _ & F) & _); trivial.
    + now intros [].
    + intros j cs' D E. specialize (O j cs' D E). apply Forall_forall. intros o I. apply in_flat_map in I as (c & Ic & Io).
      destruct c as [xs|]; cbn [call_ops] in Io; [|destruct Io as [<-|[]]; reflexivity].
      assert (A := no_bind_ops xs (fun x b J => O xs x b Ic J)). rewrite Forall_forall in A. now apply A.
    + fold st in G, F. rewrite (returned_rest st i g R G) in F. cbn [fold_left] in F. rewrite F, fold_b, Z. reflexivity.
Qed.

(* From any point on, the goroutines can be run on until every call has returned. *)
Definition steps_left (k : list qop) : nat :=
  match k with
  | [] => 0
  | o :: t => match o with
    | QP _ | QB _ => S (List.length t)
    | QZeroP => 6 | QZeroB => 5 | QValidP => 4 | QValidB => 3 | QTextP => 2 | QTextB _ => 1
    end
  end.
Theorem C161_returns : forall r css q, exists q', q_returned (sched (q_start r css) (q ++ q')).
Proof.
  intros r css q.
  assert (Sh : forall q i g, nth_error (qgos (sched (q_start r css) q)) i = Some g -> shape (qcur g)).
  { clear q. induction q as [|j q IH] using rev_ind; intros i g.
    - cbn. rewrite nth_error_map. destruct (nth_error css i); [|discriminate]. intros [= <-]. left. constructor.
    - rewrite q_snoc. set (st := sched (q_start r css) q) in *. destruct (nth_error (qgos st) j) as [g0|] eqn:E; [|rewrite q_step_none by assumption; apply IH].
      destruct (q_step_go st j g0 E) as (_ & N & O). destruct (Nat.eq_dec i j) as [->|D]; [rewrite N; intros [= <-]; now apply gstep_shape, (IH j)|rewrite O by assumption; apply IH]. }
  (* the generic lemma works on all states: keep the shape in the state *)
  set (S0 := { st : qstate | forall i g, nth_error (qgos st) i = Some g -> shape (qcur g) }).
  assert (Keep : forall st i, (forall i g, nth_error (qgos st) i = Some g -> shape (qcur g)) -> forall j g, nth_error (qgos (step st i)) j = Some g -> shape (qcur g)).
  { intros st i H j g. destruct (nth_error (qgos st) i) as [g0|] eqn:E; [|rewrite q_step_none by assumption; apply H].
    destruct (q_step_go st i g0 E) as (_ & N & O). destruct (Nat.eq_dec j i) as [->|D]; [rewrite N; intros [= <-]; now apply gstep_shape, (H i)|rewrite O by assumption; apply H]. }
  set (step0 := fun (s : S0) i => exist (fun st => forall i g, nth_error (qgos st) i = Some g -> shape (qcur g)) (step (proj1_sig s) i) (Keep _ i (proj2_sig s)) : S0).
  destruct (drain S0 qgo (fun s => qgos (proj1_sig s)) step0 (fun g => qtodo g = [] /\ qcur g = []) (fun g => List.length (qtodo g)) (fun _ g => steps_left (qcur g)))
    with (s := exist (fun st => forall i g, nth_error (qgos st) i = Some g -> shape (qcur g)) (sched (q_start r css) q) (Sh q) : S0) as [q' Q].
  - intros s i. apply q_step_len.
  - intros s i j D. cbn. destruct (nth_error (qgos (proj1_sig s)) i) as [g0|] eqn:E; [now apply (q_step_go _ _ _ E)|now rewrite q_step_none].
  - intros [st Hs] i g E. cbn [proj1_sig] in *. assert (S := Hs i g E). destruct (q_step_go st i g E) as (_ & N & _). cbn. 
    destruct (qcur g) as [|o k] eqn:C.
    + destruct (qtodo g) as [|c t] eqn:T; [now left|]. right. eexists. split; [exact N|]. left. unfold q_gstep. rewrite C, T. cbn. lia.
    + right. eexists. split; [exact N|]. right. unfold q_gstep. rewrite C.
      assert (K : match o with QP _ | QB _ => steps_left k <= List.length k | _ => True end).
      { destruct S as [S|[o' S]]; [|injection S as <- ->; now destruct o]. inversion S as [|? ? _ Sk]; subst. destruct o; trivial; destruct k as [|[] k]; cbn; try lia; inversion Sk; contradiction. }
      destruct o; cbn [snd qcur qtodo steps_left]; try (destruct (perm_is_zero _)); try (destruct (perm_valid _)); try (destruct (pb_b (qrule st))); cbn [snd qcur qtodo steps_left]; lia.
  - exists q'. rewrite q_app. intros g I. apply (Q g).
    assert (P : forall q s, proj1_sig (fold_left step0 q s) = sched (proj1_sig s) q).
    { clear. induction q as [|i q IH]; intros s; [reflexivity|]. cbn [fold_left]. rewrite IH. reflexivity. }
    now rewrite P.
Qed.
End T.
Print Assumptions C161_kept.
Print Assumptions C161_given.
Print Assumptions C161_text.
Print Assumptions C161_sole.
Print Assumptions C161_returns.
