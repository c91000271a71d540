(* C165: goroutines that set and print one TimeOfDay variable. *)
From Coq Require Import String List PeanoNat NArith Bool Lia.
From Verif Require Import GoStr MTime MHeap MTod STod PWhole PDrain.
Import ListNotations.
Open Scope list_scope.

Local Notation sched := t_sched.
Lemma t_app st a b : sched st (a ++ b) = sched (sched st a) b.
Proof. apply fold_left_app. Qed.
Lemma t_snoc st a i : sched st (a ++ [i]) = t_step (sched st a) i.
Proof. now rewrite t_app. Qed.
Lemma t_step_go st i g0 : nth_error (tgos st) i = Some g0 ->
  theap (t_step st i) = fst (fst (t_gstep (theap st) (tvar st) g0)) /\
  tvar (t_step st i) = snd (fst (t_gstep (theap st) (tvar st) g0)) /\
  nth_error (tgos (t_step st i)) i = Some (snd (t_gstep (theap st) (tvar st) g0)) /\
  forall j, j <> i -> nth_error (tgos (t_step st i)) j = nth_error (tgos st) j.
Proof.
  intros E. unfold t_step. rewrite E. destruct (t_gstep (theap st) (tvar st) g0) as [[h v] g']. cbn [theap tvar tgos fst snd].
  split; [reflexivity|]. split; [reflexivity|]. split; [apply wr_same; apply nth_error_Some; congruence|]. intros j J. now apply wr_other.
Qed.
Lemma t_step_none st i : nth_error (tgos st) i = None -> t_step st i = st.
Proof. intros E. unfold t_step. now rewrite E. Qed.
Lemma t_step_len st i : List.length (tgos (t_step st i)) = List.length (tgos st).
Proof.
  unfold t_step. destruct (nth_error (tgos st) i) as [g|]; [|reflexivity].
  destruct (t_gstep (theap st) (tvar st) g) as [[h v] g']. cbn [tgos]. apply wr_len.
Qed.
Lemma t_start_at t css i g : nth_error (tgos (t_start t css)) i = Some g -> exists cs, nth_error css i = Some cs /\ g = MkTg cs TIdle [].
Proof. cbn. rewrite nth_error_map. destruct (nth_error css i) as [cs|]; [|discriminate]. intros [= <-]. now exists cs. Qed.
Lemma number_bytes n : number (n / 256, n mod 256)%N = n.
Proof. unfold number. cbn [fst snd]. rewrite N.mul_comm. symmetry. apply N.div_mod'. Qed.
Lemma two_app h x p : p < List.length h -> two (h ++ [x]) p = two h p.
Proof. intros L. unfold two. now rewrite app_nth1. Qed.
Lemma two_same h p x : p < List.length h -> two (wr h p x) p = x.
Proof. intros L. unfold two. apply nth_error_nth. now apply wr_same. Qed.
Lemma two_other h p x r : r <> p -> two (wr h p x) r = two h r.
Proof.
  intros D. unfold two. destruct (Nat.lt_ge_cases r (List.length h)) as [L|L].
  - apply nth_error_nth. rewrite wr_other by assumption. now apply nth_error_nth'.
  - rewrite !nth_overflow; trivial. now rewrite wr_len.
Qed.

Section Inv.
Variables (t0 : tod) (css : list (list tcall)).
Definition okt (t : tod) : Prop := t = t0 \/ t_gives css t.
Definition full (h : list (N * N)) (p : nat) : Prop :=
  p < List.length h /\ exists v, two h p = (v / 256, v mod 256)%N /\ okt (Some v).
(* the object that a goroutine makes; the objects it knows *)
Definition makes (g : tgo) (p : nat) : Prop :=
  match tph g with TByte0 _ r | TByte1 _ r | TAssign r => r = p | _ => False end.
Definition knows (g : tgo) (p : nat) : Prop :=
  match tph g with TRead0 r | TRead1 r _ => r = p | _ => False end \/ In (RTime (Some p)) (tres_of g).
Definition at_phase (h : list (N * N)) (g : tgo) : Prop :=
  match tph g with
  | TByte0 n p => okt (Some n)
  | TByte1 n p => okt (Some n) /\ fst (two h p) = (n / 256)%N
  | TAssign p => full h p
  | TRead1 p b => b = fst (two h p)
  | _ => True
  end.
Record inv (st : tstate) : Prop := MkInv {
  iv_var : forall p, tvar st = Some p -> full (theap st) p;
  iv_nil : tvar st = None -> t0 = None;
  iv_knows : forall i g p, nth_error (tgos st) i = Some g -> knows g p -> full (theap st) p;
  iv_makes : forall i g p, nth_error (tgos st) i = Some g -> makes g p ->
    p < List.length (theap st) /\ tvar st <> Some p /\
    (forall j gj, nth_error (tgos st) j = Some gj -> ~ knows gj p) /\
    (forall j gj, nth_error (tgos st) j = Some gj -> makes gj p -> j = i);
  iv_phase : forall i g, nth_error (tgos st) i = Some g -> at_phase (theap st) g;
  iv_todo : forall i g, nth_error (tgos st) i = Some g -> exists cs a, nth_error css i = Some cs /\ cs = a ++ ttodo g;
  iv_text : forall i g s, nth_error (tgos st) i = Some g -> In (RText s) (tres_of g) -> exists t, okt t /\ s = tod_string t;
  iv_nores : forall i g, nth_error (tgos st) i = Some g -> ~ In (RTime None) (tres_of g) /\ (tph g = TResult -> tvar st <> None)
}.
Lemma full_app h x p : full h p -> full (h ++ [x]) p.
Proof. intros [L (v & E & G)]. split; [rewrite app_length; cbn; lia|]. exists v. now rewrite two_app. Qed.
Lemma full_wr h x p r : r <> p -> full h r -> full (wr h p x) r.
Proof. intros D [L (v & E & G)]. split; [now rewrite wr_len|]. exists v. now rewrite two_other. Qed.
Lemma full_text h p : full h p -> exists v, okt (Some v) /\ number (two h p) = v.
Proof. intros [L (v & E & G)]. exists v. split; [assumption|]. rewrite E. apply number_bytes. Qed.
Definition seen (st : tstate) (p : nat) : Prop := tvar st = Some p \/ exists j h, nth_error (tgos st) j = Some h /\ knows h p.
Lemma seen_full st p : inv st -> seen st p -> full (theap st) p.
Proof. intros I [V|(j & h & J & K)]; [now apply iv_var|now apply (iv_knows st I j h)]. Qed.
Lemma seen_not_made st i g p : inv st -> nth_error (tgos st) i = Some g -> makes g p -> ~ seen st p.
Proof.
  intros I E M [V|(j & h & J & K)]; destruct (iv_makes st I i g p E M) as (_ & A & B & _); [now apply A|now apply (B j h)].
Qed.
(* a step of one goroutine that changes no object seen and none that another goroutine makes *)
Lemma inv_upd st i g h v g' : inv st -> nth_error (tgos st) i = Some g ->
  List.length (theap st) <= List.length h ->
  (forall p, p < List.length (theap st) -> ~ makes g p -> two h p = two (theap st) p) ->
  (v = tvar st \/ exists p, v = Some p /\ makes g p /\ full h p /\ forall r, ~ makes g' r) ->
  (forall p, knows g' p -> seen st p) ->
  (forall p, makes g' p -> makes g p \/ p = List.length (theap st) /\ p < List.length h) ->
  at_phase h g' -> (exists a, ttodo g = a ++ ttodo g') ->
  (forall s, In (RText s) (tres_of g') -> exists t, okt t /\ s = tod_string t) ->
  (~ In (RTime None) (tres_of g') /\ (tph g' = TResult -> v <> None)) ->
  inv (MkTs h v (wr (tgos st) i g')).
Proof.
  intros I E L Two Var Kn Mk Ph Td Tx Nr.
  assert (LE : i < List.length (tgos st)) by (apply nth_error_Some; congruence).
  assert (N : forall j x, nth_error (wr (tgos st) i g') j = Some x -> j = i /\ x = g' \/ j <> i /\ nth_error (tgos st) j = Some x).
  { intros j x J. destruct (Nat.eq_dec j i) as [->|D]; [rewrite wr_same in J by assumption; injection J as <-; now left|]. rewrite wr_other in J by assumption. now right. }
  assert (Tw : forall p, seen st p -> two h p = two (theap st) p).
  { intros p S. apply Two; [now apply (seen_full st)|]. intros M. now apply (seen_not_made st i g p I E M). }
  assert (Fu : forall p, seen st p -> full h p).
  { intros p S. destruct (seen_full st p I S) as [A (w & B & C)]. split; [lia|]. exists w. rewrite Tw by assumption. now split. }
  assert (Sn : forall p, (v = Some p \/ exists j x, nth_error (wr (tgos st) i g') j = Some x /\ knows x p) -> seen st p \/ v = Some p /\ v <> tvar st /\ makes g p /\ full h p /\ forall r, ~ makes g' r).
  { intros p [V|(j & x & J & K)].
    - destruct Var as [->|(r & V' & A & B & C)]; [left; now left|]. assert (r = p) as -> by congruence. right. repeat split; trivial; [|apply B|apply B].
      intros X. rewrite V' in X. now apply (seen_not_made st i g p I E A); left.
    - left. destruct (N j x J) as [[-> ->]|[D J']]; [now apply Kn|]. right. now exists j, x. }
  assert (Mo : forall j x p, j <> i -> nth_error (tgos st) j = Some x -> makes x p -> ~ makes g p /\ two h p = two (theap st) p).
  { intros j x p D J M. destruct (iv_makes st I j x p J M) as (A & _ & _ & B). assert (Z : ~ makes g p) by (intros Z; apply D; symmetry; now apply (B i g)). split; [exact Z|now apply Two]. }
  split; cbn [theap tvar tgos].
  - intros p V. destruct (Sn p (or_introl V)) as [S|(_ & _ & _ & F & _)]; [now apply Fu|assumption].
  - intros V. destruct Var as [->|(r & V' & _)]; [now apply (iv_nil st I)|congruence].
  - intros j x p J K. destruct (Sn p) as [S|(_ & _ & _ & F & _)]; [right; now exists j, x|now apply Fu|assumption].
  - assert (Old : forall j x p, nth_error (wr (tgos st) i g') j = Some x -> makes x p -> (exists y, nth_error (tgos st) j = Some y /\ makes y p) \/ j = i /\ p = List.length (theap st) /\ p < List.length h).
    { intros j x p J M. destruct (N j x J) as [[-> ->]|[D J']]; [|left; now exists x]. destruct (Mk p M) as [M'|M']; [left; now exists g|now right]. }
    intros j x p J M. assert (NS : ~ seen st p /\ p < List.length h).
    { destruct (Old j x p J M) as [(y & Y & My)|(-> & -> & Lp)].
      - split; [now apply (seen_not_made st j y)|]. destruct (iv_makes st I j y p Y My). lia.
      - split; [|assumption]. intros S. apply (seen_full st _ I) in S as [S _]. lia. }
    destruct NS as [NS Lp]. assert (NK : ~ (v = Some p \/ exists k y, nth_error (wr (tgos st) i g') k = Some y /\ knows y p)).
    { intros X. destruct (Sn p X) as [S|(V & _ & A & B & C)]; [now apply NS|]. destruct (N j x J) as [[-> ->]|[D J']]; [now apply (C p)|].
      destruct (Mo j x p D J' M) as [Z _]. now apply Z. }
    split; [assumption|]. split; [intros V; apply NK; now left|]. split; [intros k y K1 K2; apply NK; right; now exists k, y|].
    intros k y K1 K2. assert (O2 := Old k y p K1 K2). destruct (Old j x p J M) as [(y1 & Y1 & M1)|(-> & A1 & _)], O2 as [(y2 & Y2 & M2)|(-> & A2 & _)]; trivial.
    + destruct (iv_makes st I j y1 p Y1 M1) as (_ & _ & _ & B). now apply (B k y2).
    + destruct (iv_makes st I j y1 p Y1 M1) as (B & _). lia.
    + destruct (iv_makes st I k y2 _ Y2 M2) as (B & _). lia.
  - intros j x J. destruct (N j x J) as [[-> ->]|[D J']]; [assumption|]. assert (P := iv_phase st I j x J'). assert (Mj := fun p => Mo j x p D J'). unfold at_phase, makes in *. destruct (tph x) as [|n p|n p|p| |p|p b] eqn:Px; trivial.
    + rewrite (proj2 (Mj p eq_refl)). exact P.
    + destruct P as [A (w & B & C)]. split; [lia|]. exists w. rewrite (proj2 (Mj p eq_refl)). now split.
    + rewrite Tw; [exact P|]. right. exists j, x. split; [assumption|]. left. now rewrite Px.
  - intros j x J. destruct (N j x J) as [[-> ->]|[D J']]; [|now apply (iv_todo st I)]. destruct (iv_todo st I i g E) as (cs & a & A & B), Td as [a' T].
    exists cs, (a ++ a'). split; [assumption|]. now rewrite B, T, app_assoc.
  - intros j x s J. destruct (N j x J) as [[-> ->]|[D J']]; [apply Tx|now apply (iv_text st I j)].
  - intros j x J. destruct (N j x J) as [[-> ->]|[D J']]; [assumption|]. destruct (iv_nores st I j x J') as [A B]. split; [assumption|].
    destruct Var as [->|(r & -> & _)]; [assumption|discriminate].
Qed.
Lemma inv_step st i : inv st -> inv (t_step st i).
Proof.
  intros I. unfold t_step. destruct (nth_error (tgos st) i) as [g|] eqn:E; [|assumption].
  assert (Pg := iv_phase st I i g E). assert (Tx := fun s => iv_text st I i g s E). assert (Nr := iv_nores st I i g E). assert (Td := iv_todo st I i g E).
  assert (Sk : forall p, knows g p -> seen st p) by (intros p K; right; now exists i, g).
  unfold t_gstep. unfold at_phase in Pg. assert (Mk : forall p, makes g p -> p < List.length (theap st)) by (intros p M; now apply (iv_makes st I i g)).
  assert (Res : forall p, In (RTime (Some p)) (tres_of g) -> seen st p) by (intros p K; apply Sk; now right).
  destruct (tph g) as [|n p|n p|p| |p|p b] eqn:Ph.
  - destruct (ttodo g) as [|[t|] cs] eqn:T.
    + apply (inv_upd st i g); auto; try exact Logic.I; [unfold at_phase; now rewrite Ph|now exists []|]. split; [apply Nr|rewrite Ph; discriminate].
    + apply (inv_upd st i g); auto; try exact Logic.I.
      * rewrite app_length. cbn. lia.
      * intros p L _. now apply two_app.
      * intros p [[]|K]. now apply Res.
      * intros p M. right. cbn in M. subst p. split; [reflexivity|]. rewrite app_length. cbn. lia.
      * cbn. destruct Td as (cs0 & a & A & B). right. exists cs0, t. split; [now apply nth_error_In in A|]. split; [|reflexivity]. rewrite B. apply in_or_app. right. now left.
      * exists [TSet t]. now rewrite T.
      * split; [apply Nr|discriminate].
    + destruct (tvar st) as [p|] eqn:V; apply (inv_upd st i g); auto; try exact Logic.I.
      * intros r [<-|K]; [now left|now apply Res].
      * intros r [].
      * exists [TString]. now rewrite T.
      * split; [apply Nr|discriminate].
      * intros r [[]|K]. apply in_app_or in K as [K|[K|[]]]; [now apply Res|discriminate K].
      * intros r [].
      * exists [TString]. now rewrite T.
      * intros s K. apply in_app_or in K as [K|[K|[]]]; [now apply Tx|]. injection K as <-. exists None. split; [left; symmetry; now apply (iv_nil st I)|reflexivity].
      * split; [|discriminate]. intros K. apply in_app_or in K as [K|[K|[]]]; [now apply Nr|discriminate K].
  - assert (Mp : makes g p) by (unfold makes; now rewrite Ph). apply (inv_upd st i g); auto; try exact Logic.I.
    + now rewrite wr_len.
    + intros r L M. apply two_other. intros ->. now apply M.
    + intros r [[]|K]. now apply Res.
    + intros r M. cbn in M. subst r. now left.
    + cbn. rewrite two_same by now apply Mk. now split.
    + now exists [].
    + split; [apply Nr|discriminate].
  - assert (Mp : makes g p) by (unfold makes; now rewrite Ph). destruct Pg as [G F]. apply (inv_upd st i g); auto; try exact Logic.I.
    + now rewrite wr_len.
    + intros r L M. apply two_other. intros ->. now apply M.
    + intros r [[]|K]. now apply Res.
    + intros r M. cbn in M. subst r. now left.
    + cbn. split; [rewrite wr_len; now apply Mk|]. exists n. rewrite two_same by now apply Mk. now rewrite F.
    + now exists [].
    + split; [apply Nr|discriminate].
  - assert (Mp : makes g p) by (unfold makes; now rewrite Ph). apply (inv_upd st i g); auto; try exact Logic.I.
    + right. exists p. repeat split; trivial; [apply Pg|apply Pg|]. intros r [].
    + intros r [[]|K]. now apply Res.
    + intros r [].
    + now exists [].
    + split; [apply Nr|discriminate].
  - apply (inv_upd st i g); auto; try exact Logic.I.
    + intros r [[]|K]. apply in_app_or in K as [K|[K|[]]]; [now apply Res|]. injection K as K. now left.
    + intros r [].
    + now exists [].
    + intros s K. apply in_app_or in K as [K|[K|[]]]; [now apply Tx|discriminate K].
    + split; [|discriminate]. intros K. apply in_app_or in K as [K|[K|[]]]; [now apply Nr|]. injection K as K. now apply Nr in K.
  - apply (inv_upd st i g); auto; try exact Logic.I.
    + intros r [K|K]; [|now apply Res]. apply Sk. left. now rewrite Ph.
    + intros r [].
    + reflexivity.
    + now exists [].
    + split; [apply Nr|discriminate].
  - assert (S : seen st p) by (apply Sk; left; now rewrite Ph). apply (inv_upd st i g); auto; try exact Logic.I.
    + intros r [[]|K]. apply in_app_or in K as [K|[K|[]]]; [now apply Res|discriminate K].
    + intros r [].
    + now exists [].
    + intros s K. apply in_app_or in K as [K|[K|[]]]; [now apply Tx|]. injection K as <-. subst b.
      destruct (full_text (theap st) p (seen_full st p I S)) as (w & G & <-). exists (Some (number (two (theap st) p))). split; [assumption|]. cbn. now destruct (two (theap st) p).
    + split; [|discriminate]. intros K. apply in_app_or in K as [K|[K|[]]]; [now apply Nr|discriminate K].
Qed.
Lemma inv_run q : inv (sched (t_start t0 css) q).
Proof.
  induction q as [|i q IH] using rev_ind; [|rewrite t_snoc; now apply inv_step]. 
  split; cbn [t_sched fold_left].
  - intros p V. cbn in V. destruct t0 as [n|] eqn:Z; [|discriminate V]. injection V as <-. split; [cbn; lia|]. exists n. split; [reflexivity|]. left. now symmetry.
  - cbn. now destruct t0.
  - intros i g p J [K|K]; apply t_start_at in J as (cs & J & ->); destruct K.
  - intros i g p J M; apply t_start_at in J as (cs & J & ->); destruct M.
  - intros i g J; apply t_start_at in J as (cs & J & ->). exact Logic.I.
  - intros i g J; apply t_start_at in J as (cs & J & ->). exists cs, []. now split.
  - intros i g s J; apply t_start_at in J as (cs & J & ->). intros [].
  - intros i g J; apply t_start_at in J as (cs & J & ->). split; [intros []|discriminate].
Qed.
(* an object that is seen does not change *)
Lemma seen_step st i p : inv st -> seen st p -> two (theap (t_step st i)) p = two (theap st) p.
Proof.
  intros I S. destruct (nth_error (tgos st) i) as [g|] eqn:E; [|now rewrite t_step_none].
  destruct (t_step_go st i g E) as (H & _). rewrite H. assert (L := proj1 (seen_full st p I S)).
  assert (NM : ~ makes g p) by (intros M; now apply (seen_not_made st i g p I E M)).
  unfold t_gstep, makes in *. destruct (tph g) as [|n r|n r|r| |r|r b]; cbn [fst]; trivial.
  - destruct (ttodo g) as [|[t|] cs]; cbn [fst]; trivial. now apply two_app.
  - apply two_other. congruence.
  - apply two_other. congruence.
Qed.
End Inv.
Lemma okt_seen t css st p : inv t css st -> seen st p -> okt t css (time_at (theap st) (Some p)).
Proof. intros I S. destruct (full_text t css (theap st) p (seen_full t css st p I S)) as (w & G & E). cbn. now rewrite E. Qed.
(* The time of the variable is at every moment the one of the start or one that was given;
   every text returned is that of such a time, every result of Set is such a time. *)
Theorem C165_given : forall t css q, let st := sched (t_start t css) q in
  (t_time st = t \/ t_gives css (t_time st)) /\
  (forall i g s, nth_error (tgos st) i = Some g -> In (RText s) (tres_of g) -> exists t', (t' = t \/ t_gives css t') /\ s = tod_string t') /\
  (forall i g p, nth_error (tgos st) i = Some g -> In (RTime p) (tres_of g) -> time_at (theap st) p = t \/ t_gives css (time_at (theap st) p)).
Proof.
  intros t css q st. assert (I := inv_run t css q). fold st in I. split; [|split].
  - unfold t_time. destruct (tvar st) as [p|] eqn:V; [apply (okt_seen t css st p I); now left|]. left. cbn. symmetry. now apply (iv_nil t css st I).
  - intros i g s E K. now apply (iv_text t css st I i g s).
  - intros i g [p|] E K; [|now apply (iv_nores t css st I i g E) in K]. apply (okt_seen t css st p I). right. exists i, g. split; [assumption|now right].
Qed.
(* A time returned does not change any more. *)
Lemma kept_step t css st i j g p : inv t css st -> nth_error (tgos st) j = Some g -> In (RTime p) (tres_of g) ->
  time_at (theap (t_step st i)) p = time_at (theap st) p.
Proof.
  intros I E K. destruct p as [p|]; [|reflexivity]. cbn. f_equal. f_equal. apply (seen_step t css st i p I). right. exists j, g. split; [assumption|now right].
Qed.
Lemma grows st i j g : nth_error (tgos st) j = Some g -> exists g' more, nth_error (tgos (t_step st i)) j = Some g' /\ tres_of g' = tres_of g ++ more.
Proof.
  intros J. destruct (nth_error (tgos st) i) as [g0|] eqn:E; [|rewrite t_step_none by assumption; exists g, []; now rewrite app_nil_r].
  destruct (t_step_go st i g0 E) as (_ & _ & N & O). destruct (Nat.eq_dec j i) as [->|D]; [|rewrite O by assumption; exists g, []; now rewrite app_nil_r].
  assert (g0 = g) as -> by congruence. rewrite N. unfold t_gstep.
  destruct (tph g); [destruct (ttodo g) as [|[]]; [| |destruct (tvar st)]|..]; cbn [snd]; eexists _, _; (split; [reflexivity|]); cbn [tres_of];
  first [reflexivity | symmetry; apply app_nil_r].
Qed.
Theorem C165_kept : forall t css q q' i g k p, let st := sched (t_start t css) q in let st' := sched (t_start t css) (q ++ q') in
  nth_error (tgos st) i = Some g -> nth_error (tres_of g) k = Some (RTime p) ->
  time_at (theap st') p = time_at (theap st) p /\
  exists g', nth_error (tgos st') i = Some g' /\ nth_error (tres_of g') k = Some (RTime p).
Proof.
  intros t css q q' i g k p st st' E K. unfold st'. clear st'. induction q' as [|x q' IH] using rev_ind.
  - rewrite app_nil_r. split; [reflexivity|]. now exists g.
  - rewrite app_assoc, t_snoc. destruct IH as [A (g' & E' & K')]. split.
    + rewrite (kept_step t css _ x i g' p); trivial; [apply inv_run|now apply nth_error_In in K'].
    + destruct (grows _ x i g' E') as (g2 & more & E2 & R). exists g2. split; [assumption|]. rewrite R, nth_error_app1; [assumption|]. apply nth_error_Some. congruence.
Qed.
(* String returns the text of the time that the variable had when the call began. *)
Section Moments.
Variables (t : tod) (css : list (list tcall)).
Notation at_ q := (sched (t_start t css) q).
Definition began (q : list nat) (i k : nat) (x : tod) : Prop :=
  exists a b ga cs, q = a ++ i :: b /\ nth_error (tgos (at_ a)) i = Some ga /\ tph ga = TIdle /\ ttodo ga = TString :: cs /\
    List.length (tres_of ga) = k /\ t_time (at_ a) = x.
Lemma began_more q y i k x : began q i k x -> began (q ++ [y]) i k x.
Proof. intros (a & b & ga & cs & -> & H). exists a, (b ++ [y]), ga, cs. split; [now rewrite <- app_assoc|assumption]. Qed.
Definition reads (q : list nat) (i : nat) (g : tgo) : Prop :=
  match tph g with
  | TRead0 p | TRead1 p _ => began q i (List.length (tres_of g)) (time_at (theap (at_ q)) (Some p))
  | _ => True
  end /\ forall k s, nth_error (tres_of g) k = Some (RText s) -> exists x, began q i k x /\ s = tod_string x.
Lemma reads_run q : forall i g, nth_error (tgos (at_ q)) i = Some g -> reads q i g.
Proof.
  induction q as [|y q IH] using rev_ind; intros i g E.
  - apply t_start_at in E as (cs & _ & ->). split; [exact I|]. intros [|k] s K; discriminate K.
  - rewrite t_snoc in E. assert (Iq := inv_run t css q). set (st := at_ q) in *.
    assert (Stay : forall j h, nth_error (tgos st) j = Some h -> reads (q ++ [y]) j h).
    { intros j h J. destruct (IH j h J) as [A B]. split.
      - assert (Sn : forall p, match tph h with TRead0 r | TRead1 r _ => r = p | _ => False end -> time_at (theap (at_ (q ++ [y]))) (Some p) = time_at (theap st) (Some p)).
        { intros p K. rewrite t_snoc. fold st. cbn. f_equal. f_equal. apply (seen_step t css st y p Iq). right. exists j, h. split; [assumption|now left]. }
        destruct (tph h); trivial; rewrite Sn by reflexivity; now apply began_more.
      - intros k s K. destruct (B k s K) as (x & X & S). exists x. split; [now apply began_more|assumption]. }
    destruct (nth_error (tgos st) y) as [g0|] eqn:Y; [|rewrite t_step_none in E by assumption; now apply Stay].
    destruct (t_step_go st y g0 Y) as (H & V & N & O). destruct (Nat.eq_dec i y) as [->|D]; [|rewrite O in E by assumption; now apply Stay].
    rewrite N in E. injection E as <-. destruct (Stay y g0 Y) as [A B]. destruct (IH y g0 Y) as [A0 _].
    assert (Ph := iv_phase t css st Iq y g0 Y). unfold at_phase in Ph. unfold t_gstep.
    destruct (tph g0) as [|n p|n p|p| |p|p b] eqn:P; cbn [snd].
    + destruct (ttodo g0) as [|[x|] cs] eqn:T; cbn [snd]; [split; [now rewrite P|exact B]|split; [exact I|exact B]|].
      assert (Bg : began (q ++ [y]) y (List.length (tres_of g0)) (t_time st)) by (exists q, [], g0, cs; now repeat split).
      destruct (tvar st) as [p|] eqn:Va; (split; [|cbn [tres_of]]).
      * cbn [tph tres_of]. rewrite t_snoc. fold st. assert (Tt : t_time st = time_at (theap (t_step st y)) (Some p)).
        { unfold t_time. rewrite Va. cbn. f_equal. f_equal. symmetry. apply (seen_step t css st y p Iq). now left. }
        now rewrite <- Tt.
      * exact B.
      * exact I.
      * intros k s K. destruct (Nat.lt_ge_cases k (List.length (tres_of g0))) as [L|L]; [rewrite nth_error_app1 in K by assumption; now apply B|].
        rewrite nth_error_app2 in K by assumption. destruct (k - List.length (tres_of g0)) as [|z] eqn:Z; [|destruct z; discriminate K]. injection K as <-.
        assert (k = List.length (tres_of g0)) as -> by lia. exists (t_time st). split; [assumption|]. unfold t_time. now rewrite Va.
    + split; [exact I|exact B].
    + split; [exact I|exact B].
    + split; [exact I|exact B].
    + split; [exact I|]. cbn [tres_of]. intros k s K. destruct (Nat.lt_ge_cases k (List.length (tres_of g0))) as [L|L]; [rewrite nth_error_app1 in K by assumption; now apply B|].
      rewrite nth_error_app2 in K by assumption. destruct (k - List.length (tres_of g0)) as [|z]; [discriminate K|destruct z; discriminate K].
    + split; [exact A|exact B].
    + split; [exact I|]. cbn [tres_of]. intros k s K. destruct (Nat.lt_ge_cases k (List.length (tres_of g0))) as [L|L]; [rewrite nth_error_app1 in K by assumption; now apply B|].
      rewrite nth_error_app2 in K by assumption. destruct (k - List.length (tres_of g0)) as [|z] eqn:Z; [|destruct z; discriminate K]. injection K as <-.
      assert (k = List.length (tres_of g0)) as -> by lia. exists (time_at (theap st) (Some p)). split; [now apply began_more|]. subst b. cbn. now destruct (two (theap st) p).
Qed.
End Moments.
Theorem C165_moment : forall t css q i g k s, nth_error (tgos (sched (t_start t css) q)) i = Some g -> nth_error (tres_of g) k = Some (RText s) ->
  exists a b ga cs, q = a ++ i :: b /\
    (* goroutine i is about to call String, k results returned *)
    nth_error (tgos (sched (t_start t css) a)) i = Some ga /\ tph ga = TIdle /\ ttodo ga = TString :: cs /\ List.length (tres_of ga) = k /\
    s = tod_string (t_time (sched (t_start t css) a)).
Proof.
  intros t css q i g k s E K. destruct (reads_run t css q i g E) as [_ B]. destruct (B k s K) as (x & (a & b & ga & cs & A1 & A2 & A3 & A4 & A5 & <-) & ->).
  exists a, b, ga, cs. now repeat split.
Qed.
Theorem C165_returns : forall t css q, exists q', t_returned (sched (t_start t css) (q ++ q')).
Proof.
  intros t css q.
  set (left := fun g => match tph g with TIdle => 0 | TByte0 _ _ => 4 | TByte1 _ _ => 3 | TAssign _ => 2 | TResult => 1 | TRead0 _ => 2 | TRead1 _ _ => 1 end).
  destruct (drain tstate tgo tgos t_step (fun g => ttodo g = [] /\ tph g = TIdle) (fun g => List.length (ttodo g)) (fun _ g => left g))
    with (s := sched (t_start t css) q) as [q' Q].
  - apply t_step_len.
  - intros st i j D. destruct (nth_error (tgos st) i) as [g0|] eqn:E; [now apply (t_step_go _ _ _ E)|now rewrite t_step_none].
  - intros st i g E. destruct (t_step_go st i g E) as (_ & _ & N & _). unfold t_gstep in N. unfold left. destruct (tph g) eqn:P.
    + destruct (ttodo g) as [|[x|] cs] eqn:T; [left; now rewrite ?T, ?P|right; eexists; split; [exact N|]; left; cbn; lia|].
      right. eexists. split; [exact N|]. left. cbn [snd]. destruct (tvar st); cbn; lia.
    + right. eexists. split; [exact N|]. right. cbn. lia.
    + right. eexists. split; [exact N|]. right. cbn. lia.
    + right. eexists. split; [exact N|]. right. cbn. lia.
    + right. eexists. split; [exact N|]. right. cbn. lia.
    + right. eexists. split; [exact N|]. right. cbn. lia.
    + right. eexists. split; [exact N|]. right. cbn. lia.
  - exists q'. rewrite t_app. exact Q.
Qed.
Print Assumptions C165_given.
Print Assumptions C165_kept.
Print Assumptions C165_moment.
Print Assumptions C165_returns.
