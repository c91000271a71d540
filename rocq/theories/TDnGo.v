(* C169: goroutines that set and print one distinguished name. *)
From Coq Require Import String List PeanoNat NArith Bool Lia.
From Verif Require Import GoStr MMisc MLists MHeap MDnGo SDnGo PWhole PDrain.
Import ListNotations.
Open Scope list_scope.
Open Scope nat_scope.

Local Opaque chopDNPfx LocalScheme.
Section Bad.
Variable bad : string.
Notation sched := (d_sched bad).
Lemma d_app st a b : sched st (a ++ b) = sched (sched st a) b.
Proof. apply fold_left_app. Qed.
Lemma d_snoc st a i : sched st (a ++ [i]) = d_step bad (sched st a) i.
Proof. now rewrite d_app. Qed.
Lemma d_step_go st i g0 : nth_error (dgos st) i = Some g0 ->
  dheap (d_step bad st i) = fst (fst (d_gstep bad (dheap st) (dvar st) g0)) /\
  dvar (d_step bad st i) = snd (fst (d_gstep bad (dheap st) (dvar st) g0)) /\
  nth_error (dgos (d_step bad st i)) i = Some (snd (d_gstep bad (dheap st) (dvar st) g0)) /\
  forall j, j <> i -> nth_error (dgos (d_step bad st i)) j = nth_error (dgos st) j.
Proof.
  intros E. unfold d_step. rewrite E. destruct (d_gstep bad (dheap st) (dvar st) g0) as [[h v] g']. cbn [dheap dvar dgos fst snd].
  split; [reflexivity|]. split; [reflexivity|]. split; [apply wr_same; apply nth_error_Some; congruence|]. intros j J. now apply wr_other.
Qed.
Lemma d_step_none st i : nth_error (dgos st) i = None -> d_step bad st i = st.
Proof. intros E. unfold d_step. now rewrite E. Qed.
Lemma d_step_len st i : List.length (dgos (d_step bad st i)) = List.length (dgos st).
Proof.
  unfold d_step. destruct (nth_error (dgos st) i) as [g|]; [|reflexivity].
  destruct (d_gstep bad (dheap st) (dvar st) g) as [[h v] g']. cbn [dgos]. apply wr_len.
Qed.
Lemma d_start_at x css i g : nth_error (dgos (d_start x css)) i = Some g -> exists cs, nth_error css i = Some cs /\ g = MkDg cs DIdle [].
Proof. cbn. rewrite nth_error_map. destruct (nth_error css i) as [cs|]; [|discriminate]. intros [= <-]. now exists cs. Qed.
Lemma dobj_wr h p d r : dobj (wr h p d) r = dobj h r \/ r = p /\ dobj (wr h p d) r = d.
Proof.
  unfold dobj. destruct (Nat.eq_dec r p) as [->|D].
  - destruct (Nat.lt_ge_cases p (List.length h)) as [L|L]; [right; split; [reflexivity|]; apply nth_error_nth; now apply wr_same|]. left. rewrite !nth_overflow; trivial. now rewrite wr_len.
  - left. destruct (Nat.lt_ge_cases r (List.length h)) as [L|L].
    + apply nth_error_nth. rewrite wr_other by assumption. now apply nth_error_nth'.
    + rewrite !nth_overflow; trivial. now rewrite wr_len.
Qed.
Lemma empty_len x : (String.length x =? 0) = true <-> x = EmptyString.
Proof. destruct x; cbn; split; congruence. Qed.
Lemma filled_len x : (String.length x =? 0) = false <-> x <> EmptyString.
Proof. destruct x; cbn; split; congruence. Qed.

(* ---- no call panics ---- *)
Definition quiet (st : dstate) (g : dgo) : Prop :=
  match dph g with
  | DZero _ _ _ | DFind _ _ => dvar st <> None
  | DName p | DKey p | DPrint _ p => dn_text (dobj (dheap st) p) <> None
  | DPanic => False
  | _ => True
  end.
Lemma quiet_run x css q : forall j g, nth_error (dgos (sched (d_start x css) q)) j = Some g -> quiet (sched (d_start x css) q) g.
Proof.
  induction q as [|y q IH] using rev_ind; intros j g E.
  - apply d_start_at in E as (cs & E & ->). exact I.
  - rewrite d_snoc in *. set (st := sched (d_start x css) q) in *.
    destruct (nth_error (dgos st) y) as [g0|] eqn:Y; [|rewrite d_step_none in * by assumption; now apply (IH j)].
    destruct (d_step_go st y g0 Y) as (H & V & N & O). assert (P := IH y g0 Y). unfold quiet in P.
    assert (Mono : (dvar st <> None -> dvar (d_step bad st y) <> None) /\ forall p, dn_text (dobj (dheap st) p) <> None -> dn_text (dobj (dheap (d_step bad st y)) p) <> None).
    { rewrite H, V. unfold d_gstep. destruct (dph g0) as [|x0 k p|x0 k|x0 k|x0 k p|x0 p| |p|p|p|p|k p|] eqn:Ph; cbn [fst snd]; try (now split).
      - destruct (dtodo g0) as [|[]]; cbn [fst snd]; now split.
      - split; [discriminate|]. intros p Q. unfold dobj in *. destruct (Nat.lt_ge_cases p (List.length (dheap st))) as [L|L]; [now rewrite app_nth1|]. rewrite nth_overflow in Q by assumption. now elim Q.
      - split; [trivial|]. intros r Q. destruct (dobj_wr (dheap st) p (MkDN k (dn_text (dobj (dheap st) p))) r) as [-> |[-> ->]]; assumption.
      - split; [trivial|]. intros r Q. destruct (dobj_wr (dheap st) p (MkDN (dn_kw (dobj (dheap st) p)) (Some (chopDNPfx x0))) r) as [-> |[-> ->]]; [assumption|discriminate]. }
    destruct (Nat.eq_dec j y) as [->|Dj].
    + rewrite N in E. injection E as <-. unfold quiet. rewrite H, V. unfold d_gstep. destruct (dph g0) as [|x0 k p|x0 k|x0 k|x0 k p|x0 p| |p|p|p|p|k p|] eqn:Ph; cbn [fst snd]; try exact I.
      * destruct (dtodo g0) as [|[x0 k| |] r] eqn:T; cbn [fst snd].
        -- now rewrite Ph.
        -- cbn. now destruct (dvar st).
        -- destruct (dvar st); exact I.
        -- destruct (dvar st); exact I.
      * cbn. destruct (dn_text (dobj (dheap st) p)) as [s|]; cbn; [exact P|exact I].
      * discriminate.
      * cbn. destruct (String.length x0 =? 0); [exact I|]. destruct (dvar st); [exact I|now elim P].
      * destruct (dn_text (dobj (dheap st) p)) as [s|] eqn:D; cbn; [congruence|exact I].
      * destruct (dn_text (dobj (dheap st) p)) as [s|] eqn:D; cbn; [exact I|now elim P].
      * destruct (dn_text (dobj (dheap st) p)) as [s|] eqn:D; cbn; [congruence|exact I].
      * exact P.
      * destruct (dn_text (dobj (dheap st) p)) as [s|] eqn:D; cbn; [exact I|now elim P].
      * destruct P.
    + rewrite O in E by assumption. assert (B := IH j g E). unfold quiet in *. destruct Mono as [M1 M2]. destruct (dph g); trivial; now (apply M1 || apply M2).
Qed.

(* ---- a name that was set before ---- *)
Section Set_.
Variables (k0 : N) (s0 : string) (css : list (list dncall)).
Notation start := (d_start (Some (MkDN k0 (Some s0))) css).
Notation at_ q := (sched start q).
Definition ok_kw (k : N) : Prop := k = k0 \/ d_gives_kw css k.
Definition ok_text (s : string) : Prop := s = s0 \/ d_gives_text css s.
Definition given (x : string) (k : N) : Prop := exists cs, In cs css /\ In (DSet x k) cs.
Definition at_phase (g : dgo) : Prop :=
  match dph g with
  | DIdle | DRet | DPanic => True
  | DZero x k p => p = 0 /\ given x k
  | DFind x k => given x k
  | DKw x k p => p = 0 /\ given x k /\ x <> EmptyString
  | DText x p => p = 0 /\ (exists k, given x k) /\ x <> EmptyString
  | DCheck p | DName p | DAsk p | DKey p => p = 0
  | DPrint k p => p = 0 /\ ok_kw k
  | DMake _ _ => False
  end.
Definition go_inv (j : nat) (g : dgo) : Prop :=
  (exists cs a, nth_error css j = Some cs /\ cs = a ++ dtodo g) /\ at_phase g /\ ~ In DBad (dres_of g) /\ (forall p, In (DVar p) (dres_of g) -> p = Some 0).
Record dinv (st : dstate) : Prop := MkDinv {
  dv_heap : exists k s, dheap st = [MkDN k (Some s)] /\ ok_kw k /\ ok_text s;
  dv_var : dvar st = Some 0;
  dv_go : forall j g, nth_error (dgos st) j = Some g -> go_inv j g
}.
Lemma dinv_run q : dinv (at_ q).
Proof.
  induction q as [|y q IH] using rev_ind.
  - split; [exists k0, s0; split; [reflexivity|]; split; now left|reflexivity|]. intros j g E. apply d_start_at in E as (cs & E & ->).
    split; [now exists cs, []|]. split; [exact I|]. split; [intros []|intros p []].
  - rewrite d_snoc. set (st := at_ q) in *. destruct IH as [(k & s & Hh & Ok & Os) Hv Go].
    destruct (nth_error (dgos st) y) as [g0|] eqn:Y; [|rewrite d_step_none by assumption; split; trivial; now exists k, s].
    destruct (d_step_go st y g0 Y) as (H & V & N & O). destruct (Go y g0 Y) as ((cs & a & C & D) & P & Nb & R). unfold at_phase in P.
    rewrite Hh, Hv in *.
    assert (Oth : forall g', nth_error (dgos (d_step bad st y)) y = Some g' -> go_inv y g' -> forall j g, nth_error (dgos (d_step bad st y)) j = Some g -> go_inv j g).
    { intros g' N' Q j g J. destruct (Nat.eq_dec j y) as [->|Dj]; [assert (g = g') as -> by congruence; exact Q|]. rewrite O in J by assumption. now apply Go. }
    assert (Keep : dheap (d_step bad st y) = [MkDN k (Some s)] -> exists k' s', dheap (d_step bad st y) = [MkDN k' (Some s')] /\ ok_kw k' /\ ok_text s').
    { intros X. exists k, s. now repeat split. }
    assert (Td : exists cs a, nth_error css y = Some cs /\ cs = a ++ dtodo g0) by now exists cs, a.
    assert (Nb' : forall r, r <> DBad -> ~ In DBad (dres_of g0 ++ [r])) by (intros r X K; apply in_app_or in K as [K|[K|[]]]; [now apply Nb|now apply X]).
    assert (Rt : forall r, (forall p, r = DVar p -> p = Some 0) -> forall p, In (DVar p) (dres_of g0 ++ [r]) -> p = Some 0) by (intros r X p K; apply in_app_or in K as [K|[K|[]]]; [now apply R|now apply X]).
    unfold d_gstep in H, V, N. destruct (dph g0) as [|x0 k1 p|x0 k1|x0 k1|x0 k1 p|x0 p| |p|p|p|p|k1 p|] eqn:Ph; cbn [fst snd] in *; try contradiction.
    + destruct (dtodo g0) as [|[x0 k1| |] r] eqn:T; cbn [fst snd] in *.
      * split; [now apply Keep|assumption|]. apply (Oth _ N). unfold go_inv, at_phase. rewrite Ph, T. now repeat split.
      * split; [now apply Keep|assumption|]. apply (Oth _ N). unfold go_inv, at_phase. cbn. split; [exists cs, (a ++ [DSet x0 k1]); split; [assumption|]; rewrite <- app_assoc; exact D|].
        split; [|now split]. split; [reflexivity|]. exists cs. split; [now apply nth_error_In in C|]. rewrite D. apply in_or_app. right. now left.
      * split; [now apply Keep|assumption|]. apply (Oth _ N). unfold go_inv, at_phase. cbn. split; [exists cs, (a ++ [DString]); split; [assumption|]; rewrite <- app_assoc; exact D|]. now repeat split.
      * split; [now apply Keep|assumption|]. apply (Oth _ N). unfold go_inv, at_phase. cbn. split; [exists cs, (a ++ [DRule]); split; [assumption|]; rewrite <- app_assoc; exact D|]. now repeat split.
    + destruct P as [-> G]. cbn in N. split; [now apply Keep|assumption|]. apply (Oth _ N). unfold go_inv, at_phase. cbn. now repeat split.
    + split; [now apply Keep|assumption|]. apply (Oth _ N). unfold go_inv, at_phase. cbn. destruct (String.length x0 =? 0) eqn:L; [now repeat split|]. apply filled_len in L. now repeat split.
    + destruct P as (-> & G & Ne). cbn in H. split; [exists k1, s; split; [exact H|]; split; [|assumption]; right; destruct G as (c & G1 & G2); now exists c, x0|assumption|].
      apply (Oth _ N). unfold go_inv, at_phase. cbn. split; [assumption|]. split; [|now split]. split; [reflexivity|]. split; [now exists k1|assumption].
    + destruct P as (-> & (k1 & c & G1 & G2) & Ne). cbn in H. split; [exists k, (chopDNPfx x0); split; [exact H|]; split; [assumption|]; right; now exists c, x0, k1|assumption|].
      apply (Oth _ N). unfold go_inv, at_phase. cbn. now repeat split.
    + split; [now apply Keep|assumption|]. apply (Oth _ N). unfold go_inv, at_phase. cbn. split; [assumption|]. split; [exact I|]. split; [now apply Nb'|]. apply Rt. intros p [= <-]. reflexivity.
    + subst p. cbn in N. split; [now apply Keep|assumption|]. apply (Oth _ N). unfold go_inv, at_phase. cbn. now repeat split.
    + subst p. cbn in N. split; [now apply Keep|assumption|]. apply (Oth _ N). unfold go_inv, at_phase. cbn. split; [assumption|]. split; [exact I|]. split; [now apply Nb'|]. now apply Rt.
    + subst p. cbn in N. split; [now apply Keep|assumption|]. apply (Oth _ N). unfold go_inv, at_phase. cbn. now repeat split.
    + subst p. cbn in N. split; [now apply Keep|assumption|]. apply (Oth _ N). unfold go_inv, at_phase. cbn. now repeat split.
    + destruct P as [-> Pk]. cbn in N. split; [now apply Keep|assumption|]. apply (Oth _ N). unfold go_inv, at_phase. cbn. split; [assumption|]. split; [exact I|]. split; [now apply Nb'|]. now apply Rt.
    + split; [now apply Keep|assumption|]. apply (Oth _ N). unfold go_inv, at_phase. rewrite Ph. now repeat split.
Qed.
Lemma d_value_at q : exists k s, d_value (at_ q) = Some (MkDN k (Some s)) /\ dheap (at_ q) = [MkDN k (Some s)] /\ ok_kw k /\ ok_text s.
Proof. destruct (dinv_run q) as [(k & s & H & A & B) V _]. exists k, s. unfold d_value. rewrite V, H. now repeat split. Qed.
(* results: what the values were in moments of the call *)
Definition m_string (q : list nat) (i n : nat) (s : string) : Prop :=
  exists a b ga, q = a ++ i :: b /\ nth_error (dgos (at_ a)) i = Some ga /\ List.length (dres_of ga) = n /\ in_string ga /\ s = dn_string bad (d_value (at_ a)).
Definition m_kw (q : list nat) (i n : nat) (k : N) : Prop :=
  exists a b ga d, q = a ++ i :: b /\ nth_error (dgos (at_ a)) i = Some ga /\ List.length (dres_of ga) = n /\ in_rule ga /\ d_value (at_ a) = Some d /\ k = dn_kw d.
Definition m_rule (q : list nat) (i n : nat) (k : N) (s : string) : Prop :=
  exists a b ga, q = a ++ i :: b /\ m_kw a i n k /\ nth_error (dgos (at_ a)) i = Some ga /\ List.length (dres_of ga) = n /\ in_rule ga /\ s = dn_string bad (d_value (at_ a)).
Lemma m_kw_more q y i n k : m_kw q i n k -> m_kw (q ++ [y]) i n k.
Proof. intros (a & b & ga & d & -> & Q). exists a, (b ++ [y]), ga, d. split; [now rewrite <- app_assoc|assumption]. Qed.
Lemma moments q : forall i g, nth_error (dgos (at_ q)) i = Some g ->
  (forall n s, nth_error (dres_of g) n = Some (DStr s) -> m_string q i n s) /\
  (forall n k s, nth_error (dres_of g) n = Some (DEq k s) -> m_rule q i n k s) /\
  match dph g with DPrint k _ => m_kw q i (List.length (dres_of g)) k | _ => True end.
Proof.
  induction q as [|y q IH] using rev_ind; intros i g E.
  - apply d_start_at in E as (cs & _ & ->). split; [intros [|n] s K; discriminate K|]. split; [intros [|n] k s K; discriminate K|exact I].
  - assert (MoreS : forall j n s, m_string q j n s -> m_string (q ++ [y]) j n s).
    { intros j n s (a & b & ga & -> & Q). exists a, (b ++ [y]), ga. split; [now rewrite <- app_assoc|assumption]. }
    assert (MoreR : forall j n k s, m_rule q j n k s -> m_rule (q ++ [y]) j n k s).
    { intros j n k s (a & b & ga & -> & Q). exists a, (b ++ [y]), ga. split; [now rewrite <- app_assoc|assumption]. }
    rewrite d_snoc in E. assert (Iq := dinv_run q). destruct (d_value_at q) as (k & s & Va & Hh & _). set (st := at_ q) in *.
    assert (Stay : forall j h, nth_error (dgos st) j = Some h ->
      (forall n s, nth_error (dres_of h) n = Some (DStr s) -> m_string (q ++ [y]) j n s) /\ (forall n k s, nth_error (dres_of h) n = Some (DEq k s) -> m_rule (q ++ [y]) j n k s) /\
      match dph h with DPrint k _ => m_kw (q ++ [y]) j (List.length (dres_of h)) k | _ => True end).
    { intros j h J. destruct (IH j h J) as (A & B & C). split; [intros n s' K; apply MoreS; now apply A|]. split; [intros n k' s' K; apply MoreR; now apply B|]. destruct (dph h); trivial. now apply m_kw_more. }
    destruct (nth_error (dgos st) y) as [g0|] eqn:Y; [|rewrite d_step_none in E by assumption; now apply Stay].
    destruct (d_step_go st y g0 Y) as (_ & _ & N & O). destruct (Nat.eq_dec i y) as [->|D]; [|rewrite O in E by assumption; now apply Stay].
    rewrite N in E. injection E as <-. destruct (dv_go st Iq y g0 Y) as (_ & P & _). unfold at_phase in P. assert (Hv := dv_var st Iq).
    destruct (Stay y g0 Y) as (Sa & Sb & Sc). destruct (IH y g0 Y) as (_ & _ & Old).
    assert (New : forall r w n, nth_error (dres_of g0 ++ [r]) n = Some w -> nth_error (dres_of g0) n = Some w \/ n = List.length (dres_of g0) /\ r = w).
    { intros r w n Z. destruct (Nat.lt_ge_cases n (List.length (dres_of g0))) as [L|L]; [rewrite nth_error_app1 in Z by assumption; now left|].
      rewrite nth_error_app2 in Z by assumption. destruct (n - List.length (dres_of g0)) as [|z] eqn:F; [|destruct z; discriminate Z]. injection Z as ->. right. split; [lia|reflexivity]. }
    unfold d_gstep. rewrite Hh, Hv. destruct (dph g0) as [|x0 k1 p|x0 k1|x0 k1|x0 k1 p|x0 p| |p|p|p|p|k1 p|] eqn:Ph; cbn [snd]; try contradiction.
    + destruct (dtodo g0) as [|[]]; cbn [snd]; [rewrite Ph| | |]; now repeat split.
    + destruct P as [-> _]. now repeat split.
    + destruct (String.length x0 =? 0); now repeat split.
    + now repeat split.
    + now repeat split.
    + cbn [dres_of dph]. split; [intros n s' K; destruct (New _ _ _ K) as [Z|[_ Z]]; [now apply Sa|discriminate Z]|].
      split; [|exact I]. intros n k' s' K; destruct (New _ _ _ K) as [Z|[_ Z]]; [now apply Sb|discriminate Z].
    + subst p. now repeat split.
    + subst p. cbn [dobj nth dn_text dres_of dph]. split; [|split; [|exact I]].
      * intros n s' K. destruct (New _ _ _ K) as [Z|[-> Z]]; [now apply Sa|]. injection Z as <-. exists q, [], g0. split; [reflexivity|]. split; [assumption|]. split; [reflexivity|].
        split; [now right|]. fold st. now rewrite Va.
      * intros n k' s' K; destruct (New _ _ _ K) as [Z|[_ Z]]; [now apply Sb|discriminate Z].
    + subst p. now repeat split.
    + subst p. cbn [dobj nth dn_kw dres_of dph]. split; [exact Sa|]. split; [exact Sb|]. exists q, [], g0, (MkDN k (Some s)). split; [reflexivity|]. split; [assumption|]. split; [reflexivity|].
      split; [right; now left|]. now split.
    + destruct P as [-> Pk]. cbn [dobj nth dn_text dres_of dph]. split; [|split; [|exact I]].
      * intros n s' K; destruct (New _ _ _ K) as [Z|[_ Z]]; [now apply Sa|discriminate Z].
      * intros n k' s' K. destruct (New _ _ _ K) as [Z|[-> Z]]; [now apply Sb|]. injection Z as <- <-. exists q, [], g0. split; [reflexivity|]. split; [exact Old|]. split; [assumption|]. split; [reflexivity|].
        split; [right; right; now exists k1|]. fold st. now rewrite Va.
    + rewrite Ph. now repeat split.
Qed.
End Set_.
End Bad.
(* No call of Set, String or Eq panics, whatever is called meanwhile, set before or not. *)
Theorem C169_safe : forall bad x css q i g, nth_error (dgos (d_sched bad (d_start x css) q)) i = Some g -> dph g <> DPanic.
Proof. intros bad x css q i g E P. assert (B := quiet_run bad x css q i g E). unfold quiet in B. now rewrite P in B. Qed.
(* A name that was set before: its keyword and its text are at every moment those of the start
   or ones that a call gave, and it is never without a text. *)
Theorem C169_parts : forall bad k s css q, exists k' s', d_value (d_sched bad (d_start (Some (MkDN k (Some s))) css) q) = Some (MkDN k' (Some s')) /\
  (k' = k \/ d_gives_kw css k') /\ (s' = s \/ d_gives_text css s').
Proof. intros bad k s css q. destruct (d_value_at bad k s css q) as (k' & s' & A & _ & B & C). now exists k', s'. Qed.
(* String returns the text of the name of a moment of the call. *)
Theorem C169_string : forall bad k0 s0 css q i g n s, let at_ q := d_sched bad (d_start (Some (MkDN k0 (Some s0))) css) q in
  nth_error (dgos (at_ q)) i = Some g -> nth_error (dres_of g) n = Some (DStr s) ->
  exists a b ga, q = a ++ i :: b /\ nth_error (dgos (at_ a)) i = Some ga /\ List.length (dres_of ga) = n /\ in_string ga /\ s = dn_string bad (d_value (at_ a)).
Proof. intros bad k0 s0 css q i g n s at_ E K. now apply (moments bad k0 s0 css q i g E). Qed.
(* A rule made by Eq and printed has the keyword of one moment of the call and the text of that
   or a later one. *)
Theorem C169_rule : forall bad k0 s0 css q i g n k s, let at_ q := d_sched bad (d_start (Some (MkDN k0 (Some s0))) css) q in
  nth_error (dgos (at_ q)) i = Some g -> nth_error (dres_of g) n = Some (DEq k s) ->
  exists a b c ga gb d, q = a ++ i :: b ++ i :: c /\
    nth_error (dgos (at_ a)) i = Some ga /\ List.length (dres_of ga) = n /\ in_rule ga /\ d_value (at_ a) = Some d /\ k = dn_kw d /\
    nth_error (dgos (at_ (a ++ i :: b))) i = Some gb /\ List.length (dres_of gb) = n /\ in_rule gb /\ s = dn_string bad (d_value (at_ (a ++ i :: b))).
Proof.
  intros bad k0 s0 css q i g n k s at_ E K. destruct (moments bad k0 s0 css q i g E) as (_ & M & _). destruct (M n k s K) as (a & c & gb & -> & (a' & b & ga & d & -> & A1 & A2 & A3 & A4 & A5) & B1 & B2 & B3 & B4).
  exists a', b, c, ga, gb, d. split; [now rewrite <- app_assoc|]. now repeat split.
Qed.
Theorem C169_returns : forall bad x css q, exists q', forall g, In g (dgos (d_sched bad (d_start x css) (q ++ q'))) -> d_returned g.
Proof.
  intros bad x css q.
  set (left := fun g => match dph g with DIdle => 0 | DZero _ _ _ => 6 | DMake _ _ => 5 | DFind _ _ => 4 | DKw _ _ _ => 3 | DText _ _ => 2 | DRet => 1 | DCheck _ => 2 | DName _ => 1
    | DAsk _ => 3 | DKey _ => 2 | DPrint _ _ => 1 | DPanic => 0 end).
  destruct (drain dstate dgo dgos (d_step bad) d_ended (fun g => List.length (dtodo g)) (fun _ g => left g)) with (s := d_sched bad (d_start x css) q) as [q' Q].
  - apply d_step_len.
  - intros st i j D. destruct (nth_error (dgos st) i) as [g0|] eqn:E; [now apply (d_step_go bad _ _ _ E)|now rewrite d_step_none].
  - intros st i g E. destruct (d_step_go bad st i g E) as (_ & _ & N & _). unfold d_gstep in N. unfold left. destruct (dph g) eqn:P.
    + destruct (dtodo g) as [|[x0 k| |] cs] eqn:T; [left; now left|right; eexists; split; [exact N|]; left; cbn; lia| |];
      right; eexists; (split; [exact N|]); left; cbn [snd]; destruct (dvar st); cbn; lia.
    + right. eexists. split; [exact N|]. right. cbn. destruct (dn_text (dobj (dheap st) p)); lia.
    + right. eexists. split; [exact N|]. right. cbn. lia.
    + right. eexists. split; [exact N|]. right. cbn. destruct (String.length x0 =? 0); [lia|]. destruct (dvar st); lia.
    + right. eexists. split; [exact N|]. right. cbn. lia.
    + right. eexists. split; [exact N|]. right. cbn. lia.
    + right. eexists. split; [exact N|]. right. cbn. lia.
    + right. eexists. split; [exact N|]. right. cbn [snd]. destruct (dn_text (dobj (dheap st) p)); cbn; lia.
    + right. eexists. split; [exact N|]. right. cbn [snd]. destruct (dn_text (dobj (dheap st) p)); cbn; lia.
    + right. eexists. split; [exact N|]. right. cbn [snd]. destruct (dn_text (dobj (dheap st) p)); cbn; lia.
    + right. eexists. split; [exact N|]. right. cbn. lia.
    + right. eexists. split; [exact N|]. right. cbn [snd]. destruct (dn_text (dobj (dheap st) p)); cbn; lia.
    + left. now right.
  - exists q'. rewrite d_app. intros g I. destruct (Q g I) as [R|R]; [exact R|]. destruct (In_nth_error _ _ I) as [j J].
    elim (C169_safe bad x css (q ++ q') j g); [now rewrite d_app|exact R].
Qed.
Print Assumptions C169_safe.
Print Assumptions C169_parts.
Print Assumptions C169_string.
Print Assumptions C169_rule.
Print Assumptions C169_returns.
