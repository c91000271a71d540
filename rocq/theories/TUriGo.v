(* C163: goroutines that set and print one LDAP URI. *)
From Coq Require Import String List PeanoNat NArith Bool Lia.
From Verif Require Import GoStr MMisc MKw MSec MAttr MLevels MLists MFilter MUri MHeap MUriGo SUriGo PWhole PDrain.
Import ListNotations.
Open Scope list_scope.

Local Notation sched := v_sched.
Lemma v_app st a b : sched st (a ++ b) = sched (sched st a) b.
Proof. apply fold_left_app. Qed.
Lemma v_snoc st a i : sched st (a ++ [i]) = v_step (sched st a) i.
Proof. now rewrite v_app. Qed.
Lemma v_step_go st i g0 : nth_error (vgos st) i = Some g0 ->
  vmm (v_step st i) = fst (v_gstep (vmm st) g0) /\
  nth_error (vgos (v_step st i)) i = Some (snd (v_gstep (vmm st) g0)) /\
  forall j, j <> i -> nth_error (vgos (v_step st i)) j = nth_error (vgos st) j.
Proof.
  intros E. unfold v_step. rewrite E. destruct (v_gstep (vmm st) g0) as [r g']. cbn [vmm vgos fst snd].
  split; [reflexivity|]. split; [apply wr_same; apply nth_error_Some; congruence|]. intros j J. now apply wr_other.
Qed.
Lemma v_step_none st i : nth_error (vgos st) i = None -> v_step st i = st.
Proof. intros E. unfold v_step. now rewrite E. Qed.
Lemma v_step_len st i : List.length (vgos (v_step st i)) = List.length (vgos st).
Proof.
  unfold v_step. destruct (nth_error (vgos st) i) as [g|]; [|reflexivity].
  destruct (v_gstep (vmm st) g) as [r g']. cbn [vgos]. apply wr_len.
Qed.
Lemma v_step_in st i g : In g (vgos (v_step st i)) ->
  In g (vgos st) \/ exists g0, nth_error (vgos st) i = Some g0 /\ g = snd (v_gstep (vmm st) g0).
Proof.
  unfold v_step. destruct (nth_error (vgos st) i) as [g0|] eqn:E; [|now left].
  destruct (v_gstep (vmm st) g0) as [r g'] eqn:S. cbn [vgos]. intros I. apply wr_in in I as [->|I]; [|now left].
  right. exists g0. split; [reflexivity|]. now rewrite S.
Qed.
Lemma start_at u css i g : nth_error (vgos (v_start u css)) i = Some g ->
  exists cs, nth_error css i = Some cs /\ g = MkVg cs [] blank [].
Proof. cbn. rewrite nth_error_map. destruct (nth_error css i) as [cs|]; [|discriminate]. intros [= <-]. now exists cs. Qed.

Lemma skipn_more {A} n (l k : list A) o : o :: k = skipn n l -> k = skipn (S n) l.
Proof. revert l. induction n as [|n IH]; intros [|x l] E; cbn in *; try discriminate E; [now injection E|]. now apply IH. Qed.

(* ---- the parts ---- *)
Section Parts.
Variables (u0 : uri) (css : list (list vcall)).
Definition okp (p : upart) : Prop := has_part u0 p \/ v_gives css p.
Definition ok_word (j : nat) (c : ucell) : Prop :=
  match j with
  | 0 => okp (PDn (c_dn c)) | 1 => okp (PScope (c_scope c)) | 2 => okp (PKw (c_kw c)) | 3 => okp (PPair (c_pair c))
  | 5 => okp (PFilter (c_filter c)) | _ => True
  end.
Definition ok_mem (m : vmem) : Prop :=
  (forall j, ok_word j (v_cell m)) /\ forall l a, In l (v_stk m) -> In a l -> okp (PAttr a).
Definition ok_op (o : vop) : Prop :=
  match o with
  | VDn d => okp (PDn d) | VScope n => okp (PScope n) | VKw k => okp (PKw k) | VPair p => okp (PPair p) | VFilter f => okp (PFilter f)
  | VNew l => forall a, In a l -> okp (PAttr a)
  | VPush a => okp (PAttr a)
  | VRead _ | VText => True
  end.
Definition ok_text (t : string) : Prop := exists v, t = uri_string v /\ forall p, has_part v p -> okp p.
Definition ok_go (g : vgo) : Prop :=
  (exists cs a, In cs css /\ cs = a ++ vtodo g) /\ Forall ok_op (vcur g) /\
  (In VText (vcur g) -> (exists n, vcur g = skipn n (vcall_ops VString)) /\ forall j, ~ In (VRead j) (vcur g) -> ok_word j (vcopy g)) /\
  forall t, In t (vtexts g) -> ok_text t.
Lemma set_ok cs xs0 : In cs css -> In (VSet xs0) cs -> forall xs a, xs0 = a ++ xs -> Forall no_uri a -> Forall ok_op (vset_ops xs).
Proof.
  intros I J. induction xs as [|x xs IH]; intros a E F; [constructor|].
  assert (G : forall p, arg_part x p -> okp p). { intros p P. right. exists cs, a, x, xs. rewrite <- E. now repeat split. }
  assert (T : no_uri x -> Forall ok_op (vset_ops xs)).
  { intros N. apply (IH (a ++ [x])); [now rewrite <- app_assoc|]. apply Forall_app. split; [assumption|now constructor]. }
  destruct x; cbn [vset_ops no_uri] in *; try (specialize (T Logic.I)).
  - destruct (parseLDAPURI s []) as [u|] eqn:P; [|now apply T].
    repeat (apply Forall_cons; [cbn [ok_op]; intros; apply G; cbn [arg_part]; exists u; (split; [assumption|]); now cbn|]). constructor.
  - constructor; [|assumption]. now apply G.
  - constructor; [|assumption]. now apply G.
  - constructor; [now apply G|]. constructor; [now apply G|assumption].
  - constructor; [|assumption]. now apply G.
  - constructor; [exact Logic.I|]. apply Forall_app. split; [|assumption]. apply Forall_forall. intros o O. apply in_map_iff in O as (b & <- & B). now apply G.
  - assumption.
Qed.
Lemma set_no_text xs : ~ In VText (vset_ops xs).
Proof.
  induction xs as [|x xs IH]; [easy|]. destruct x; cbn [vset_ops]; trivial; try (intros [H|H]; [discriminate H|now apply IH]).
  - destruct (parseLDAPURI s []); [|assumption]. intros H. now repeat (destruct H as [H|H]; [discriminate H|]).
  - intros [H|[H|H]]; try discriminate H. now apply IH.
  - intros [H|H]; [discriminate H|]. apply in_app_or in H as [H|H]; [|now apply IH]. apply in_map_iff in H as (b & H & _). discriminate H.
Qed.
Lemma gstep_ok m g : ok_mem m -> ok_go g -> ok_mem (fst (v_gstep m g)) /\ ok_go (snd (v_gstep m g)).
Proof.
  intros [Mw Ml] ((cs & a & I & E) & O & R & T). unfold v_gstep. destruct (vcur g) as [|o k] eqn:C.
  - destruct (vtodo g) as [|c t] eqn:D; cbn [fst snd]; [split; [now split|]|split; [now split|]].
    + split; [exists cs, a; rewrite D; now split|]. rewrite C. now repeat split.
    + split; [exists cs, (a ++ [c]); cbn [vtodo]; split; [assumption|now rewrite <- app_assoc]|]. cbn [vcur vcopy vtexts].
      destruct c as [xs|].
      * split; [|split; [|assumption]]; cbn [vcall_ops].
        -- apply (set_ok cs xs I) with (a := []); [rewrite E; apply in_or_app; right; now left|reflexivity|constructor].
        -- intros X. now destruct (set_no_text xs).
      * split; [|split; [|assumption]]; cbn [vcall_ops]; [repeat constructor|]. intros _. split; [now exists 0|]. intros j N. do 6 (destruct j as [|j]; [destruct N; cbn; tauto|]). exact Logic.I.
  - inversion O as [|? ? Oo Ok]; subst. cbn [fst snd].
    assert (Todo : exists cs a, In cs css /\ cs = a ++ vtodo g) by (exists (a ++ vtodo g), a; now split).
    assert (Rk : In VText k -> (forall j, ~ In (VRead j) k -> o <> VRead j -> ok_word j (vcopy g))).
    { intros X j N M. apply R; [now right|]. intros [H|H]; [now apply M|now apply N]. }
    assert (Rs : In VText k -> exists n, k = skipn n (vcall_ops VString)).
    { intros X. destruct R as [[n N] _]; [now right|]. exists (S n). now apply skipn_more with (o := o). }
    assert (W : forall c', (forall j, ok_word j c') -> ok_mem (MkVm c' (v_stk m))) by (intros c' W; now split).
    destruct o; cbn [vact lm lcopy ltexts] in *.
    1-5: split; [apply W; intros j; specialize (Mw j); do 6 (destruct j as [|j]; [first [exact Mw | exact Oo]|]); exact Logic.I|];
      split; [exact Todo|]; split; [exact Ok|]; split; [|exact T]; cbn [vcur vcopy]; intros X; (split; [now apply Rs|]); intros j N; apply Rk; trivial; discriminate.
    + (* a new list *)
      split; [split|].
      * intros j. specialize (Mw j). do 6 (destruct j as [|j]; [exact Mw|]). exact Logic.I.
      * cbn [v_stk]. intros l0 b L B. apply in_app_or in L as [L|[<-|[]]]; [now apply (Ml l0)|now apply Oo].
      * split; [exact Todo|]. split; [exact Ok|]. split; [|exact T]. cbn [vcur vcopy]. intros X. split; [now apply Rs|]. intros j N. apply Rk; trivial; discriminate.
    + (* a word is copied *)
      split; [now split|]. split; [exact Todo|]. split; [exact Ok|]. split; [|exact T]. cbn [vcur vcopy]. intros X. split; [now apply Rs|]. intros i N.
      destruct (Nat.eq_dec i j) as [->|D].
      * specialize (Mw j). do 6 (destruct j as [|j]; [exact Mw|]). exact Logic.I.
      * assert (Y : ok_word i (vcopy g)) by (apply Rk; trivial; congruence).
        do 6 (destruct j as [|j]; [do 6 (destruct i as [|i]; [first [exact Y | now destruct D]|]); exact Logic.I|]). exact Y.
    + (* a member is pushed *)
      split; [split; [exact Mw|]|].
      * cbn [v_stk]. intros l b L B. apply wr_in in L as [->|L]; [|now apply (Ml l)].
        cbn [at_push fold_left at_push1] in B. unfold push1 in B.
        assert (B' : In b (nth (c_at (vcopy g)) (v_stk m) []) \/ b = a0).
        { destruct (at_pushPolicy [] a0); [|now left]. apply in_app_or in B as [B|[<-|[]]]; [now left|now right]. }
        destruct B' as [B'| ->]; [|exact Oo]. destruct (Nat.lt_ge_cases (c_at (vcopy g)) (List.length (v_stk m))) as [Lt|Ge].
        -- apply (Ml (nth (c_at (vcopy g)) (v_stk m) [])); [now apply nth_In|assumption].
        -- rewrite nth_overflow in B' by assumption. destruct B'.
      * split; [exact Todo|]. split; [exact Ok|]. split; [|exact T]. cbn [vcur vcopy]. intros X. split; [now apply Rs|]. intros j N. apply Rk; trivial; discriminate.
    + (* the copy is printed *)
      split; [now split|]. split; [exact Todo|]. split; [exact Ok|]. split.
      * cbn [vcur vcopy]. intros X. split; [now apply Rs|]. intros j N. apply Rk; trivial; discriminate.
      * cbn [vtexts]. intros t I'. apply in_app_or in I' as [I'|[<-|[]]]; [now apply T|].
        destruct R as [[n N] R]; [now left|]. assert (k = []) as -> by (do 8 (destruct n as [|n]; [try discriminate N; now injection N|]); discriminate N).
        assert (R' : forall j, ok_word j (vcopy g)) by (intros j; apply R; intros [H|[]]; discriminate H).
        exists (view (MkVm (vcopy g) (v_stk m))). split; [reflexivity|]. intros p P. unfold view in P. cbn [v_cell v_stk] in P.
        destruct p as [d'|n'|k'|p'|a'|f']; cbn [has_part u_dn u_scope u_avbt u_attrs u_filter ab_kw ab_pair] in P;
          [subst d'; exact (R' 0)|subst n'; exact (R' 1)|subst k'; exact (R' 2)|subst p'; exact (R' 3)| |subst f'; exact (R' 5)].
        destruct (Nat.lt_ge_cases (c_at (vcopy g)) (List.length (v_stk m))) as [Lt|Ge].
        -- apply (Ml (nth (c_at (vcopy g)) (v_stk m) [])); [now apply nth_In|assumption].
        -- rewrite nth_overflow in P by assumption. destruct P.
Qed.
Lemma ok_run q : let st := sched (v_start u0 css) q in ok_mem (vmm st) /\ forall g, In g (vgos st) -> ok_go g.
Proof.
  induction q as [|i q IH] using rev_ind.
  - cbn. split.
    + split; [|intros l a [<-|[]] A; now left]. intros j. do 6 (destruct j as [|j]; [first [now left | exact Logic.I]|]). exact Logic.I.
    + intros g I. apply in_map_iff in I as (cs & <- & I). split; [exists cs, []; now split|]. split; [constructor|]. split; [intros []|intros ? []].
  - cbn zeta in *. rewrite v_snoc. set (st := sched (v_start u0 css) q) in *. destruct IH as [M G].
    destruct (nth_error (vgos st) i) as [g0|] eqn:E; [|rewrite v_step_none by assumption; now split].
    destruct (v_step_go st i g0 E) as (R & N & O). destruct (gstep_ok (vmm st) g0 M (G g0 (nth_error_In _ _ E))) as [M' G'].
    rewrite R. split; [assumption|]. intros g I. apply v_step_in in I as [I|(g1 & E1 & ->)]; [now apply G|]. congruence.
Qed.
End Parts.
(* Every part of the URI, at every moment, is one of the start or one that a goroutine gives. *)
Theorem C163_parts : forall u css q p, has_part (v_uri (sched (v_start u css) q)) p -> has_part u p \/ v_gives css p.
Proof.
  intros u css q p P. destruct (ok_run u css q) as [[Mw Ml] _]. set (m := vmm (sched (v_start u css) q)) in *.
  unfold v_uri, view in P. fold m in P. 
  destruct p; cbn [has_part u_dn u_scope u_avbt u_attrs u_filter ab_kw ab_pair] in P;
    [subst d; exact (Mw 0)|subst n; exact (Mw 1)|subst k; exact (Mw 2)|subst p; exact (Mw 3)| |subst f; exact (Mw 5)].
  destruct (Nat.lt_ge_cases (c_at (v_cell m)) (List.length (v_stk m))) as [Lt|Ge].
  - apply (Ml (nth (c_at (v_cell m)) (v_stk m) [])); [now apply nth_In|assumption].
  - rewrite nth_overflow in P by assumption. destruct P.
Qed.
(* Every text returned is that of a URI all of whose parts are of the start or given. *)
Theorem C163_text : forall u css q g t, In g (vgos (sched (v_start u css) q)) -> In t (vtexts g) ->
  exists v, t = uri_string v /\ forall p, has_part v p -> has_part u p \/ v_gives css p.
Proof. intros u css q g t I J. destruct (ok_run u css q) as [_ G]. now apply (G g I). Qed.
(* So it begins with a name of the start or given, when there are only names that are not empty. *)
Theorem C163_named : forall u css q g t, In g (vgos (sched (v_start u css) q)) -> In t (vtexts g) ->
  dn_isZero (u_dn u) = false -> (forall d, v_gives css (PDn d) -> dn_isZero d = false) ->
  exists d r, (u_dn u = d \/ v_gives css (PDn d)) /\ t = (dn_string badBDN d ++ "?" ++ r)%string.
Proof.
  intros u css q g t I J Z N. destruct (C163_text u css q g t I J) as (v & -> & P). exists (u_dn v).
  assert (D := P (PDn (u_dn v)) eq_refl). cbn [has_part] in D.
  assert (V : dn_isZero (u_dn v) = false) by (destruct D as [D|D]; [congruence|now apply N]).
  unfold uri_string, uri_valid. rewrite V. cbn [negb].
  destruct (negb (sf_isZero (u_filter v))); [|destruct (negb (abtv_isZero (u_avbt v)))]; eexists; (split; [exact D|reflexivity]).
Qed.
Print Assumptions C163_parts.
Print Assumptions C163_text.
Print Assumptions C163_named.

(* ---- a call on its own ---- *)
Definition vrun (s : vlocal) (k : list vop) : vlocal := fold_left vact k s.
Definition wf (m : vmem) : Prop := c_at (v_cell m) < List.length (v_stk m).
Lemma vrun_app s a b : vrun s (a ++ b) = vrun (vrun s a) b.
Proof. apply fold_left_app. Qed.
Lemma nth_app_end {A} (l : list A) x d : nth (List.length l) (l ++ [x]) d = x.
Proof. rewrite app_nth2, Nat.sub_diag by lia. reflexivity. Qed.
Lemma nth_wr {A} (l : list A) n x d : n < List.length l -> nth n (wr l n x) d = x.
Proof. intros L. apply nth_error_nth. now apply wr_same. Qed.
Lemma abtv_eta a : MkABTV (ab_kw a) (ab_pair a) = a. Proof. now destruct a. Qed.
Lemma uri_eta u : MkURI (u_dn u) (u_scope u) (u_avbt u) (u_attrs u) (u_filter u) = u. Proof. now destruct u. Qed.
Lemma push_run l : forall s, wf (lm s) -> c_at (lcopy s) = c_at (v_cell (lm s)) ->
  let s' := vrun s (map VPush l) in
  wf (lm s') /\ ltexts s' = ltexts s /\
  view (lm s') = MkURI (u_dn (view (lm s))) (u_scope (view (lm s))) (u_avbt (view (lm s))) (at_push (u_attrs (view (lm s))) (map AType l)) (u_filter (view (lm s))).
Proof.
  induction l as [|a l IH]; intros s Wf C; cbn [map vrun fold_left].
  - split; [assumption|]. split; reflexivity.
  - destruct (IH (vact s (VPush a))) as (A & B & D); cbn [vact lm lcopy ltexts v_cell v_stk] in *.
    + unfold wf. cbn [v_cell v_stk]. now rewrite wr_len.
    + assumption.
    + split; [exact A|]. split; [exact B|]. unfold vrun in D. rewrite D. unfold view. cbn [v_cell v_stk u_dn u_scope u_avbt u_attrs u_filter].
      rewrite C, nth_wr by exact Wf. reflexivity.
Qed.
Lemma set_run xs : forall s, wf (lm s) ->
  let s' := vrun s (vset_ops xs) in wf (lm s') /\ ltexts s' = ltexts s /\ view (lm s') = uri_set (view (lm s)) xs.
Proof.
  induction xs as [|x xs IH]; intros s Wf; [now repeat split|].
  assert (Put : forall s1, wf (lm s1) -> ltexts s1 = ltexts s -> let s' := vrun s1 (vset_ops xs) in
     wf (lm s') /\ ltexts s' = ltexts s /\ view (lm s') = uri_set (view (lm s1)) xs).
  { intros s1 W1 T1 s'. destruct (IH s1 W1) as (A & B & D). fold s' in A, B, D. repeat split; trivial. congruence. }
  destruct x; cbn [vset_ops uri_set].
  - destruct (parseLDAPURI s0 []) as [u|]; [|now apply Put]. cbn zeta. unfold vrun, vact, wf, view.
    cbn [fold_left lm lcopy ltexts v_cell v_stk c_dn c_scope c_kw c_pair c_at c_filter]. rewrite app_length. cbn [List.length].
    split; [lia|]. split; [reflexivity|]. rewrite nth_app_end, abtv_eta. apply uri_eta.
  - apply (Put (vact s (VDn d)) Wf eq_refl).
  - apply (Put (vact s (VScope n)) Wf eq_refl).
  - destruct (Put (vact (vact s (VKw (ab_kw a))) (VPair (ab_pair a))) Wf eq_refl) as (A & B & D).
    split; [exact A|]. split; [exact B|]. change (vrun s (VKw (ab_kw a) :: VPair (ab_pair a) :: vset_ops xs)) with (vrun (vact (vact s (VKw (ab_kw a))) (VPair (ab_pair a))) (vset_ops xs)).
    rewrite D. unfold view. cbn [vact lm v_cell v_stk c_dn c_scope c_kw c_pair c_at c_filter u_dn u_scope u_attrs u_filter]. now rewrite abtv_eta.
  - apply (Put (vact s (VFilter f)) Wf eq_refl).
  - cbn zeta. change (VRead 4 :: map VPush l ++ vset_ops xs) with ([VRead 4] ++ map VPush l ++ vset_ops xs). rewrite !vrun_app.
    set (s1 := vrun s [VRead 4]). destruct (push_run l s1 Wf eq_refl) as (A & B & D). destruct (Put (vrun s1 (map VPush l)) A B) as (A' & B' & D').
    split; [exact A'|]. split; [exact B'|]. rewrite D', D. reflexivity.
  - now apply Put.
Qed.
Lemma string_run s : wf (lm s) -> let s' := vrun s (vcall_ops VString) in
  lm s' = lm s /\ ltexts s' = ltexts s ++ [uri_string (view (lm s))].
Proof. intros Wf. split; reflexivity. Qed.
Lemma call_run c s i j : wf (lm s) -> let s' := vrun s (vcall_ops c) in
  wf (lm s') /\ view (lm s') = serial (view (lm s)) [(j, c)] /\
  ltexts s' = ltexts s ++ said i (view (lm s)) [(i, c)].
Proof.
  intros Wf. destruct c as [xs|]; cbn [vcall_ops serial said].
  - destruct (set_run xs s Wf) as (A & B & D). rewrite app_nil_r. now repeat split.
  - rewrite Nat.eqb_refl, app_nil_r. now repeat split.
Qed.
Lemma serial_app u a b : serial u (a ++ b) = serial (serial u a) b.
Proof. revert u. induction a as [|[j [xs|]] a IH]; intros u; cbn [app serial]; trivial. Qed.
Lemma said_app i u a b : said i u (a ++ b) = said i u a ++ said i (serial u a) b.
Proof. revert u. induction a as [|[j [xs|]] a IH]; intros u; cbn [app serial said]; trivial. now rewrite IH, app_assoc. Qed.
Lemma calls_run cs i : forall s, wf (lm s) -> let s' := vrun s (flat_map vcall_ops cs) in
  wf (lm s') /\ view (lm s') = serial (view (lm s)) (map (pair i) cs) /\ ltexts s' = ltexts s ++ said i (view (lm s)) (map (pair i) cs).
Proof.
  induction cs as [|c cs IH]; intros s Wf; [cbn; now rewrite app_nil_r|]. cbn [flat_map map]. cbn zeta. rewrite vrun_app.
  destruct (call_run c s i i Wf) as (A & B & D). destruct (IH _ A) as (A' & B' & D'). split; [exact A'|].
  change ((i, c) :: map (pair i) cs) with ([(i, c)] ++ map (pair i) cs). rewrite serial_app, said_app, B', D', B, D, app_assoc. now split.
Qed.

(* ---- one goroutine that calls Set, others that call String ---- *)
Definition reading (o : vop) : Prop := match o with VRead _ | VText => True | _ => False end.
Lemma gstep_alone m g : let '(m', g') := v_gstep m g in
  let rest g := vcur g ++ flat_map vcall_ops (vtodo g) in
  vrun (MkVl m' (vcopy g') (vtexts g')) (rest g') = vrun (MkVl m (vcopy g) (vtexts g)) (rest g).
Proof.
  unfold v_gstep. destruct (vcur g) as [|o k] eqn:C.
  - destruct (vtodo g) as [|c t] eqn:D; [now rewrite C, D|]. reflexivity.
  - cbn [vcur vtodo vcopy vtexts]. cbn [app vrun fold_left]. now destruct (vact _ o).
Qed.
Lemma sole_run u css i cs : nth_error css i = Some cs ->
  (forall j cs', j <> i -> nth_error css j = Some cs' -> forall c, In c cs' -> c = VString) ->
  forall q, let st := sched (v_start u css) q in
  (exists g, nth_error (vgos st) i = Some g /\
     vrun (MkVl (vmm st) (vcopy g) (vtexts g)) (vcur g ++ flat_map vcall_ops (vtodo g)) =
     vrun (MkVl (vmem_of u) blank []) (flat_map vcall_ops cs)) /\
  forall j g, j <> i -> nth_error (vgos st) j = Some g -> Forall reading (vcur g) /\ forall c, In c (vtodo g) -> c = VString.
Proof.
  intros Ei Ot. induction q as [|k q IH] using rev_ind.
  - cbn zeta. split.
    + exists (MkVg cs [] blank []). cbn. rewrite nth_error_map, Ei. now split.
    + intros j g D E. apply start_at in E as (cs' & E & ->). split; [constructor|]. cbn [vtodo]. intros c. now apply (Ot j).
  - cbn zeta in *. rewrite v_snoc. set (st := sched (v_start u css) q) in *. destruct IH as [(g & E & H) O].
    destruct (nth_error (vgos st) k) as [g0|] eqn:K; [|rewrite v_step_none by assumption; split; [now exists g|assumption]].
    destruct (v_step_go st k g0 K) as (R & N & Oth). destruct (Nat.eq_dec k i) as [->|D].
    + assert (g0 = g) as -> by congruence. assert (A := gstep_alone (vmm st) g). destruct (v_gstep (vmm st) g) as [m' g'] eqn:S. cbn [fst snd] in *. split.
      * exists g'. rewrite R. split; [assumption|]. now rewrite A.
      * intros j h J. rewrite Oth by assumption. now apply O.
    + destruct (O k g0 D K) as [Rd Td].
      assert (M : fst (v_gstep (vmm st) g0) = vmm st /\ Forall reading (vcur (snd (v_gstep (vmm st) g0))) /\ forall c, In c (vtodo (snd (v_gstep (vmm st) g0))) -> c = VString).
      { unfold v_gstep. destruct (vcur g0) as [|o r] eqn:C.
        - destruct (vtodo g0) as [|c t] eqn:T; cbn [fst snd]; [rewrite C, T; now repeat split|]. split; [reflexivity|]. split; [|intros x X; apply Td; now right].
          rewrite (Td c) by now left. cbn. repeat constructor.
        - inversion Rd as [|? ? Ro Rr]; subst. destruct o; cbn [reading] in Ro; try contradiction; cbn [fst snd vact lm vcur vtodo]; now repeat split. }
      destruct M as (M & Rd' & Td'). rewrite R, M. split.
      * exists g. split; [rewrite Oth by (now apply not_eq_sym); assumption|assumption].
      * intros j h J. destruct (Nat.eq_dec j k) as [->|Dj]; [rewrite N; intros [= <-]; now split|]. rewrite Oth by assumption. now apply O.
Qed.
(* When one goroutine calls Set and the others only String, the URI in the end is what its
   calls leave, one after the other, and its own calls of String return what they would. *)
Theorem C163_sole : forall u css i cs g q, nth_error css i = Some cs ->
  (forall j cs', j <> i -> nth_error css j = Some cs' -> forall c, In c cs' -> c = VString) ->
  let st := sched (v_start u css) q in v_returned st -> nth_error (vgos st) i = Some g ->
  v_uri st = serial u (map (pair i) cs) /\ vtexts g = said i u (map (pair i) cs).
Proof.
  intros u css i cs g q Ei Ot st Rt Eg. destruct (sole_run u css i cs Ei Ot q) as [(g' & E & H) _]. fold st in E, H.
  assert (g' = g) as -> by congruence. destruct (Rt g (nth_error_In _ _ Eg)) as [T C]. rewrite T, C in H. cbn [flat_map app] in H.
  destruct (calls_run cs i (MkVl (vmem_of u) blank [])) as (_ & B & D); [unfold wf; cbn; lia|].
  rewrite <- H in B, D. cbn [vrun fold_left lm ltexts app] in B, D.
  assert (V : view (vmem_of u) = u). { unfold view, vmem_of. cbn [v_cell v_stk c_dn c_scope c_kw c_pair c_at c_filter nth]. rewrite abtv_eta. apply uri_eta. }
  rewrite V in B, D. now split.
Qed.
(* Every call returns if it is given its turns. *)
Theorem C163_returns : forall u css q, exists q', v_returned (sched (v_start u css) (q ++ q')).
Proof.
  intros u css q. destruct (drain vstate vgo vgos v_step (fun g => vtodo g = [] /\ vcur g = []) (fun g => List.length (vtodo g)) (fun _ g => List.length (vcur g)))
    with (s := sched (v_start u css) q) as [q' Q].
  - apply v_step_len.
  - intros st i j D. destruct (nth_error (vgos st) i) as [g0|] eqn:E; [now apply (v_step_go _ _ _ E)|now rewrite v_step_none].
  - intros st i g E. destruct (v_step_go st i g E) as (_ & N & _). unfold v_gstep in N. destruct (vcur g) as [|o k] eqn:C.
    + destruct (vtodo g) as [|c t] eqn:T; [now left|]. right. eexists. split; [exact N|]. left. cbn. lia.
    + right. eexists. split; [exact N|]. right. cbn. lia.
  - exists q'. rewrite v_app. exact Q.
Qed.
Print Assumptions C163_sole.
Print Assumptions C163_returns.
