(* C153, C154: Set and String of one FQDN, called by several goroutines. *)
From Coq Require Import String Ascii List PeanoNat Bool Lia.
From Verif Require Import GoStr MMisc MHeap MNet SNet PNet MLabel SLabel SWord PWhole TSlice.
Import ListNotations.
Open Scope list_scope.

Lemma labels_beyond r label t : label = [] \/ processLabel label = None \/ (exists dl c, processLabel label = Some (dl, c) /\ (fqdnMax < List.length r + c)%nat) ->
  labels_set (r ++ t) label = r ++ t.
Proof.
  intros K. unfold labels_set. destruct label as [|x label]; [reflexivity|]. destruct K as [K|[K|(dl & c & K & L)]]; [discriminate|now rewrite K|].
  rewrite K, app_length. destruct (Nat.leb_spec (List.length r + List.length t + c) fqdnMax); [lia|reflexivity].
Qed.
Lemma processed label dl c : processLabel label = Some (dl, c) -> forall x, In x dl -> label_ok x /\ In x (flat_map (split1 "."%char) label).
Proof.
  unfold processLabel. rewrite process_spec. cbn [app]. destruct (forallb validLabel label && forallb validLabel (pieces label))%bool eqn:V; [|discriminate].
  destruct ((0 <? _)%nat && _)%bool; [|discriminate]. intros E x J. assert (dl = pieces label) by congruence. subst dl. clear E. split; [|exact J]. apply andb_true_iff in V as [_ V]. rewrite forallb_forall in V.
  apply label_ok_iff. split; [now apply validLabel_iff, V|now apply (pieces_no_dot label)].
Qed.
Definition made (l : list string) (calls : list (list string)) : list string := fold_left labels_set calls l.
Lemma made_run l calls : fqdn_run (Some l) calls = Some (made l calls).
Proof. unfold fqdn_run, made. revert l. induction calls as [|c calls IH]; intros l; [reflexivity|]. cbn [fold_left]. apply IH. Qed.

Section Label.
Variable spare : nat -> nat.
Notation run := (d_sched spare).
Notation step := (d_step spare).
Notation placed := (placed spare).

Lemma run_snoc st q i : run st (q ++ [i]) = step (run st q) i.
Proof. unfold d_sched. now rewrite fold_left_app. Qed.
Lemma run_app st a b : run st (a ++ b) = run (run st a) b.
Proof. unfold d_sched. now rewrite fold_left_app. Qed.
Lemma step_len st i : List.length (dgos (step st i)) = List.length (dgos st).
Proof.
  unfold d_step. destruct (nth_error (dgos st) i) as [g|]; [|reflexivity]. destruct (d_gstep spare st g) as [[a h] g']. apply wr_len.
Qed.
Lemma step_out st i : nth_error (dgos st) i = None -> step st i = st.
Proof. intros E. unfold d_step. now rewrite E. Qed.
Lemma step_gos st i g : nth_error (dgos st) i = Some g -> forall j,
  nth_error (dgos (step st i)) j = if Nat.eqb j i then Some (snd (d_gstep spare st g)) else nth_error (dgos st) j.
Proof.
  intros E j. unfold d_step. rewrite E. destruct (d_gstep spare st g) as [[a h] g']. cbn [dgos snd]. destruct (Nat.eqb_spec j i) as [->|N].
  - apply wr_same. apply nth_error_Some. congruence.
  - now apply wr_other.
Qed.
Lemma step_mem st i g : nth_error (dgos st) i = Some g -> darrays (step st i) = fst (fst (d_gstep spare st g)) /\ dhdr (step st i) = snd (fst (d_gstep spare st g)).
Proof. intros E. unfold d_step. rewrite E. now destruct (d_gstep spare st g) as [[a h] g']. Qed.

Definition pend (p : dplace) : list string := match p with Put dl => dl | DHave x dl _ _ | DStore x dl _ _ => x :: dl | _ => [] end.
Definition place_ok (ar : list (list string)) (h : nat * nat) (p : dplace) : Prop :=
  match p with
  | DHave x dl A n => (A, n) = h
  | DStore x dl A n => within ar (A, n) /\ view ar (A, n) = view ar h ++ [x]
  | DLook seen => pre seen (view ar h) /\ (2 <= List.length (view ar h))%nat
  | DFetch seen => pre seen (view ar h) /\ (2 <= List.length (view ar h))%nat /\ (List.length seen < List.length (view ar h))%nat
  | _ => True
  end.
Definition go_ok (ar : list (list string)) (h : nat * nat) (g : dgo) : Prop := place_ok ar h (dat g) /\ ~ In None (dtexts g).
Lemma other_ok ar h ar' h' p : place_ok ar h p -> (ar' = ar /\ h' = h) \/ (~ d_writing p /\ exists t, view ar' h' = view ar h ++ t) -> place_ok ar' h' p.
Proof.
  intros O [[-> ->]|[W (t & V)]]; [exact O|]. destruct p; cbn [d_writing] in W; try (exfalso; apply W; exact I); cbn [place_ok] in *; try exact I; rewrite ?V.
  - destruct O as [O1 O2]. split; [now apply pre_more|rewrite app_length; lia].
  - destruct O as (O1 & O2 & O3). split; [now apply pre_more|rewrite app_length; lia].
Qed.

(* one step of a goroutine, nobody else at work *)
Lemma gstep_ok st g : within (darrays st) (dhdr st) -> go_ok (darrays st) (dhdr st) g ->
  let '(ar, h, g') := d_gstep spare st g in
  let v := view (darrays st) (dhdr st) in
  within ar h /\ go_ok ar h g' /\
  ((ar = darrays st /\ h = dhdr st) \/ (d_writing (dat g) /\ exists t, view ar h = v ++ t)) /\
  ((d_sets (dtodo g) = d_sets (dtodo g') /\ (d_writing (dat g') -> d_writing (dat g)) /\ view ar h ++ pend (dat g') = v ++ pend (dat g)) \/
   (exists label, d_sets (dtodo g) = label :: d_sets (dtodo g') /\ ~ d_writing (dat g) /\ (ar = darrays st /\ h = dhdr st) /\
      ((d_writing (dat g') /\ labels_set v label = v ++ pend (dat g')) \/
       (~ d_writing (dat g') /\ forall t, labels_set (v ++ t) label = v ++ t)))) /\
  (dtexts g' = dtexts g \/ dtexts g' = dtexts g ++ [Some badFQDN] \/ (dtexts g' = dtexts g ++ [Some (join "."%string v)] /\ (2 <= List.length v)%nat)).
Proof.
  intros Wi [P T]. unfold d_gstep. destruct (dhdr st) as [H n0] eqn:Eh. change (darray st) with (arr (darrays st)). cbv zeta.
  assert (VL := view_len _ _ Wi). cbn [snd] in VL.
  assert (Same : forall p t, place_ok (darrays st) (H, n0) p -> d_sets (dtodo g) = d_sets t -> (d_writing p -> d_writing (dat g)) -> pend p = pend (dat g) ->
    within (darrays st) (H, n0) /\ go_ok (darrays st) (H, n0) (MkDg t p (dtexts g)) /\
    ((darrays st = darrays st /\ (H, n0) = (H, n0)) \/ (d_writing (dat g) /\ exists u, view (darrays st) (H, n0) = view (darrays st) (H, n0) ++ u)) /\
    ((d_sets (dtodo g) = d_sets t /\ (d_writing p -> d_writing (dat g)) /\ view (darrays st) (H, n0) ++ pend p = view (darrays st) (H, n0) ++ pend (dat g)) \/
     (exists label, d_sets (dtodo g) = label :: d_sets t /\ ~ d_writing (dat g) /\ (darrays st = darrays st /\ (H, n0) = (H, n0)) /\
       ((d_writing p /\ labels_set (view (darrays st) (H, n0)) label = view (darrays st) (H, n0) ++ pend p) \/
        (~ d_writing p /\ forall t, labels_set (view (darrays st) (H, n0) ++ t) label = view (darrays st) (H, n0) ++ t)))) /\
    (dtexts g = dtexts g \/ dtexts g = dtexts g ++ [Some badFQDN] \/ (dtexts g = dtexts g ++ [Some (join "."%string (view (darrays st) (H, n0)))] /\ (2 <= List.length (view (darrays st) (H, n0)))%nat))).
  { intros p t Pk D Wp Ep. split; [exact Wi|]. split; [now split|]. split; [left; now split|]. split; [left; rewrite Ep; auto|now left]. }
  assert (NN : forall x, ~ In None (dtexts g ++ [Some x])) by (intros x X; apply in_app_iff in X as [X|[X|[]]]; [tauto|discriminate]).
  destruct (dat g) as [|dl|x dl A n|x dl A n|i c|i j c|c|seen|seen] eqn:Ep; cbn [place_ok d_writing pend] in *.
  - destruct (dtodo g) as [|[label|] t] eqn:Et.
    + split; [exact Wi|]. split; [split; [now rewrite Ep|exact T]|]. split; [left; now split|]. split; [left; rewrite Et, Ep; auto|now left].
    + split; [exact Wi|]. split; [split; [|exact T]|].
      { cbn [dat]. destruct label; [exact I|]. destruct (processLabel _) as [[dl c]|]; [|exact I]. destruct (_ <=? _)%nat; exact I. }
      split; [left; now split|]. split; [|now left]. right. exists label. split; [reflexivity|]. split; [tauto|]. split; [now split|]. cbn [dat].
      destruct label as [|x label]; [right; split; [tauto|intros u; apply labels_beyond; now left]|].
      destruct (processLabel (x :: label)) as [[dl c]|] eqn:Pl; [|right; split; [tauto|intros u; apply labels_beyond; now right; left]].
      destruct (Nat.leb_spec (n0 + c) fqdnMax) as [L|L].
      * left. split; [exact I|]. unfold labels_set. rewrite Pl, VL. cbn [pend]. destruct (Nat.leb_spec (n0 + c) fqdnMax); [reflexivity|lia].
      * right. split; [tauto|]. intros u. apply labels_beyond. right; right. exists dl, c. split; [exact Pl|now rewrite VL].
    + apply Same; auto; try exact I; reflexivity.
  - destruct dl as [|x dl]; apply Same; auto; try exact I; reflexivity.
  - injection P as -> ->.
    assert (G : within (fst (placed (darrays st) H n0 x)) (H, n0) /\ go_ok (fst (placed (darrays st) H n0 x)) (H, n0) (MkDg (dtodo g) (DStore x dl (snd (placed (darrays st) H n0 x)) (S n0)) (dtexts g)) /\
      view (fst (placed (darrays st) H n0 x)) (H, n0) = view (darrays st) (H, n0)).
    { split; [now apply placed_other|]. split; [|now apply placed_old]. split; [|exact T]. cbn [dat place_ok].
      rewrite placed_old, placed_view by exact Wi. split; [now apply placed_within|reflexivity]. }
    unfold TSlice.placed in G. destruct (n0 <? List.length (arr (darrays st) H))%nat; cbn [fst snd] in G; destruct G as (G1 & G2 & G3);
      (split; [exact G1|split; [exact G2|split; [right; split; [exact I|exists []; now rewrite G3, app_nil_r]|split; [left; rewrite G3; auto|now left]]]]).
  - destruct P as [Pw Pv]. split; [exact Pw|]. split; [split; [exact I|exact T]|]. split; [right; split; [exact I|exists [x]; exact Pv]|].
    split; [|now left]. left. split; [reflexivity|]. split; [auto|]. rewrite Pv, <- app_assoc. reflexivity.
  - apply Same; auto; destruct (_ <? _)%nat; try exact I; try tauto; reflexivity.
  - apply Same; auto; destruct (_ <? _)%nat; try exact I; try tauto; reflexivity.
  - destruct (Nat.ltb_spec n0 2) as [L|L].
    + rewrite orb_true_r. split; [exact Wi|]. split; [split; [exact I|apply NN]|]. split; [left; now split|]. split; [left; auto|right; now left].
    + rewrite orb_false_r. destruct (negb _).
      * split; [exact Wi|]. split; [split; [exact I|apply NN]|]. split; [left; now split|]. split; [left; auto|right; now left].
      * apply Same; auto. split; [eexists; reflexivity|lia].
  - destruct P as [P1 P2]. destruct (Nat.ltb_spec (List.length seen) n0) as [L|L].
    + apply Same; auto. split; [exact P1|lia].
    + assert (seen = view (darrays st) (H, n0)) by (apply pre_full; [exact P1|lia]). subst seen.
      split; [exact Wi|]. split; [split; [exact I|apply NN]|]. split; [left; now split|]. split; [left; auto|right; right; now split].
  - destruct P as (P1 & P2 & P3). destruct (Nat.ltb_spec (List.length seen) n0) as [L|L]; [|lia].
    apply Same; auto. cbn [place_ok]. rewrite (nth_view _ (H, n0)) by assumption. split; [apply pre_next; [exact P1|exact P3]|exact P2].
Qed.

Definition turn (st : dstate) : Prop := forall i j gi gj, nth_error (dgos st) i = Some gi -> d_writing (dat gi) -> nth_error (dgos st) j = Some gj -> d_writing (dat gj) -> i = j.
Definition part (l : list string) (h : list (nat * list string)) (v : list string) : Prop :=
  v = made l (map snd h) \/
  exists h0 e h1, h = h0 ++ e :: h1 /\ pre (made l (map snd h0)) v /\ made l (map snd (h0 ++ [e])) = made l (map snd h).
Record inv (l : list string) (css : list (list dcall)) (st : dstate) (h : list (nat * list string)) : Prop := MkInv
  { i_within : within (darrays st) (dhdr st);
    i_go : forall k g, nth_error (dgos st) k = Some g -> go_ok (darrays st) (dhdr st) g;
    i_len : List.length (dgos st) = List.length css;
    i_pre : pre (dshown st) (made l (map snd h));
    i_busy : forall k g, nth_error (dgos st) k = Some g -> d_writing (dat g) -> dshown st ++ pend (dat g) = made l (map snd h);
    i_idle : (forall k g, nth_error (dgos st) k = Some g -> ~ d_writing (dat g)) -> dshown st = made l (map snd h);
    i_part : part l h (dshown st);
    i_keys : forall k e, In (k, e) h -> (k < List.length css)%nat;
    i_done : forall k g cs, nth_error (dgos st) k = Some g -> nth_error css k = Some cs ->
               map snd (filter (fun p => Nat.eqb (fst p) k) h) ++ d_sets (dtodo g) = d_sets cs }.
Lemma pre_trans a b c : pre a b -> pre b c -> pre a c.
Proof. intros (t & ->) (u & ->). exists (t ++ u). now rewrite app_assoc. Qed.
Lemma pre_refl a : pre a a.
Proof. exists []. now rewrite app_nil_r. Qed.
Lemma made_snoc l (h : list (nat * list string)) k e : made l (map snd (h ++ [(k, e)])) = labels_set (made l (map snd h)) e.
Proof. unfold made. now rewrite map_app, fold_left_app. Qed.

Lemma inv_step l css st h i : turn st -> turn (step st i) -> inv l css st h ->
  (exists h', inv l css (step st i) h') /\ pre (dshown st) (dshown (step st i)) /\
  (forall g g', nth_error (dgos st) i = Some g -> nth_error (dgos (step st i)) i = Some g' ->
     dtexts g' = dtexts g \/ dtexts g' = dtexts g ++ [Some badFQDN] \/ (dtexts g' = dtexts g ++ [Some (join "."%string (dshown st))] /\ (2 <= List.length (dshown st))%nat)).
Proof.
  intros U U' I. destruct (nth_error (dgos st) i) as [g|] eqn:G.
  2:{ rewrite (step_out _ _ G). split; [now exists h|]. split; [apply pre_refl|discriminate]. }
  pose proof (gstep_ok st g (i_within _ _ _ _ I) (i_go _ _ _ _ I _ _ G)) as K.
  pose proof (step_gos st i g G) as Gs. destruct (step_mem st i g G) as [Ma Mh].
  destruct (d_gstep spare st g) as [[ar hd] g'] eqn:E. cbn [fst snd] in *. destruct K as (K1 & K2 & K3 & K5 & K6).
  assert (Vs : forall s, dshown s = view (darrays s) (dhdr s)) by reflexivity. rewrite <- Vs in *.
  assert (G' : nth_error (dgos (step st i)) i = Some g') by (rewrite Gs, Nat.eqb_refl; reflexivity).
  assert (V' : dshown (step st i) = view ar hd) by (rewrite Vs, Ma, Mh; reflexivity).
  assert (Gr : pre (dshown st) (dshown (step st i))).
  { rewrite V'. destruct K3 as [[-> ->]|[_ (t & ->)]]; [apply pre_refl|now exists t]. }
  split; [|split; [exact Gr|]].
  2:{ intros g0 g1 [= <-]. rewrite G'. intros [= <-]. exact K6. }
  assert (Go : forall k g1, nth_error (dgos (step st i)) k = Some g1 -> go_ok (darrays (step st i)) (dhdr (step st i)) g1).
  { intros k g1. rewrite Gs, Ma, Mh. destruct (Nat.eqb_spec k i) as [->|N]; [intros [= <-]; exact K2|]. intros G1.
    destruct (i_go _ _ _ _ I _ _ G1) as [P1 P2]. split; [|exact P2]. apply (other_ok (darrays st) (dhdr st)); [exact P1|].
    destruct K3 as [K3|[K3 K3']]; [now left|]. right. split; [|exact K3']. intros W. apply N. exact (U k i g1 g G1 W G K3). }
  assert (Oth : forall k g1, k <> i -> nth_error (dgos (step st i)) k = Some g1 <-> nth_error (dgos st) k = Some g1).
  { intros k g1 N. rewrite Gs. destruct (Nat.eqb_spec k i); [contradiction|reflexivity]. }
  destruct K5 as [(D & Wp & Pv)|(label & D & Wg & (Ea & Eh) & K5)].
  - exists h. assert (Bu : d_writing (dat g) -> dshown (step st i) ++ pend (dat g') = made l (map snd h)).
    { intros W. rewrite V', Pv. exact (i_busy _ _ _ _ I _ _ G W). }
    assert (Un : ~ d_writing (dat g) -> dshown (step st i) = dshown st).
    { intros W. rewrite V'. destruct K3 as [[-> ->]|[K3 _]]; [reflexivity|contradiction]. }
    assert (Dw : d_writing (dat g) \/ ~ d_writing (dat g)) by (destruct (dat g); cbn; tauto).
    assert (Pr : pre (dshown (step st i)) (made l (map snd h))).
    { destruct Dw as [W|W]; [eexists; symmetry; exact (Bu W)|]. rewrite (Un W). apply I. }
    split; try assumption.
    + now rewrite Ma, Mh.
    + rewrite step_len. apply I.
    + intros k g1 G1 W1. destruct (Nat.eq_dec k i) as [->|N].
      * rewrite G' in G1. injection G1 as <-. apply Bu, Wp, W1.
      * apply Oth in G1; [|exact N]. destruct Dw as [W|W]; [exfalso; apply N; exact (U k i g1 g G1 W1 G W)|]. rewrite (Un W). exact (i_busy _ _ _ _ I _ _ G1 W1).
    + intros Q. destruct Dw as [W|W].
      * specialize (Bu W). assert (Wn := Q i g' G'). assert (Z : pend (dat g') = []) by (destruct (dat g'); cbn in *; try reflexivity; exfalso; apply Wn; exact Logic.I).
        now rewrite Z, app_nil_r in Bu.
      * rewrite (Un W). apply (i_idle _ _ _ _ I). intros k g1 G1. destruct (Nat.eq_dec k i) as [->|N]; [rewrite G in G1; injection G1 as <-; exact W|].
        apply (Q k). now apply Oth.
    + destruct (i_part _ _ _ _ I) as [Pt|(h0 & e & h1 & P1 & P2 & P3)].
      * left. rewrite Pt in Gr. destruct Pr as (t & Et). destruct Gr as (u & Eu). rewrite Eu in *. destruct u; [now rewrite app_nil_r|].
        exfalso. apply (f_equal (@List.length string)) in Et. rewrite !app_length in Et. cbn in Et. lia.
      * right. exists h0, e, h1. split; [exact P1|]. split; [eapply pre_trans; eassumption|exact P3].
    + apply I.
    + intros k g1 cs G1 C. destruct (Nat.eq_dec k i) as [->|N].
      * rewrite G' in G1. injection G1 as <-. rewrite <- D. exact (i_done _ _ _ _ I _ _ _ G C).
      * apply Oth in G1; [|exact N]. exact (i_done _ _ _ _ I _ _ _ G1 C).
  - exists (h ++ [(i, label)]). subst ar hd. rewrite <- Vs in *.
    assert (Dn : forall k g1 cs, nth_error (dgos (step st i)) k = Some g1 -> nth_error css k = Some cs ->
      map snd (filter (fun p => Nat.eqb (fst p) k) (h ++ [(i, label)])) ++ d_sets (dtodo g1) = d_sets cs).
    { intros k g1 cs G1 C. rewrite filter_app, map_app. cbn [filter fst]. destruct (Nat.eqb_spec i k) as [<-|N].
      - rewrite G' in G1. injection G1 as <-. cbn [map snd]. rewrite <- app_assoc. cbn [app]. rewrite <- D. exact (i_done _ _ _ _ I _ _ _ G C).
      - apply Oth in G1; [|congruence]. cbn [map]. rewrite app_nil_r. exact (i_done _ _ _ _ I _ _ _ G1 C). }
    assert (Ks : forall k e, In (k, e) (h ++ [(i, label)]) -> (k < List.length css)%nat).
    { intros k e J. apply in_app_iff in J as [J|[[= <- <-]|[]]]; [eapply i_keys; eauto|]. rewrite <- (i_len _ _ _ _ I). apply nth_error_Some. congruence. }
    destruct K5 as [[W' Ls]|[W' Ls]].
    + assert (Nw : forall k g1, nth_error (dgos st) k = Some g1 -> ~ d_writing (dat g1)).
      { intros k g1 G1 W1. destruct (Nat.eq_dec k i) as [->|N]; [rewrite G in G1; injection G1 as <-; contradiction|].
        apply N. apply (U' k i g1 g'); [now apply Oth|exact W1|exact G'|exact W']. }
      assert (X := i_idle _ _ _ _ I Nw).
      assert (M : made l (map snd (h ++ [(i, label)])) = dshown st ++ pend (dat g')) by (rewrite made_snoc, <- X; exact Ls).
      split; try assumption; rewrite ?V', ?M.
      * now rewrite Ma, Mh.
      * rewrite step_len. apply I.
      * now exists (pend (dat g')).
      * intros k g1 G1 W1. rewrite (U' k i g1 g' G1 W1 G' W') in G1. rewrite G' in G1. now injection G1 as <-.
      * intros Q. exfalso. exact (Q i g' G' W').
      * right. exists h, (i, label), []. split; [reflexivity|]. split; [rewrite <- X; apply pre_refl|reflexivity].
    + assert (M : made l (map snd (h ++ [(i, label)])) = made l (map snd h)).
      { rewrite made_snoc. destruct (i_pre _ _ _ _ I) as (t & ->). apply Ls. }
      split; try assumption; rewrite ?V', ?M.
      * now rewrite Ma, Mh.
      * rewrite step_len. apply I.
      * apply I.
      * intros k g1 G1 W1. destruct (Nat.eq_dec k i) as [->|N]; [rewrite G' in G1; injection G1 as <-; contradiction|].
        apply Oth in G1; [|exact N]. exact (i_busy _ _ _ _ I _ _ G1 W1).
      * intros Q. apply (i_idle _ _ _ _ I). intros k g1 G1. destruct (Nat.eq_dec k i) as [->|N]; [rewrite G in G1; injection G1 as <-; exact Wg|].
        apply (Q k). now apply Oth.
      * destruct (i_part _ _ _ _ I) as [Pt|(h0 & e & h1 & P1 & P2 & P3)]; [left; congruence|].
        right. exists h0, e, (h1 ++ [(i, label)]). split; [rewrite P1, <- app_assoc; reflexivity|]. split; [exact P2|congruence].
Qed.
Lemma start_nth l room css k : nth_error (dgos (d_start l room css)) k = option_map (fun cs => MkDg cs DRest []) (nth_error css k).
Proof. apply nth_error_map. Qed.
Lemma start_shown l room css : dshown (d_start l room css) = l.
Proof. unfold dshown, darray, d_start. cbn. rewrite firstn_app, Nat.sub_diag, firstn_all. apply app_nil_r. Qed.
Lemma start_idle l room css k g : nth_error (dgos (d_start l room css)) k = Some g -> dat g = DRest /\ dtexts g = [].
Proof. rewrite start_nth. destruct (nth_error css k); [|discriminate]. intros [= <-]. now split. Qed.
Lemma inv_start l room css : inv l css (d_start l room css) [].
Proof.
  split; cbn [map].
  - split; cbn; [lia|]. rewrite app_length. lia.
  - intros k g G. destruct (start_idle _ _ _ _ _ G) as [A B]. split; [rewrite A; exact I|rewrite B; intros []].
  - cbn. apply map_length.
  - rewrite start_shown. apply pre_refl.
  - intros k g G W. destruct (start_idle _ _ _ _ _ G) as [A _]. rewrite A in W. destruct W.
  - intros _. apply start_shown.
  - left. apply start_shown.
  - intros k e [].
  - intros k g cs G C. rewrite start_nth, C in G. now injection G as <-.
Qed.
Lemma turns_snoc st q i : d_turns spare st (q ++ [i]) -> d_turns spare st q.
Proof. intros T a b E. apply (T a (b ++ [i])). now rewrite E, app_assoc. Qed.
Lemma turns_last st q : d_turns spare st q -> turn (run st q).
Proof. intros T i j gi gj. apply (T q []). now rewrite app_nil_r. Qed.
Lemma inv_run l room css q : d_turns spare (d_start l room css) q -> exists h, inv l css (run (d_start l room css) q) h.
Proof.
  induction q as [|i q IH] using rev_ind; intros T; [exists []; apply inv_start|].
  pose proof (turns_snoc _ _ _ T) as T'. destruct (IH T') as (h & I). rewrite run_snoc. eapply inv_step; [now apply turns_last| |exact I].
  rewrite <- run_snoc. now apply turns_last.
Qed.
(* one goroutine that writes *)
Lemma alone l room css w q : d_only_writer w css -> forall k g, nth_error (dgos (run (d_start l room css) q)) k = Some g -> k <> w ->
  ~ d_writing (dat g) /\ (forall o, In o (dtodo g) -> o = DString).
Proof.
  intros O. induction q as [|i q IH] using rev_ind; intros k g G N.
  - change (run (d_start l room css) []) with (d_start l room css) in G. rewrite start_nth in G. destruct (nth_error css k) as [cs|] eqn:C; [|discriminate]. injection G as <-.
    split; [intros []|]. cbn [dtodo]. intros o J. exact (O k cs o C N J).
  - rewrite run_snoc in G. destruct (nth_error (dgos (run (d_start l room css) q)) i) as [g0|] eqn:G0; [|rewrite (step_out _ _ G0) in G; eauto].
    rewrite (step_gos _ _ _ G0) in G. destruct (Nat.eqb_spec k i) as [->|Ne]; [|eauto]. injection G as <-.
    destruct (IH i g0 G0 N) as [W T]. set (st := run (d_start l room css) q) in *. clearbody st. unfold d_gstep. destruct (dhdr st) as [H n0].
    destruct (dat g0) eqn:Ep; cbn [d_writing] in W; try tauto.
    + destruct (dtodo g0) as [|[a|] t] eqn:Et; cbn [snd dat dtodo]; [split; [rewrite Ep; exact W|rewrite Et; exact T]| |].
      * specialize (T (DSet a) (or_introl eq_refl)). discriminate.
      * split; [intros []|]. intros o J. apply T. now right.
    + cbn [snd dat dtodo]. split; [destruct (_ <? _)%nat; intros []|exact T].
    + cbn [snd dat dtodo]. split; [destruct (_ <? _)%nat; intros []|exact T].
    + destruct (_ || _)%bool; cbn [snd dat dtodo]; (split; [intros []|exact T]).
    + destruct (_ <? _)%nat; cbn [snd dat dtodo]; (split; [intros []|exact T]).
    + destruct (_ <? _)%nat; cbn [snd dat dtodo]; (split; [intros []|]); [exact T|intros o []].
Qed.
Lemma alone_turns l room css w q : d_only_writer w css -> d_turns spare (d_start l room css) q.
Proof.
  intros O a b _ i j gi gj Gi Wi Gj Wj.
  destruct (Nat.eq_dec i w) as [->|Ni]; [|destruct (alone l room css w a O i gi Gi Ni); contradiction].
  destruct (Nat.eq_dec j w) as [->|Nj]; [reflexivity|destruct (alone l room css w a O j gj Gj Nj); contradiction].
Qed.
Lemma turns_prefix st a b : d_turns spare st (a ++ b) -> d_turns spare st a.
Proof. induction b as [|i b IH] using rev_ind; [now rewrite app_nil_r|]. rewrite app_assoc. intros T. apply turns_snoc in T. now apply IH. Qed.
Lemma step_inv l room css q i : d_turns spare (d_start l room css) (q ++ [i]) -> let st := run (d_start l room css) q in
  pre (dshown st) (dshown (step st i)) /\
  (forall g g', nth_error (dgos st) i = Some g -> nth_error (dgos (step st i)) i = Some g' ->
     dtexts g' = dtexts g \/ dtexts g' = dtexts g ++ [Some badFQDN] \/ (dtexts g' = dtexts g ++ [Some (join "."%string (dshown st))] /\ (2 <= List.length (dshown st))%nat)).
Proof.
  intros T. pose proof (turns_snoc _ _ _ T) as T'. destruct (inv_run l room css q T') as (h & I).
  refine (proj2 (inv_step l css _ h i _ _ I)); [now apply turns_last|]. rewrite <- run_snoc. now apply turns_last.
Qed.
Lemma grows l room css a b : d_turns spare (d_start l room css) (a ++ b) -> pre (dshown (run (d_start l room css) a)) (dshown (run (d_start l room css) (a ++ b))).
Proof.
  induction b as [|i b IH] using rev_ind; [rewrite app_nil_r; intros _; apply pre_refl|]. rewrite app_assoc. intros T. pose proof (turns_snoc _ _ _ T) as T'.
  eapply pre_trans; [exact (IH T')|]. rewrite run_snoc. exact (proj1 (step_inv l room css (a ++ b) i T)).
Qed.
Lemma ordered l room css q : d_turns spare (d_start l room css) q -> d_returned (run (d_start l room css) q) ->
  exists h, merges (map d_sets css) h /\ dshown (run (d_start l room css) q) = made l (map snd h).
Proof.
  intros T R. destruct (inv_run l room css q T) as (h & I). exists h. split.
  - split.
    + intros k e J. rewrite map_length. eapply i_keys; eauto.
    + intros k es E. rewrite nth_error_map in E. destruct (nth_error css k) as [cs|] eqn:C; [|discriminate]. injection E as <-.
      destruct (nth_error (dgos (run (d_start l room css) q)) k) as [g|] eqn:G.
      * rewrite <- (i_done _ _ _ _ I k g cs G C). destruct (R g (nth_error_In _ _ G)) as [R1 R2]. rewrite R1. cbn. now rewrite app_nil_r.
      * apply nth_error_None in G. rewrite (i_len _ _ _ _ I) in G. assert (X : nth_error css k <> None) by congruence. apply nth_error_Some in X. lia.
  - apply (i_idle _ _ _ _ I). intros k g G. destruct (R g (nth_error_In _ _ G)) as [_ R2]. rewrite R2. intros [].
Qed.
(* one writer: the calls so far are the first of its calls *)
Lemma own l room css w cs q h : d_only_writer w css -> nth_error css w = Some cs -> inv l css (run (d_start l room css) q) h ->
  exists r, map snd h ++ r = d_sets cs.
Proof.
  intros O C I.
  assert (K : forall k e, In (k, e) h -> k = w).
  { intros k e J. destruct (Nat.eq_dec k w) as [|N]; [assumption|]. exfalso. pose proof (i_keys _ _ _ _ I k e J) as L.
    destruct (nth_error css k) as [cs'|] eqn:C'; [|apply nth_error_None in C'; lia].
    destruct (nth_error (dgos (run (d_start l room css) q)) k) as [g|] eqn:G; [|apply nth_error_None in G; rewrite (i_len _ _ _ _ I) in G; lia].
    assert (Z : d_sets cs' = []). { clear -O C' N. assert (O' := fun c => O k cs' c C' N). clear O C'. induction cs' as [|c cs' IH]; [reflexivity|]. unfold d_sets. cbn. rewrite (O' c (or_introl eq_refl)). apply IH. intros c' J. apply O'. now right. }
    pose proof (i_done _ _ _ _ I k g cs' G C') as M2. rewrite Z in M2. apply app_eq_nil in M2 as [M2 _]. apply map_eq_nil in M2.
    assert (X : In (k, e) (filter (fun p => Nat.eqb (fst p) k) h)) by (apply filter_In; split; [exact J|apply Nat.eqb_refl]). rewrite M2 in X. destruct X. }
  destruct (nth_error (dgos (run (d_start l room css) q)) w) as [g|] eqn:G.
  2:{ apply nth_error_None in G. rewrite (i_len _ _ _ _ I) in G. assert (X : nth_error css w <> None) by congruence. apply nth_error_Some in X. lia. }
  exists (d_sets (dtodo g)). rewrite <- (i_done _ _ _ _ I w g cs G C). f_equal.
  clear -K. induction h as [|[k e] h IH]; [reflexivity|]. rewrite (K k e (or_introl eq_refl)). cbn [filter fst]. rewrite Nat.eqb_refl. cbn [map snd]. f_equal. apply IH. intros; eapply K; right; eassumption.
Qed.

(* ---- a name that is valid all the time ---- *)
Definition count_ok (n : nat) (p : dplace) : Prop :=
  match p with
  | Outer i c => (i <= n /\ 2 * i <= c <= 15 * i)%nat
  | Inner i j c => (i < n /\ j <= n /\ 2 * i + j <= c <= 15 * i + j)%nat
  | Judge c => (4 <= c <= 225)%nat
  | DLook _ | DFetch _ => True
  | _ => False
  end.
Lemma count_more n m p : (n <= m)%nat -> count_ok n p -> count_ok m p.
Proof. destruct p; cbn; lia. Qed.
Lemma count_step st g : within (darrays st) (dhdr st) -> go_ok (darrays st) (dhdr st) g -> (2 <= List.length (dshown st) <= 15)%nat ->
  count_ok (List.length (dshown st)) (dat g) ->
  let g' := snd (d_gstep spare st g) in
  (dtexts g' = dtexts g /\ count_ok (List.length (dshown st)) (dat g')) \/ dtexts g' = dtexts g ++ [Some (join "."%string (dshown st))].
Proof.
  intros Wi [P T] L C. assert (VL := view_len _ _ Wi). change (List.length (dshown st) = snd (dhdr st)) in VL.
  change (view (darrays st) (dhdr st)) with (dshown st) in *. rewrite VL in *. cbv zeta. unfold d_gstep. destruct (dhdr st) as [H n0] eqn:Eh. cbn [snd] in *.
  destruct (dat g) as [|dl|x dl A n|x dl A n|i c|i j c|c|seen|seen] eqn:Ep; cbn [count_ok place_ok] in *; try contradiction.
  - left. split; [reflexivity|]. cbn [snd dat]. destruct (Nat.ltb_spec i n0); cbn; lia.
  - left. split; [reflexivity|]. cbn [snd dat]. destruct (Nat.ltb_spec j n0); cbn; lia.
  - left. destruct (Nat.ltb_spec n0 2); [lia|]. replace (0 <? c)%nat with true by (symmetry; apply Nat.ltb_lt; lia).
    replace (c <=? fqdnMax)%nat with true by (symmetry; apply Nat.leb_le; unfold fqdnMax; lia). cbn. now split.
  - destruct P as [P1 P2]. change (view (darrays st) (H, n0)) with (view (darrays st) (H, n0)) in P1. rewrite <- Eh in P1. change (view (darrays st) (dhdr st)) with (dshown st) in P1.
    destruct (Nat.ltb_spec (List.length seen) n0) as [K|K]; cbn [snd dtexts dat].
    + left. now split.
    + right. do 3 f_equal. apply pre_full in P1; [now rewrite P1|lia].
  - destruct P as (P1 & P2 & P3). rewrite <- Eh in P3. change (view (darrays st) (dhdr st)) with (dshown st) in P3.
    destruct (Nat.ltb_spec (List.length seen) n0) as [K|K]; [|lia]. cbn. left. now split.
Qed.
Lemma count_run l room css a b k g g' : d_turns spare (d_start l room css) (a ++ b) ->
  nth_error (dgos (run (d_start l room css) a)) k = Some g -> nth_error (dgos (run (d_start l room css) (a ++ b))) k = Some g' ->
  dtexts g' = dtexts g -> (2 <= List.length (dshown (run (d_start l room css) a)))%nat -> (List.length (dshown (run (d_start l room css) (a ++ b))) <= 15)%nat ->
  count_ok (List.length (dshown (run (d_start l room css) a))) (dat g) ->
  count_ok (List.length (dshown (run (d_start l room css) (a ++ b)))) (dat g').
Proof.
  intros T G. revert g' T. induction b as [|i b IH] using rev_ind; intros g' T G' E L1 L2 C.
  - rewrite app_nil_r in *. rewrite G in G'. now injection G' as <-.
  - rewrite app_assoc in *. pose proof (turns_snoc _ _ _ T) as T'. pose proof (grows l room css a b T') as Gr1. apply pre_len in Gr1.
    destruct (step_inv l room css (a ++ b) i T) as [Gr2 _]. rewrite run_snoc in *. apply pre_len in Gr2. destruct (inv_run l room css (a ++ b) T') as (h & Iv).
    assert (Txt : forall b k g1, d_turns spare (d_start l room css) (a ++ b) -> nth_error (dgos (run (d_start l room css) a)) k = Some g -> nth_error (dgos (run (d_start l room css) (a ++ b))) k = Some g1 -> exists t, dtexts g1 = dtexts g ++ t).
    { clear. intros b k g1 T G. revert g1 T. induction b as [|i b IH] using rev_ind; intros g1 T G1.
      - rewrite app_nil_r in G1. rewrite G in G1. injection G1 as <-. exists []. now rewrite app_nil_r.
      - rewrite app_assoc in *. pose proof (turns_snoc _ _ _ T) as T'. rewrite run_snoc in G1.
        destruct (nth_error (dgos (run (d_start l room css) (a ++ b))) i) as [g0|] eqn:G0; [|rewrite (step_out _ _ G0) in G1; eauto].
        destruct (Nat.eq_dec k i) as [->|N].
        + destruct (IH g0 T' G0) as (t & Et). destruct (step_inv l room css (a ++ b) i T) as [_ K]. destruct (K g0 g1 G0 G1) as [K1|[K1|[K1 _]]]; rewrite K1, Et, <- ?app_assoc; eauto.
        + rewrite (step_gos _ _ _ G0) in G1. destruct (Nat.eqb_spec k i); [contradiction|]. eauto. }
    set (st := run (d_start l room css) (a ++ b)) in *.
    destruct (nth_error (dgos st) k) as [g1|] eqn:G1.
    2:{ exfalso. destruct (nth_error (dgos st) i) as [g0|] eqn:G0; [|rewrite (step_out _ _ G0) in G'; congruence]. rewrite (step_gos _ _ _ G0) in G'. destruct (Nat.eqb_spec k i) as [->|N]; congruence. }
    destruct (Txt b k g1 T' G G1) as (t & Et).
    assert (E1 : dtexts g1 = dtexts g /\ (i = k -> dtexts (snd (d_gstep spare st g1)) = dtexts g1)).
    { destruct (Nat.eq_dec i k) as [->|N].
      - assert (X := G'). rewrite (step_gos _ _ _ G1), Nat.eqb_refl in X. injection X as X. destruct (proj2 (step_inv l room css (a ++ b) k T) g1 g' G1 G') as [K1|[K1|[K1 _]]].
        + split; [congruence|]. intros _. rewrite X. exact K1.
        + exfalso. rewrite E, Et, <- app_assoc in K1. apply (f_equal (@List.length _)) in K1. rewrite !app_length in K1. cbn in K1. lia.
        + exfalso. rewrite E, Et, <- app_assoc in K1. apply (f_equal (@List.length _)) in K1. rewrite !app_length in K1. cbn in K1. lia.
      - split; [|contradiction]. destruct (nth_error (dgos st) i) as [g0|] eqn:G0; [|rewrite (step_out _ _ G0) in G'; congruence].
        rewrite (step_gos _ _ _ G0) in G'. destruct (Nat.eqb_spec k i); congruence. }
    destruct E1 as [E1 E2]. assert (C1 := IH g1 T' eq_refl E1 L1 ltac:(lia) C).
    apply (count_more (List.length (dshown st))); [exact Gr2|].
    destruct (Nat.eq_dec i k) as [->|N].
    + specialize (E2 eq_refl). rewrite (step_gos _ _ _ G1), Nat.eqb_refl in G'. injection G' as <-.
      destruct (count_step st g1 (i_within _ _ _ _ Iv) (i_go _ _ _ _ Iv _ _ G1) ltac:(lia) C1) as [[_ K]|K]; [exact K|].
      rewrite E2 in K. apply (f_equal (@List.length _)) in K. rewrite !app_length in K. cbn in K. lia.
    + destruct (nth_error (dgos st) i) as [g0|] eqn:G0; [|rewrite (step_out _ _ G0) in G'; congruence].
      rewrite (step_gos _ _ _ G0) in G'. destruct (Nat.eqb_spec k i); [congruence|]. assert (g' = g1) by congruence. now subst g'.
Qed.
End Label.
