(* C153, C154: Set and String of one FQDN, called by several goroutines: every schedule, and
   the theorems. *)
From Coq Require Import String Ascii List PeanoNat Bool Lia.
From Verif Require Import GoStr MMisc MHeap MNet SNet PNet MLabel SLabel SWord PWhole TSlice TLabel.
Import ListNotations.
Open Scope list_scope.

Section Safe.
Variable spare : nat -> nat.
Variables (l : list string) (css : list (list dcall)).
Notation run := (d_sched spare).
Notation step := (d_step spare).
Notation placed := (TSlice.placed spare).
Definition d_held (p : dplace) : option (nat * nat) := match p with DHave _ _ A n | DStore _ _ A n => Some (A, n) | _ => None end.
Definition d_may (x : string) : Prop := In x l \/ d_given css x.
Definition d_fine (ar : list (list string)) (h : nat * nat) : Prop := within ar h /\ Forall d_may (view ar h).
Definition d_safe_place (p : dplace) : Prop :=
  match p with
  | Put dl => Forall d_may dl
  | DHave x dl _ _ => d_may x /\ Forall d_may dl
  | DStore x dl _ _ => Forall d_may dl
  | DLook seen | DFetch seen => Forall d_may seen
  | _ => True
  end.
Definition text_made (t : string) : Prop := t = badFQDN \/ exists ls, Forall d_may ls /\ t = join "."%string ls.
Definition d_safe_go (ar : list (list string)) (g : dgo) : Prop :=
  (forall h, d_held (dat g) = Some h -> d_fine ar h) /\ d_safe_place (dat g) /\
  (forall label, In (DSet label) (dtodo g) -> exists cs, In cs css /\ In (DSet label) cs) /\ (forall t, In (Some t) (dtexts g) -> text_made t).
Definition d_safe (st : dstate) : Prop := d_fine (darrays st) (dhdr st) /\ forall g, In g (dgos st) -> d_safe_go (darrays st) g.
Lemma placed_fine ar A n a h : d_fine ar (A, n) -> d_may a -> d_fine ar h -> d_fine (fst (placed ar A n a)) h.
Proof.
  intros [F1 F2] Ma [G1 G2]. split; [now apply placed_other|]. rewrite Forall_forall in *. intros x J.
  destruct (placed_in _ _ _ _ _ _ _ F1 G1 J) as [K| ->]; [now apply G2|exact Ma].
Qed.
Lemma placed_new ar A n a : d_fine ar (A, n) -> d_may a -> d_fine (fst (placed ar A n a)) (snd (placed ar A n a), S n).
Proof. intros [F1 F2] Ma. split; [now apply placed_within|]. rewrite placed_view by exact F1. apply Forall_app. split; [exact F2|now constructor]. Qed.
Lemma nth_fine ar h i : d_fine ar h -> (i < snd h)%nat -> d_may (nth i (arr ar (fst h)) ""%string).
Proof.
  intros [F1 F2] L. rewrite nth_view by assumption. rewrite Forall_forall in F2. apply F2, nth_In. now rewrite view_len.
Qed.
Lemma d_gstep_safe st g : d_fine (darrays st) (dhdr st) -> d_safe_go (darrays st) g ->
  let '(ar, h, g') := d_gstep spare st g in
  d_fine ar h /\ d_safe_go ar g' /\ (forall h0, d_fine (darrays st) h0 -> d_fine ar h0).
Proof.
  intros F (S1 & S2 & S3 & S4). unfold d_gstep. destruct (dhdr st) as [H n0] eqn:Eh. change (darray st) with (arr (darrays st)).
  assert (Same : forall p t ts, (forall h, d_held p = Some h -> d_fine (darrays st) h) -> d_safe_place p -> (forall a, In (DSet a) t -> exists cs, In cs css /\ In (DSet a) cs) ->
      (forall u, In (Some u) ts -> text_made u) ->
      d_fine (darrays st) (H, n0) /\ d_safe_go (darrays st) (MkDg t p ts) /\ (forall h0, d_fine (darrays st) h0 -> d_fine (darrays st) h0)).
  { intros p t ts A1 A2 A3 A4. split; [exact F|]. split; [exact (conj A1 (conj A2 (conj A3 A4)))|auto]. }
  assert (Said : forall x, text_made x -> forall u, In (Some u) (dtexts g ++ [Some x]) -> text_made u).
  { intros x X u J. apply in_app_iff in J as [J|[[= <-]|[]]]; [now apply S4|exact X]. }
  destruct (dat g) as [|dl|x dl A n|x dl A n|i c|i j c|c|seen|seen] eqn:Ep; cbn [d_safe_place d_held] in S1, S2.
  - destruct (dtodo g) as [|[label|] t] eqn:Et.
    + split; [exact F|]. split; [|auto]. split; [intros h X; rewrite Ep in X; discriminate|]. rewrite Ep, Et. exact (conj I (conj S3 S4)).
    + assert (Gt : forall b, In (DSet b) t -> exists cs, In cs css /\ In (DSet b) cs) by (intros; apply S3; now right).
      destruct (S3 label (or_introl eq_refl)) as (cs & C1 & C2).
      apply Same; try assumption.
      * intros h X. destruct label; [discriminate|]. destruct (processLabel _) as [[dl c]|]; [|discriminate]. destruct (_ <=? _)%nat; discriminate.
      * destruct label as [|y label]; [exact I|]. destruct (processLabel (y :: label)) as [[dl c]|] eqn:Pl; [|exact I]. destruct (_ <=? _)%nat; [|exact I].
        cbn [d_safe_place]. apply Forall_forall. intros x J. right. destruct (processed _ _ _ Pl x J) as [P1 P2]. split; [exact P1|]. now exists cs, (y :: label).
    + apply Same; try assumption; try discriminate; try exact I. intros; apply S3; now right.
  - destruct dl as [|x dl]; [apply Same; try assumption; try discriminate; exact I|]. inversion S2; subst. apply Same; try assumption; [|now split]. intros h [= <-]. exact F.
  - destruct S2 as [Sx Sd]. assert (Fa : d_fine (darrays st) (A, n)) by (apply S1; reflexivity).
    assert (G : d_fine (fst (placed (darrays st) A n x)) (H, n0) /\ d_safe_go (fst (placed (darrays st) A n x)) (MkDg (dtodo g) (DStore x dl (snd (placed (darrays st) A n x)) (S n)) (dtexts g)) /\
      (forall h0, d_fine (darrays st) h0 -> d_fine (fst (placed (darrays st) A n x)) h0)).
    { split; [now apply placed_fine|]. split; [|intros; now apply placed_fine]. split; [intros h [= <-]; now apply placed_new|]. exact (conj Sd (conj S3 S4)). }
    unfold TSlice.placed in G. destruct (n <? List.length (arr (darrays st) A))%nat; exact G.
  - assert (Fa : d_fine (darrays st) (A, n)) by (apply S1; reflexivity). split; [exact Fa|]. split; [|auto]. split; [discriminate|]. exact (conj S2 (conj S3 S4)).
  - destruct (_ <? _)%nat; apply Same; try assumption; try discriminate; exact I.
  - destruct (_ <? _)%nat; apply Same; try assumption; try discriminate; exact I.
  - destruct (_ || _)%bool; apply Same; try assumption; try discriminate; try exact I; [apply Said; now left|constructor].
  - destruct (_ <? _)%nat; apply Same; try assumption; try discriminate; try exact I. apply Said. right. now exists seen.
  - destruct (Nat.ltb_spec (List.length seen) n0) as [L|L]; apply Same; try assumption; try discriminate; try exact I.
    + apply Forall_app. split; [exact S2|]. constructor; [|constructor]. exact (nth_fine _ (H, n0) _ F L).
    + intros a [].
    + intros u J. apply in_app_iff in J as [J|[J|[]]]; [now apply S4|discriminate].
Qed.
Lemma d_safe_step st i : d_safe st -> d_safe (step st i).
Proof.
  intros [F S]. destruct (nth_error (dgos st) i) as [g|] eqn:G; [|now rewrite (step_out spare _ _ G)].
  pose proof (d_gstep_safe st g F (S g (nth_error_In _ _ G))) as K. pose proof (step_gos spare st i g G) as Gs. destruct (step_mem spare st i g G) as [Ma Mh].
  destruct (d_gstep spare st g) as [[ar hd] g']. cbn [fst snd] in *. destruct K as (K1 & K2 & K3). split; [now rewrite Ma, Mh|].
  rewrite Ma. intros g1 J. apply In_nth_error in J as (j & J). rewrite Gs in J. destruct (j =? i)%nat; [injection J as <-; exact K2|].
  destruct (S g1 (nth_error_In _ _ J)) as (S1 & S2). split; [intros h X; apply K3, S1, X|exact S2].
Qed.
Lemma d_safe_start room : d_safe (d_start l room css).
Proof.
  pose proof (i_within _ _ _ _ (inv_start l room css)) as W. split.
  - split; [exact W|]. change (Forall d_may (dshown (d_start l room css))). rewrite start_shown. apply Forall_forall. intros x J. now left.
  - intros g J. cbn in J. apply in_map_iff in J as (cs & <- & J). split; [discriminate|]. split; [exact I|]. split; [|intros ts []].
    cbn [dtodo]. intros a K. now exists cs.
Qed.
Lemma d_safe_run room q : d_safe (run (d_start l room css) q).
Proof. induction q as [|i q IH] using rev_ind; [apply d_safe_start|]. rewrite run_snoc. now apply d_safe_step. Qed.

(* every schedule in which the name does not get shorter: no panic *)
Lemma d_no_panic room q : d_not_shorter spare (d_start l room css) q -> forall g, In g (dgos (run (d_start l room css) q)) ->
  ~ In None (dtexts g) /\ (forall seen, dat g = DFetch seen -> (List.length seen < List.length (dshown (run (d_start l room css) q)))%nat).
Proof.
  induction q as [|i q IH] using rev_ind; intros N g J.
  - cbn in J. apply in_map_iff in J as (cs & <- & J). split; [intros []|discriminate].
  - assert (N' : d_not_shorter spare (d_start l room css) q). { intros a j b E. apply (N a j (b ++ [i])). rewrite E, <- app_assoc. reflexivity. }
    specialize (IH N'). specialize (N q i [] eq_refl). rewrite run_snoc in *. pose proof (d_safe_run room q) as [[W _] _].
    set (st := run (d_start l room css) q) in *. clearbody st.
    destruct (nth_error (dgos st) i) as [g0|] eqn:G; [|rewrite (step_out spare _ _ G) in *; now apply IH].
    apply In_nth_error in J as (j & J). rewrite (step_gos spare _ _ _ G) in J. destruct (Nat.eqb_spec j i) as [->|Ne].
    2:{ destruct (IH g (nth_error_In _ _ J)) as [I1 I2]. split; [exact I1|]. intros seen E. specialize (I2 seen E). lia. }
    injection J as <-. destruct (IH g0 (nth_error_In _ _ G)) as [I1 I2]. destruct (step_mem spare st i g0 G) as [Ma Mh].
    assert (VL : List.length (dshown st) = snd (dhdr st)) by exact (view_len _ _ W). revert N. unfold d_gstep. destruct (dhdr st) as [H n0] eqn:Eh. cbn [snd] in VL. intros N.
    assert (NN : forall x, ~ In None (dtexts g0 ++ [Some x])) by (intros x X; apply in_app_iff in X as [X|[X|[]]]; [tauto|discriminate]).
    destruct (dat g0) as [|dl|x dl A n|x dl A n|a c|a b c|c|seen|seen] eqn:Ep.
    + destruct (dtodo g0) as [|[a|] t]; cbn [snd dtexts dat]; try (split; [exact I1|]); [congruence| |discriminate].
      intros seen. destruct a; [discriminate|]. destruct (processLabel _) as [[dl c]|]; [|discriminate]. destruct (_ <=? _)%nat; discriminate.
    + destruct dl; cbn [snd dtexts dat]; (split; [exact I1|discriminate]).
    + destruct (_ <? _)%nat; cbn [snd dtexts dat]; (split; [exact I1|discriminate]).
    + cbn [snd dtexts dat]. split; [exact I1|discriminate].
    + cbn [snd dtexts dat]. split; [exact I1|destruct (_ <? _)%nat; discriminate].
    + cbn [snd dtexts dat]. split; [exact I1|destruct (_ <? _)%nat; discriminate].
    + destruct (_ || _)%bool; cbn [snd dtexts dat]; (split; [try apply NN; exact I1|discriminate]).
    + destruct (Nat.ltb_spec (List.length seen) n0) as [L|L]; cbn [snd dtexts dat].
      * split; [exact I1|]. intros s [= <-]. lia.
      * split; [apply NN|discriminate].
    + specialize (I2 seen eq_refl). destruct (Nat.ltb_spec (List.length seen) n0) as [L|L]; [|lia]. cbn [snd dtexts dat]. split; [exact I1|discriminate].
Qed.
End Safe.

(* C153.  One goroutine calls Set, any number call String.  A call of String that returns
   now returns the marker, or the labels the name has now, which then are two or more. *)
Theorem C153_text : forall spare l room css w q k g g', d_only_writer w css ->
  let now := dshown (d_sched spare (d_start l room css) q) in
  nth_error (dgos (d_sched spare (d_start l room css) q)) k = Some g ->
  nth_error (dgos (d_sched spare (d_start l room css) (q ++ [k]))) k = Some g' ->
  dtexts g' = dtexts g \/ dtexts g' = dtexts g ++ [Some "<invalid_fqdn_or_label>"%string] \/
  (dtexts g' = dtexts g ++ [Some (join "."%string now)] /\ (2 <= List.length now)%nat).
Proof.
  intros spare l room css w q k g g' O now G G'. rewrite run_snoc in G'.
  exact (proj2 (step_inv spare l room css q k (alone_turns spare l room css w _ O)) g g' G G').
Qed.
(* If the name is valid when String is called and when it returns, it returns the text of
   the name of the moment it returns. *)
Theorem C153_valid : forall spare l room css w a k b t g1 g2 g3 x, d_only_writer w css ->
  let at_ q := d_sched spare (d_start l room css) q in
  nth_error (dgos (at_ a)) k = Some g1 -> dat g1 = DRest -> dtodo g1 = DString :: t ->
  nth_error (dgos (at_ (a ++ k :: b))) k = Some g2 -> dtexts g2 = dtexts g1 ->
  nth_error (dgos (at_ (a ++ k :: b ++ [k]))) k = Some g3 -> dtexts g3 = dtexts g2 ++ [x] ->
  fqdn_valid (Some (dshown (at_ a))) = true -> fqdn_valid (Some (dshown (at_ (a ++ k :: b)))) = true ->
  x = Some (fqdn_string (Some (dshown (at_ (a ++ k :: b))))).
Proof.
  intros spare l room css w a k b t g1 g2 g3 x O at_ G1 E1 E1' G2 T2 G3 T3 V1 V2.
  assert (B : forall v, fqdn_valid (Some v) = true -> (2 <= List.length v <= 15)%nat).
  { intros v V. unfold fqdn_valid in V. rewrite fqdn_len_sq in V. apply negb_true_iff, orb_false_iff in V as [V V']. apply negb_false_iff, andb_true_iff in V as [_ V].
    apply Nat.leb_le in V. apply Nat.ltb_ge in V'. unfold fqdnMax in V. nia. }
  unfold fqdn_string. rewrite V2. apply B in V1, V2.
  assert (Tn : forall q, d_turns spare (d_start l room css) q) by (intros; eapply alone_turns; exact O).
  set (a1 := a ++ [k]). assert (R1 : a ++ k :: b = a1 ++ b) by (unfold a1; rewrite <- app_assoc; reflexivity).
  assert (R2 : a ++ k :: b ++ [k] = (a1 ++ b) ++ [k]) by (unfold a1; rewrite <- !app_assoc; reflexivity).
  rewrite R1 in *. rewrite R2 in *. clear R1 R2. unfold at_ in *.
  set (g1' := MkDg t (Outer 0 0) (dtexts g1)).
  assert (G1' : nth_error (dgos (d_sched spare (d_start l room css) a1)) k = Some g1').
  { unfold a1. rewrite run_snoc, (step_gos spare _ _ _ G1), Nat.eqb_refl. unfold d_gstep. destruct (dhdr _). rewrite E1, E1'. reflexivity. }
  pose proof (grows spare l room css a [k] (Tn _)) as L1. apply pre_len in L1. fold a1 in L1.
  assert (C := count_run spare l room css a1 b k g1' g2 (Tn _) G1' G2 T2 ltac:(lia) ltac:(lia) ltac:(cbn; lia)).
  rewrite run_snoc in G3. rewrite (step_gos spare _ _ _ G2), Nat.eqb_refl in G3. injection G3 as <-.
  destruct (inv_run spare l room css (a1 ++ b) (Tn _)) as (h & Iv).
  destruct (count_step spare _ g2 (i_within _ _ _ _ Iv) (i_go _ _ _ _ Iv _ _ G2) V2 C) as [[K _]|K]; rewrite T3 in K.
  - apply (f_equal (@List.length _)) in K. rewrite app_length in K. cbn in K. lia.
  - apply app_inv_head in K. injection K as <-. reflexivity.
Qed.
Theorem C153_no_panic : forall spare l room css w q g, d_only_writer w css ->
  In g (dgos (d_sched spare (d_start l room css) q)) -> ~ In None (dtexts g).
Proof.
  intros spare l room css w q g O J. destruct (inv_run spare l room css q (alone_turns spare l room css w _ O)) as (h & I).
  apply In_nth_error in J as (k & J). exact (proj2 (i_go _ _ _ _ I k g J)).
Qed.
(* What was there stays, in place. *)
Theorem C153_grows : forall spare l room css w a b, d_only_writer w css ->
  exists t, dshown (d_sched spare (d_start l room css) (a ++ b)) = dshown (d_sched spare (d_start l room css) a) ++ t.
Proof. intros spare l room css w a b O. exact (grows spare l room css a b (alone_turns spare l room css w _ O)). Qed.
(* When all calls have returned the name is what the calls of Set make of it. *)
Theorem C153_final : forall spare l room css w cs q, d_only_writer w css -> nth_error css w = Some cs ->
  d_returned (d_sched spare (d_start l room css) q) ->
  Some (dshown (d_sched spare (d_start l room css) q)) = fqdn_run (Some l) (d_sets cs).
Proof.
  intros spare l room css w cs q O C R. destruct (inv_run spare l room css q (alone_turns spare l room css w _ O)) as (h & I).
  destruct (own spare l room css w cs q h O C I) as (r & E). rewrite made_run. f_equal.
  rewrite (i_idle _ _ _ _ I) by (intros k g G; destruct (R g (nth_error_In _ _ G)) as [_ R2]; rewrite R2; intros []).
  f_equal. destruct (nth_error (dgos (d_sched spare (d_start l room css) q)) w) as [g|] eqn:G.
  - pose proof (i_done _ _ _ _ I w g cs G C) as D. destruct (R g (nth_error_In _ _ G)) as [R1 _]. rewrite R1 in D. cbn in D. rewrite app_nil_r in D.
    assert (L : (List.length (map snd (filter (fun p : nat * list string => Nat.eqb (fst p) w) h)) <= List.length (map snd h))%nat).
    { rewrite !map_length. clear. induction h as [|e h IH]; cbn; [lia|]. destruct (_ =? _)%nat; cbn; lia. }
    rewrite D, <- E, app_length in L. destruct r; [rewrite app_nil_r in E; exact E|cbn in L; lia].
  - apply nth_error_None in G. rewrite (i_len _ _ _ _ I) in G. assert (X : nth_error css w <> None) by congruence. apply nth_error_Some in X. lia.
Qed.
(* C154.  What a reader can see, one goroutine calling Set: a number of whole calls and a
   part of the next one. *)
Theorem C154_parts : forall spare l room css w cs q, d_only_writer w css -> nth_error css w = Some cs ->
  exists m before after t u, fqdn_run (Some l) (firstn m (d_sets cs)) = Some before /\ fqdn_run (Some l) (firstn (S m) (d_sets cs)) = Some after /\
    dshown (d_sched spare (d_start l room css) q) = before ++ t /\ after = before ++ t ++ u.
Proof.
  intros spare l room css w cs q O C. destruct (inv_run spare l room css q (alone_turns spare l room css w _ O)) as (h & I).
  destruct (own spare l room css w cs q h O C I) as (r & E). rewrite <- E.
  assert (F : forall (A : Type) (a b : list A), firstn (List.length a) (a ++ b) = a) by (intros; rewrite firstn_app, Nat.sub_diag, firstn_all; apply app_nil_r).
  destruct (i_part _ _ _ _ I) as [P|(h0 & e & h1 & P1 & (t & P2) & P3)].
  - destruct r as [|x r].
    + exists (List.length (map snd h)), (made l (map snd h)), (made l (map snd h)), [], []. rewrite !made_run, F, app_nil_r, firstn_all2 by lia. rewrite !app_nil_r. auto.
    + exists (List.length (map snd h)), (made l (map snd h)), (labels_set (made l (map snd h)) x).
      assert (X : exists u, labels_set (made l (map snd h)) x = made l (map snd h) ++ u).
      { rewrite labels_set_spec. destruct (_ && _)%bool; [eauto|exists []; now rewrite app_nil_r]. }
      destruct X as (u & X). exists [], u. rewrite !made_run, F. rewrite app_nil_r. split; [reflexivity|]. split; [|split; [exact P|exact X]].
      f_equal. replace (S (List.length (map snd h))) with (List.length (map snd h ++ [x])) by (rewrite app_length; cbn; lia).
      replace (map snd h ++ x :: r) with ((map snd h ++ [x]) ++ r) by (rewrite <- app_assoc; reflexivity). rewrite F. unfold made. now rewrite fold_left_app.
  - destruct (i_pre _ _ _ _ I) as (u & Eu). exists (List.length (map snd h0)), (made l (map snd h0)), (made l (map snd h)), t, u. rewrite !made_run.
    assert (Eh : map snd h = map snd h0 ++ snd e :: map snd h1) by (rewrite P1, map_app; reflexivity).
    split; [rewrite Eh, <- app_assoc, F; reflexivity|]. split; [|split; [exact P2|rewrite Eu, P2, <- app_assoc; reflexivity]].
    rewrite <- P3. do 2 f_equal. rewrite Eh, map_app. cbn [map].
    replace (S (List.length (map snd h0))) with (List.length (map snd h0 ++ [snd e])) by (rewrite app_length; cbn; lia).
    replace ((map snd h0 ++ snd e :: map snd h1) ++ r) with ((map snd h0 ++ [snd e]) ++ map snd h1 ++ r) by (rewrite <- !app_assoc; reflexivity). apply F.
Qed.
(* Every number of goroutines, every schedule: the name has no label but those of the start
   and those given, and a text is the marker or made of such labels. *)
Theorem C154_given : forall spare l room css q,
  (forall x, In x (dshown (d_sched spare (d_start l room css) q)) -> In x l \/ d_given css x) /\
  (forall g t, In g (dgos (d_sched spare (d_start l room css) q)) -> In (Some t) (dtexts g) ->
     t = "<invalid_fqdn_or_label>"%string \/ exists ls, (forall x, In x ls -> In x l \/ d_given css x) /\ t = join "."%string ls).
Proof.
  intros spare l room css q. destruct (d_safe_run spare l css room q) as [[_ F] S]. rewrite Forall_forall in F. split; [exact F|].
  intros g t J K. destruct (S g J) as (_ & _ & _ & T). destruct (T t K) as [T1|(ls & T1 & T2)]; [now left|right]. exists ls. rewrite Forall_forall in T1. now split.
Qed.
(* String panics only if the name gets shorter at some step. *)
Theorem C154_no_panic : forall spare l room css q g, d_not_shorter spare (d_start l room css) q ->
  In g (dgos (d_sched spare (d_start l room css) q)) -> ~ In None (dtexts g).
Proof. intros spare l room css q g N J. exact (proj1 (d_no_panic spare l css room q N g J)). Qed.
(* Goroutines that are in Set one at a time: the name is what an order of all calls makes of
   it, and it only gets longer. *)
Theorem C154_by_turns : forall spare l room css q, d_turns spare (d_start l room css) q ->
  (d_returned (d_sched spare (d_start l room css) q) ->
     exists h, merges (map d_sets css) h /\ Some (dshown (d_sched spare (d_start l room css) q)) = fqdn_run (Some l) (map snd h)) /\
  (forall a b, q = a ++ b -> exists t, dshown (d_sched spare (d_start l room css) q) = dshown (d_sched spare (d_start l room css) a) ++ t).
Proof.
  intros spare l room css q T. split.
  - intros R. destruct (ordered spare l room css q T R) as (h & M & E). exists h. split; [exact M|]. rewrite made_run. now rewrite E.
  - intros a b ->. now apply grows.
Qed.
Lemma returned_by st : forallb (fun g => match dtodo g, dat g with [], DRest => true | _, _ => false end) (dgos st) = true -> d_returned st.
Proof.
  intros K g J. rewrite forallb_forall in K. specialize (K g J). destruct (dtodo g); [|discriminate K]. destruct (dat g); try discriminate K. now split.
Qed.
(* Claims that are false of the code.  A reader sees a part of a call, though only one
   goroutine calls Set: no number of whole calls makes that name. *)
Theorem C154_part_refuted : let spare n := n in
  let css := [[DSet ["example"; "com"]%string]; [DString]] in
  let q := repeat 0 4 ++ repeat 1 16 ++ repeat 0 4 in let st := d_sched spare (d_start ["www"%string] 0 css) q in
  d_only_writer 0 css /\ d_returned st /\ map dtexts (dgos st) = [[]; [Some "www.example"%string]] /\ dshown st = ["www"; "example"; "com"]%string /\
  forall m, fqdn_string (fqdn_run (Some ["www"%string]) (firstn m (d_sets (nth 0 css [])))) <> "www.example"%string.
Proof.
  cbv zeta. split; [|split; [apply returned_by; vm_compute; reflexivity|split; [vm_compute; reflexivity|split; [vm_compute; reflexivity|]]]].
  - intros [|[|k]] cs c C N J; [contradiction| |destruct k; discriminate]. injection C as <-. destruct J as [<-|[]]; reflexivity.
  - intros [|[|m]]; vm_compute; discriminate.
Qed.
(* A reader returns a name of sixteen labels; a name of sixteen labels has no text, at no
   moment is this the text of the name. *)
Definition many : list string := ["a"; "b"; "c"; "d"; "e"; "f"; "g"; "h"; "i"; "j"; "k"; "l"; "m"; "n"; "o"]%string.
Theorem C154_long_refuted : let spare n := n in
  let css := [[DSet ["p"]%string]; [DString]] in
  let q := repeat 1 258 ++ repeat 0 5 ++ repeat 1 33 in let st n := d_sched spare (d_start many 0 css) (firstn n q) in
  d_only_writer 0 css /\ d_returned (st 296) /\ map dtexts (dgos (st 296)) = [[]; [Some (join "." (many ++ ["p"]))%string]] /\
  forall n, fqdn_string (Some (dshown (st n))) <> join "."%string (many ++ ["p"%string]).
Proof.
  cbv zeta. split; [|split; [apply returned_by; vm_compute; reflexivity|split; [vm_compute; reflexivity|]]].
  - intros [|[|k]] cs c C N J; [contradiction| |destruct k; discriminate]. injection C as <-. destruct J as [<-|[]]; reflexivity.
  - intros n. destruct (Nat.le_gt_cases n 296) as [L|L].
    + assert (K : forallb (fun n => negb (String.eqb (fqdn_string (Some (dshown (d_sched (fun n => n) (d_start many 0 [[DSet ["p"]%string]; [DString]]) (firstn n (repeat 1 258 ++ repeat 0 5 ++ repeat 1 33)))))) (join "."%string (many ++ ["p"%string])))) (seq 0 297) = true) by (vm_compute; reflexivity).
      rewrite forallb_forall in K. specialize (K n ltac:(apply in_seq; lia)). intros E. rewrite E, String.eqb_refl in K. discriminate K.
    + rewrite firstn_all2 by (vm_compute; lia). vm_compute. discriminate.
Qed.
(* Two goroutines that call Set: labels of two calls are mixed, so that no order of the calls
   makes the name; a label is lost; String panics. *)
Theorem C154_refuted : let spare n := n in
  (let css := [[DSet ["a"; "b"]%string]; [DSet ["c"; "d"]%string]] in
   let st := d_sched spare (d_start [] 0 css) [0; 1; 0; 0; 0; 1; 1; 1; 0; 0; 0; 1; 1; 1; 0; 1] in
   d_returned st /\ dshown st = ["a"; "c"; "b"; "d"]%string) /\
  (let css := [[DSet ["a"%string]]; [DSet ["b"%string]]] in let st := d_sched spare (d_start [] 0 css) [0; 1; 0; 1; 0; 1; 0; 1; 0; 1] in
   d_returned st /\ dshown st = ["b"%string]) /\
  (let css := [[DSet ["a"%string]]; [DSet ["b"; "c"]%string]; [DString]] in
   let st := d_sched spare (d_start ["x"; "y"]%string 0 css) ([0; 0; 0] ++ repeat 1 8 ++ repeat 2 34 ++ [0; 0; 2]) in
   d_returned st /\ map dtexts (dgos st) = [[]; []; [None]] /\ dshown st = ["x"; "y"; "a"]%string).
Proof.
  cbv zeta. split; [|split]; (split; [apply returned_by; vm_compute; reflexivity|vm_compute; auto]).
Qed.
(* One writer, one reader of a name that is valid all the time. *)
Example C153_witness : let spare n := n in
  let css := [[DSet ["www"; "-x"]%string; DSet ["www.example"]%string]; [DString]] in
  let at_ q := d_sched spare (d_start ["a"; "b"]%string 0 css) q in
  let a := [0] in let b := repeat 0 4 ++ repeat 1 18 ++ repeat 0 4 ++ repeat 1 7 in
  d_only_writer 0 css /\ d_returned (at_ (a ++ 1 :: b ++ [1])) /\
  map dtexts (dgos (at_ (a ++ 1 :: b))) = [[]; []] /\ map dtexts (dgos (at_ (a ++ 1 :: b ++ [1]))) = [[]; [Some "a.b.www.example"%string]] /\
  fqdn_valid (Some (dshown (at_ a))) = true /\ fqdn_valid (Some (dshown (at_ (a ++ 1 :: b)))) = true /\ dshown (at_ a) = ["a"; "b"]%string.
Proof.
  cbv zeta. split; [|split; [apply returned_by; vm_compute; reflexivity|]].
  - intros [|[|k]] cs c C N J; [contradiction| |destruct k; discriminate]. injection C as <-. destruct J as [<-|[]]; reflexivity.
  - repeat split; vm_compute; reflexivity.
Qed.
(* Two goroutines that take turns. *)
Example C154_witness : let spare n := n in
  let css := [[DSet ["a"%string]]; [DSet ["b"%string]]] in let q := [1; 1; 1; 1; 1; 0; 0; 0; 0; 0] in
  d_turns spare (d_start [] 0 css) q /\ d_returned (d_sched spare (d_start [] 0 css) q) /\
  dshown (d_sched spare (d_start [] 0 css) q) = ["b"; "a"]%string /\ d_not_shorter spare (d_start [] 0 css) q.
Proof.
  cbv zeta. split; [|split; [apply returned_by; vm_compute; reflexivity|split; [vm_compute; reflexivity|]]].
  - intros a b E i j gi gj Gi Wi Gj Wj.
    do 10 (destruct a as [|? a]; [clear E; vm_compute in Gi, Gj; destruct i as [|[|i]]; destruct j as [|[|j]]; try reflexivity; try (destruct i; discriminate Gi); try (destruct j; discriminate Gj);
      injection Gi as <-; injection Gj as <-; cbn in Wi, Wj; contradiction|injection E as <- E]).
    destruct a; [|discriminate E]. clear E; vm_compute in Gi, Gj; destruct i as [|[|i]]; destruct j as [|[|j]]; try reflexivity; try (destruct i; discriminate Gi); try (destruct j; discriminate Gj);
      injection Gi as <-; injection Gj as <-; cbn in Wi, Wj; contradiction.
  - intros a i b E. do 10 (destruct a as [|? a]; [injection E as <- E; vm_compute; lia|injection E as <- E]). destruct a; discriminate E.
Qed.
Print Assumptions C153_text.
Print Assumptions C153_valid.
Print Assumptions C153_no_panic.
Print Assumptions C153_grows.
Print Assumptions C153_final.
Print Assumptions C154_parts.
Print Assumptions C154_given.
Print Assumptions C154_no_panic.
Print Assumptions C154_by_turns.
Print Assumptions C154_part_refuted.
Print Assumptions C154_long_refuted.
Print Assumptions C154_refuted.
