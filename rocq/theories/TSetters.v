(* C116, C117: what a sequence of Set calls with mixed arguments leaves. *)
From Coq Require Import String Ascii List PeanoNat NArith Bool Lia.
From Verif Require Import GoStr GoStrFacts MMisc MKw MAttr MFilter MSetters SAttr SSetters PAttr.
Import ListNotations.
Open Scope string_scope.

(* ---- C116 ---- *)
Definition uat_or_gat (kw : N) : Prop := kw = BindUAT \/ kw = BindGAT.
Lemma made_ok kw : uat_or_gat kw -> forall h x, abtv_made kw x h = MkABTV kw (Some (pair_set pair_nil (x ++ List.concat h))).
Proof.
  intros K. assert (E : forall x, ABTV kw x = MkABTV kw (Some (pair_set pair_nil x))) by (intros x; destruct K as [-> | ->]; reflexivity).
  assert (Z : forall p, abtv_isZero (MkABTV kw (Some p)) = false) by (intros p; destruct K as [-> | ->]; reflexivity).
  unfold abtv_made. intros h x. rewrite E. generalize pair_nil as p. revert x. induction h as [|y h IH]; intros x p; cbn [List.concat fold_left].
  - now rewrite app_nil_r.
  - unfold abtv_set at 2. rewrite Z. cbn [ab_kw ab_pair]. rewrite IH. f_equal. f_equal. unfold pair_set. now rewrite !fold_left_app.
Qed.
(* For the two keywords, setting piece by piece is setting all at once. *)
Theorem C116_piecemeal : forall kw x h, uat_or_gat kw -> abtv_made kw x h = ABTV kw (x ++ List.concat h).
Proof. intros kw x h K. rewrite (made_ok kw K). destruct K as [-> | ->]; reflexivity. Qed.
(* False without a keyword: each Set starts anew. *)
Theorem C116_piecemeal_refuted :
  ~ (forall r x y, abtv_set (abtv_set r x) y = abtv_set r (x ++ y)) /\
  (forall r x y, ab_kw r = 0%N -> abtv_set (abtv_set r x) y = abtv_set r y).
Proof.
  split.
  - intros H. specialize (H abtv_zero [BStr "cn"] [BStr "USERDN"]). vm_compute in H. discriminate.
  - intros [k p] x y E. cbn in E. subst k. unfold abtv_set, abtv_isZero. cbn [ab_kw ab_pair]. now destruct p.
Qed.
(* ABTV gives a value of the keyword, or nothing *)
Theorem C116_keyword : forall kw x h,
  (uat_or_gat kw -> ab_kw (abtv_made kw x h) = kw /\ abtv_isZero (abtv_made kw x h) = false) /\
  (~ uat_or_gat kw -> ABTV kw x = abtv_zero /\ abtv_isZero (ABTV kw x) = true /\ abtv_string (ABTV kw x) = Some "<invalid_attribute_value>" /\
     ab_kw (abtv_made kw x h) = 0%N).
Proof.
  intros kw x h. split.
  - intros K. rewrite (made_ok kw K). destruct K as [-> | ->]; split; reflexivity.
  - intros K. assert (E : ABTV kw x = abtv_zero).
    { unfold ABTV. destruct (N.eqb_spec kw BindUAT) as [->|N1]; [destruct K; now left|]. destruct (N.eqb_spec kw BindGAT) as [->|N2]; [destruct K; now right|]. reflexivity. }
    rewrite E. repeat split. unfold abtv_made. rewrite E. assert (G : forall h r, ab_kw r = 0%N -> ab_kw (fold_left abtv_set h r) = 0%N).
    { clear. induction h as [|y h IH]; intros r Z; [exact Z|]. cbn [fold_left]. apply IH. exact Z. }
    now apply G.
Qed.
Lemma pair_set_name : forall xs n v, fst (pair_set (Some n, v) xs) = Some n.
Proof.
  unfold pair_set. induction xs as [|x xs IH]; intros n v; [reflexivity|]. cbn [fold_left]. destruct x; cbn [pair_set1]; try apply IH.
Qed.
Lemma not_name x : (forall c, ~ is_name x c) -> forall r, fst (pair_set1 r x) = fst r.
Proof. intros N [n v]. destruct x; cbn [pair_set1]; try reflexivity; exfalso; eapply N; constructor. Qed.
(* The attribute is the first one given, as an AttributeType or as text, and stays. *)
Theorem C116_name : forall kw x h, uat_or_gat kw -> exists p, ab_pair (abtv_made kw x h) = Some p /\
  (forall a, first_given is_name (x ++ List.concat h) a -> fst p = Some a) /\
  (none_given is_name (x ++ List.concat h) -> fst p = None).
Proof.
  intros kw x h K. rewrite (made_ok kw K). eexists. split; [reflexivity|]. generalize (x ++ List.concat h)%list as xs. clear.
  assert (P : forall pre r, none_given is_name pre -> fst (pair_set r pre) = fst r).
  { unfold pair_set. induction pre as [|y pre IH]; intros r N; [reflexivity|]. cbn [fold_left]. rewrite IH by (intros z c Hz; apply N; now right).
    apply not_name. intros c. apply N. now left. }
  intros xs. split.
  - intros a (pre & y & post & -> & Y & N). unfold pair_set. rewrite fold_left_app. cbn [fold_left]. fold (pair_set pair_nil pre).
    specialize (P pre pair_nil N). destruct (pair_set pair_nil pre) as [n v]. cbn [fst pair_nil] in P. subst n.
    destruct Y; cbn [pair_set1]; apply pair_set_name.
  - intros N. now apply (P xs pair_nil).
Qed.
Lemma second_text : forall post n v w, last_given is_text post w -> snd (pair_set (Some n, v) post) = w.
Proof.
  intros post n v w (pre & y & post' & -> & Y & N). unfold pair_set. rewrite fold_left_app. cbn [fold_left]. fold (pair_set (Some n, v) pre).
  pose proof (pair_set_name pre n v) as F. destruct (pair_set (Some n, v) pre) as [n' v']. cbn [fst] in F. subst n'.
  assert (Q : forall l m u, none_given is_text l -> u <> SNil -> snd (fold_left pair_set1 l (Some m, u)) = u).
  { clear. induction l as [|z l IH]; intros m u N U; [reflexivity|]. assert (N' : none_given is_text l) by (intros t c Ht; apply N; now right).
    cbn [fold_left]. destruct z as [a|q|k|s|]; cbn [pair_set1]; try (now apply IH).
    - destruct u; [congruence| |]; now apply IH.
    - destruct u; [congruence| |]; now apply IH.
    - exfalso. destruct (N.eq_dec (matchBT s) 0) as [Z|Z]; [apply (N (BStr s) (SAV (AV s)))|apply (N (BStr s) (SBT (matchBT s)))]; try (now left); now constructor. }
  destruct Y as [s B|s B]; cbn [pair_set1].
  - destruct (N.eqb_spec (matchBT s) 0) as [Z|Z]; [contradiction|]. now apply Q.
  - destruct (N.eqb_spec (matchBT s) 0) as [Z|Z]; [|contradiction]. now apply Q.
Qed.
Lemma second_step r x : (forall c, ~ is_text x c) \/ fst r = None ->
  snd (pair_set1 r x) = match snd r, x with SNil, BAV v => SAV v | SNil, BBT n => SBT n | u, _ => u end.
Proof.
  intros H. destruct r as [n v]. cbn [fst snd] in *. destruct x as [a|q|k|s|]; cbn [pair_set1 snd]; try (destruct v; reflexivity).
  destruct n as [n|]; [|destruct v; reflexivity]. exfalso. destruct H as [H|H]; [|discriminate].
  destruct (N.eq_dec (matchBT s) 0) as [Z|Z]; [apply (H (SAV (AV s)))|apply (H (SBT (matchBT s)))]; now constructor.
Qed.
(* The value is the last text given after the attribute; if there is none, the first
   AttributeValue or BindType given at all. *)
Theorem C116_value : forall kw x h, uat_or_gat kw -> exists p, ab_pair (abtv_made kw x h) = Some p /\
  (forall pre y post a w, (x ++ List.concat h)%list = (pre ++ y :: post)%list -> is_name y a -> none_given is_name pre ->
     (last_given is_text post w -> snd p = w) /\
     (none_given is_text post -> first_given is_value (x ++ List.concat h) w -> snd p = w) /\
     (none_given is_text post -> none_given is_value (x ++ List.concat h) -> snd p = SNil)).
Proof.
  intros kw x h K. rewrite (made_ok kw K). eexists. split; [reflexivity|]. generalize (x ++ List.concat h)%list as xs. clear.
  intros xs pre y post a w -> Y N.
  assert (F : forall l, none_given is_name l -> fst (pair_set pair_nil l) = None).
  { induction l as [|z l IH] using rev_ind; intros M; [reflexivity|]. unfold pair_set. rewrite fold_left_app. cbn [fold_left].
    rewrite not_name by (intros c; apply M, in_app_iff; right; now left). apply IH. intros t c Ht. apply M, in_app_iff. now left. }
  assert (G : exists u, pair_set1 (pair_set pair_nil pre) y = (Some a, u)).
  { specialize (F pre N). destruct (pair_set pair_nil pre) as [n v]. cbn [fst] in F. subst n. destruct Y; cbn [pair_set1]; eauto. }
  destruct G as [u G]. split; [|].
  - intros L. unfold pair_set. rewrite fold_left_app. cbn [fold_left]. fold (pair_set pair_nil pre). rewrite G. now apply second_text.
  - (* no text after the attribute: only values count *)
    assert (V : none_given is_text post -> forall xs' rest, (pre ++ y :: post = xs' ++ rest)%list ->
              snd (pair_set pair_nil (xs' ++ rest)) = snd (fold_left pair_set1 rest (pair_set pair_nil xs'))) by (intros _ xs' rest _; unfold pair_set; now rewrite fold_left_app).
    (* each step that is not a late text follows second_step *)
    assert (S : none_given is_text post -> forall l1 z l2, (pre ++ y :: post)%list = (l1 ++ z :: l2)%list ->
              (forall c, ~ is_text z c) \/ fst (pair_set pair_nil l1) = None).
    { intros T l1 z l2 E. destruct (Nat.le_gt_cases (List.length l1) (List.length pre)) as [L|L].
      - right. apply F. intros t c Ht. apply N. assert (P : firstn (List.length l1) (pre ++ y :: post) = l1) by (rewrite E, firstn_app, firstn_all, Nat.sub_diag, firstn_O; now rewrite app_nil_r).
        rewrite firstn_app in P. replace (List.length l1 - List.length pre)%nat with 0%nat in P by lia. rewrite firstn_O, app_nil_r in P.
        rewrite <- P in Ht. rewrite <- (firstn_skipn (List.length l1) pre). apply in_app_iff. now left.
      - left. intros c. apply T. assert (P : skipn (S (List.length pre)) (pre ++ y :: post) = post).
        { change (pre ++ y :: post)%list with (pre ++ [y] ++ post)%list. rewrite app_assoc, skipn_app.
          rewrite skipn_all2 by (rewrite app_length; cbn; lia). rewrite app_length. cbn [List.length]. now replace (S (List.length pre) - (List.length pre + 1))%nat with 0%nat by lia. }
        rewrite <- P, E, skipn_app. apply in_app_iff. right. replace (S (List.length pre) - List.length l1)%nat with 0%nat by lia. now left. }
    assert (NV : none_given is_text post -> forall l1 l2, (pre ++ y :: post)%list = (l1 ++ l2)%list -> none_given is_value l1 -> snd (pair_set pair_nil l1) = SNil).
    { intros T. induction l1 as [|z l1 IH] using rev_ind; intros l2 E M; [reflexivity|]. unfold pair_set. rewrite fold_left_app. cbn [fold_left]. fold (pair_set pair_nil l1).
      rewrite <- app_assoc in E. cbn [app] in E. rewrite (second_step _ _ (S T l1 z l2 E)).
      rewrite (IH (z :: l2) E) by (intros t c Ht; apply M, in_app_iff; now left).
      destruct z as [b|q|k|s|]; try reflexivity; exfalso; eapply M; [apply in_app_iff; right; now left|constructor|apply in_app_iff; right; now left|constructor]. }
    assert (KV : none_given is_text post -> forall l2 l1 z, (pre ++ y :: post)%list = (l1 ++ z ++ l2)%list -> snd (pair_set pair_nil l1) = w -> w <> SNil -> snd (pair_set pair_nil (l1 ++ z)) = w).
    { intros T l2 l1 z. revert l2. induction z as [|t z IH] using rev_ind; intros l2 E W NW; [now rewrite app_nil_r|].
      rewrite <- app_assoc in E. cbn [app] in E. rewrite app_assoc. unfold pair_set. rewrite fold_left_app. cbn [fold_left]. fold (pair_set pair_nil (l1 ++ z)).
      assert (E' : (pre ++ y :: post)%list = ((l1 ++ z) ++ t :: l2)%list) by (rewrite E; now rewrite <- app_assoc).
      rewrite (second_step _ _ (S T _ _ _ E')), (IH (t :: l2)%list E W NW). now destruct w. }
    split.
    + intros T (q & z & r & E & Z & M).
      assert (W : snd (pair_set pair_nil (q ++ [z])) = w).
      { unfold pair_set. rewrite fold_left_app. cbn [fold_left]. fold (pair_set pair_nil q). rewrite (second_step _ _ (S T q z r E)), (NV T q (z :: r) E M). now destruct Z. }
      rewrite E. change (q ++ z :: r)%list with (q ++ [z] ++ r)%list. rewrite app_assoc. apply (KV T []); [|exact W|destruct Z; discriminate].
      rewrite E, app_nil_r, <- app_assoc. reflexivity.
    + intros T M. apply (NV T _ []); [now rewrite app_nil_r|exact M].
Qed.
(* False: that a value is assigned only if there is none yet *)
Theorem C116_refuted :
  ~ (forall kw x y p q, uat_or_gat kw -> ab_pair (ABTV kw x) = Some p -> snd p <> SNil -> ab_pair (abtv_set (ABTV kw x) y) = Some q -> snd q = snd p) /\
  (* it holds for values that are not texts *)
  (forall kw x y p q, uat_or_gat kw -> ab_pair (ABTV kw x) = Some p -> snd p <> SNil -> (forall s, ~ In (BStr s) y) ->
     ab_pair (abtv_set (ABTV kw x) y) = Some q -> snd q = snd p).
Proof.
  split.
  - intros H. specialize (H BindUAT [BStr "cn"; BStr "USERDN"] [BStr "GROUPDN"] (Some (AT "cn"), SBT USERDN) (Some (AT "cn"), SBT GROUPDN) (or_introl eq_refl)).
    assert (E1 : ab_pair (ABTV BindUAT [BStr "cn"; BStr "USERDN"]) = Some (Some (AT "cn"), SBT USERDN)) by (vm_compute; reflexivity).
    assert (E2 : ab_pair (abtv_set (ABTV BindUAT [BStr "cn"; BStr "USERDN"]) [BStr "GROUPDN"]) = Some (Some (AT "cn"), SBT GROUPDN)) by (vm_compute; reflexivity).
    assert (N : SBT USERDN <> SNil) by discriminate. specialize (H E1 N E2). vm_compute in H. discriminate.
  - intros kw x y p q K P NV NS Q. change (abtv_set (ABTV kw x) y) with (abtv_made kw x [y]) in Q. rewrite (made_ok kw K) in Q.
    change (ABTV kw x) with (abtv_made kw x []) in P. rewrite (made_ok kw K) in P. cbn [ab_pair List.concat] in P, Q. rewrite !app_nil_r in *.
    injection P as <-. injection Q as <-. unfold pair_set. rewrite fold_left_app. fold (pair_set pair_nil x). revert NV. generalize (pair_set pair_nil x) as r. clear -NS.
    induction y as [|z y IH]; intros r N; [reflexivity|]. cbn [fold_left].
    assert (E : snd (pair_set1 r z) = snd r).
    { rewrite second_step; [destruct (snd r) eqn:U; [congruence|now destruct z|now destruct z]|]. left. intros c T. inversion T; subst; eapply NS; now left. }
    rewrite IH; [exact E|intros s I; apply (NS s); now right|now rewrite E].
Qed.
Print Assumptions C116_piecemeal.
Print Assumptions C116_piecemeal_refuted.
Print Assumptions C116_keyword.
Print Assumptions C116_name.
Print Assumptions C116_value.
Print Assumptions C116_refuted.
Example C116_witness :
  abtv_string (abtv_made BindGAT [BBT SELFDN; BStr "manager"] [[BAT (AT "cn")]; [BAV (AV "x")]]) = Some "manager#SELFDN" /\
  abtv_string (abtv_made BindUAT [BStr "manager"] [[BAV (AV "x"); BStr "userdn"]; [BStr "groupdn"; BBT USERDN]]) = Some "manager#GROUPDN" /\
  abtv_string (abtv_set (abtv_set abtv_zero [BStr "cn"]) [BStr "USERDN"]) = Some "".
Proof. repeat apply conj; vm_compute; reflexivity. Qed.

(* ---- C117 ---- *)
Definition like (p q : atf) : Prop := fst p = fst q /\ sf_string (snd p) = sf_string (snd q).
Lemma like_step p q x : like p q -> like (atf_set1 p x) (atf_set1 q x).
Proof. intros [A B]. destruct x as [s|a|f|]; cbn [atf_set1]; [destruct (isIdentifier s)| | |]; split; cbn [fst snd]; auto. Qed.
Lemma like_set : forall xs p q, like p q -> like (atf_set p xs) (atf_set q xs).
Proof. unfold atf_set. induction xs as [|x xs IH]; intros p q H; [exact H|]. cbn [fold_left]. apply IH. now apply like_step. Qed.
Lemma like_refl p : like p p.
Proof. now split. Qed.
Lemma like_trans p q r : like p q -> like q r -> like p r.
Proof. intros [A B] [C D]. split; congruence. Qed.
Lemma named_step p x : fst p <> Some "" -> usable x -> fst (atf_set1 p x) <> Some "".
Proof.
  intros N U. destruct x as [s|a|f|]; cbn [atf_set1]; auto.
  - destruct (isIdentifier s) eqn:I; [|exact N]. cbn [fst]. unfold AT. rewrite I. cbn [orb]. intros [= ->]. discriminate I.
  - cbn [fst]. intros ->. now apply U.
Qed.
Lemma named_set : forall xs p, fst p <> Some "" -> Forall usable xs -> fst (atf_set p xs) <> Some "".
Proof.
  unfold atf_set. induction xs as [|x xs IH]; intros p N U; [exact N|]. inversion U; subst. cbn [fold_left]. apply IH; [|assumption]. now apply named_step.
Qed.
Lemma zero_like p : fst p <> Some "" -> af_isZero (Some p) = true -> like (None, None) p.
Proof.
  destruct p as [a f]. cbn [fst]. intros N Z. cbn in Z. apply andb_true_iff in Z as [Z1 Z2]. split; cbn [fst snd].
  - destruct a as [[|c s]|]; [congruence|discriminate|reflexivity].
  - destruct f as [[|c s]|]; [reflexivity|discriminate|reflexivity].
Qed.
Lemma made_like : forall h x, Forall usable (x ++ List.concat h) -> exists p, af_made x h = Some p /\ like p (atf_set (None, None) (x ++ List.concat h)) /\ fst p <> Some "".
Proof.
  intros h x U. unfold af_made, AF. assert (G : forall h p q, fst p <> Some "" -> like p q -> Forall usable (List.concat h) ->
    exists p', fold_left af_set h (Some p) = Some p' /\ like p' (atf_set q (List.concat h)) /\ fst p' <> Some "").
  { clear. induction h as [|y h IH]; intros p q N L U; cbn [List.concat fold_left]; [exists p; auto|].
    cbn [List.concat] in U. apply Forall_app in U as [U1 U2]. unfold af_set at 2.
    set (cur := if af_isZero (Some p) then (None, None) else p).
    assert (C : like cur q /\ fst cur <> Some "").
    { unfold cur. destruct (af_isZero (Some p)) eqn:Z; [|auto]. split; [|discriminate]. apply (like_trans _ p); [now apply zero_like|exact L]. }
    destruct C as [C1 C2]. destruct (IH (atf_set cur y) (atf_set q y)) as (p' & E & L' & N'); [now apply named_set|now apply like_set|exact U2|].
    exists p'. split; [exact E|]. split; [|exact N']. unfold atf_set in *. now rewrite fold_left_app. }
  apply Forall_app in U as [U1 U2]. destruct (G h (atf_set (None, None) x) (atf_set (None, None) x)) as (p & E & L & N); [|apply like_refl|exact U2|].
  - apply named_set; [discriminate|exact U1].
  - exists p. split; [exact E|]. split; [|exact N]. unfold atf_set in *. now rewrite fold_left_app.
Qed.
Lemma set_names : forall xs p,
  (forall a, last_given gives_name xs a -> fst (atf_set p xs) = a) /\ (none_given gives_name xs -> fst (atf_set p xs) = fst p).
Proof.
  assert (ST : forall p x a, gives_name x a -> fst (atf_set1 p x) = a).
  { intros p x a []; cbn [atf_set1].
    - apply identifier_iff in H. rewrite H. cbn [fst]. unfold AT. now rewrite H.
    - reflexivity. }
  assert (NO : forall xs p, none_given gives_name xs -> fst (atf_set p xs) = fst p).
  { unfold atf_set. induction xs as [|x xs IH]; intros p N; [reflexivity|]. cbn [fold_left]. rewrite IH by (intros y c Hy; apply N; now right).
    destruct x as [s|a|f|]; cbn [atf_set1]; try reflexivity.
    - destruct (isIdentifier s) eqn:I; [|reflexivity]. exfalso. apply (N (FStr s) (Some s)); [now left|]. constructor. now apply identifier_iff.
    - exfalso. apply (N (FAT a) a); [now left|constructor]. }
  intros xs p. split; [|apply NO]. intros a (pre & x & post & -> & X & N). unfold atf_set. rewrite fold_left_app. cbn [fold_left].
  fold (atf_set p pre). fold (atf_set (atf_set1 (atf_set p pre) x) post). rewrite (NO post _ N). now apply ST.
Qed.
Lemma set_filters : forall xs p,
  (forall f, last_given gives_filter xs f -> snd (atf_set p xs) = f) /\ (none_given gives_filter xs -> snd (atf_set p xs) = snd p).
Proof.
  assert (FS : forall s, Filter [s] = Some s) by (intros [|c s]; reflexivity).
  assert (ST : forall p x f, gives_filter x f -> snd (atf_set1 p x) = f).
  { intros p x f []; cbn [atf_set1].
    - destruct (isIdentifier s) eqn:I; [apply identifier_iff in I; contradiction|]. cbn [snd]. apply FS.
    - reflexivity. }
  assert (NO : forall xs p, none_given gives_filter xs -> snd (atf_set p xs) = snd p).
  { unfold atf_set. induction xs as [|x xs IH]; intros p N; [reflexivity|]. cbn [fold_left]. rewrite IH by (intros y c Hy; apply N; now right).
    destruct x as [s|a|f|]; cbn [atf_set1]; try reflexivity.
    - destruct (isIdentifier s) eqn:I; [reflexivity|]. exfalso. apply (N (FStr s) (Some s)); [now left|]. constructor. intros H. apply identifier_iff in H. congruence.
    - exfalso. apply (N (FSF f) f); [now left|constructor]. }
  intros xs p. split; [|apply NO]. intros a (pre & x & post & -> & X & N). unfold atf_set. rewrite fold_left_app. cbn [fold_left].
  fold (atf_set p pre). fold (atf_set (atf_set1 (atf_set p pre) x) post). rewrite (NO post _ N). now apply ST.
Qed.
Lemma get_name b g : b <> Some "" -> af_attributeType (Some (b, g)) = b.
Proof. intros N. destruct b as [[|c b]|], g as [[|d g]|]; try congruence; reflexivity. Qed.
Lemma get_filter b g : b <> Some "" -> sf_string (af_searchFilter (Some (b, g))) = sf_string g.
Proof. intros N. destruct b as [[|c b]|], g as [[|d g]|]; try congruence; reflexivity. Qed.
(* After AF and any number of Set calls the filter has the last attribute and the last
   search filter given, in whatever order and in however many calls; what was not given
   is as in a new filter. *)
Theorem C117_history : forall x h, let xs := (x ++ List.concat h)%list in let r := af_made x h in Forall usable xs ->
  (forall a, last_given gives_name xs a -> af_attributeType r = a) /\
  (none_given gives_name xs -> af_attributeType r = None) /\
  (forall f, last_given gives_filter xs f -> sf_string (af_searchFilter r) = sf_string f) /\
  (none_given gives_filter xs -> sf_string (af_searchFilter r) = "").
Proof.
  intros x h xs r U. destruct (made_like h x U) as ([b g] & E & [L1 L2] & N). fold xs in L1, L2. cbn [fst snd] in L1, L2, N.
  assert (GA : af_attributeType r = b) by (unfold r; rewrite E; now apply get_name).
  assert (GF : sf_string (af_searchFilter r) = sf_string g) by (unfold r; rewrite E; now apply get_filter).
  rewrite GA, GF, L1, L2. destruct (set_names xs (None, None)) as [S1 S2]. destruct (set_filters xs (None, None)) as [S3 S4].
  repeat apply conj; intros; [now apply S1|now apply S2|now rewrite (S3 f)|now rewrite S4].
Qed.
(* and its text is attribute:filter, or empty when one of the two is missing *)
Theorem C117_text : forall x h, let xs := (x ++ List.concat h)%list in let r := af_made x h in Forall usable xs ->
  (forall a t, last_given gives_name xs (Some a) -> last_given gives_filter xs (Some t) -> t <> "" -> af_string r = a ++ ":" ++ t) /\
  (none_given gives_name xs \/ none_given gives_filter xs -> af_string r = "").
Proof.
  intros x h xs r U. destruct (made_like h x U) as ([b g] & E & [L1 L2] & N). fold xs in L1, L2. cbn [fst snd] in L1, L2, N.
  destruct (set_names xs (None, None)) as [S1 S2]. destruct (set_filters xs (None, None)) as [S3 S4]. unfold r. rewrite E. split.
  - intros a t A T NE. rewrite (S1 _ A) in L1. rewrite (S3 _ T) in L2. subst b. cbn [sf_string] in L2. unfold af_string, af_valid, af_isZero.
    destruct g as [g|]; [|cbn in L2; congruence]. cbn [sf_string] in L2. subst g. cbn [sf_isZero at_isZero]. destruct a as [|c a]; [congruence|]. destruct t as [|c' t]; [congruence|]. reflexivity.
  - intros [A|A].
    + rewrite (S2 A) in L1. cbn [fst] in L1. subst b. unfold af_string, af_valid, af_isZero. cbn [at_isZero]. now destruct (sf_isZero g).
    + rewrite (S4 A) in L2. cbn [snd sf_string] in L2. unfold af_string, af_valid, af_isZero.
      assert (Z : sf_isZero g = true) by (destruct g as [g|]; [|reflexivity]; cbn in L2; now subst g). rewrite Z. now destruct (at_isZero b).
Qed.
(* so setting piece by piece is setting all at once *)
Theorem C117_piecemeal : forall x h, Forall usable (x ++ List.concat h) ->
  af_string (af_made x h) = af_string (AF (x ++ List.concat h)) /\ af_valid (af_made x h) = af_valid (AF (x ++ List.concat h)).
Proof.
  intros x h U. destruct (made_like h x U) as ([b g] & E & [L1 L2] & N). rewrite E. unfold AF.
  destruct (atf_set (None, None) (x ++ List.concat h)) as [b' g']. cbn [fst snd] in *. subst b'.
  assert (Z : sf_isZero g = sf_isZero g').
  { destruct g as [g|], g' as [g'|]; cbn in L2 |- *; subst; try reflexivity; now rewrite <- L2. }
  unfold af_string, af_valid, af_isZero. rewrite Z, L2. now split.
Qed.
Print Assumptions C117_history.
Print Assumptions C117_text.
Print Assumptions C117_piecemeal.
Example C117_witness :
  Forall usable ([FStr "(x=1)"; FOther] ++ List.concat [[FAT (AT "cn")]; []; [FStr "sn"; FSF (Filter ["(y=2)"])]]) /\
  af_string (af_made [FStr "(x=1)"; FOther] [[FAT (AT "cn")]; []; [FStr "sn"; FSF (Filter ["(y=2)"])]]) = "sn:(y=2)" /\
  af_string (af_made [FStr "(x=1)"] []) = "".
Proof. split; [repeat constructor; discriminate|]. split; vm_compute; reflexivity. Qed.
