(* C71 and C73 for LDAP URIs; C122: what Valid, IsZero and Len of a method table say. *)
From Coq Require Import String Ascii List PeanoNat NArith ZArith Bool Lia Permutation.
From Verif Require Import GoStr GoStrFacts Shifty MMisc MLists MAttr MLevels MSec MTime MNet MFilter MUri MRule MKw MMeth
  SKw PKw PRights SMeth PMeth TMeth TUri.
Import ListNotations.
Open Scope string_scope.

(* ---- C71, C73: an LDAP URI ---- *)
(* The keyword is userattr if the URI has a userattr pair, else groupdn if its DN is a
   group's, else userdn (C52_exact). *)
Definition uri_kind (u : uri) (d : dn) : bindkw :=
  if (negb (abtv_isZero (u_avbt u)) && (ab_kw (u_avbt u) =? bindkw_const UserAttr)%N)%bool then UserAttr
  else match d with Some x => if (dn_kw x =? bindkw_const GroupDN)%N then GroupDN else UserDN | None => UserDN end.
Lemma uri_kw u : uri_valid u = true -> uri_rule_keyword u = Some (bindkw_const (uri_kind u (u_dn u))).
Proof.
  intros V. unfold uri_rule_keyword. rewrite V. cbn [negb]. unfold uri_kind.
  change (bindkw_const UserAttr) with BindUAT. change (bindkw_const GroupDN) with BindGDN.
  destruct (negb (abtv_isZero (u_avbt u))), (ab_kw (u_avbt u) =? BindUAT)%N; cbn [andb]; try reflexivity;
    (destruct (u_dn u) as [x|]; [destruct (dn_kw x =? BindGDN)%N|]; reflexivity).
Qed.
Theorem C71_uri : forall pad u,
  (dn_isZero (u_dn u) = false ->
     bind_says pad (uri_Eq pad u) (uri_kind u (u_dn u)) REq (uri_string u) /\
     bind_says pad (uri_Ne pad u) (uri_kind u (u_dn u)) RNe (uri_string u)) /\
  (dn_isZero (u_dn u) = true -> no_rule (uri_Eq pad u) /\ no_rule (uri_Ne pad u)).
Proof.
  intros pad u. unfold uri_Eq, uri_Ne, uri_makeBindRule. split; intros Z.
  - rewrite uri_kw by (unfold uri_valid; now rewrite Z). generalize (uri_string u) as s. intros s.
    destruct (uri_kind u (u_dn u)), pad; repeat split; reflexivity.
  - unfold uri_rule_keyword, uri_valid. rewrite Z. split; reflexivity.
Qed.
Theorem C73_uri : forall pad u,
  (dn_isZero (u_dn u) = false ->
     bind_table (uri_BRM pad u) (bindkw_allows (uri_kind u (u_dn u))) (fun r o => bind_says pad r (uri_kind u (u_dn u)) o (uri_string u))) /\
  (dn_isZero (u_dn u) = true -> bind_table (uri_BRM pad u) (bindkw_allows UserDN) (fun r _ => no_rule r)).
Proof.
  intros pad u. destruct (C71_uri pad u) as [X Y]. split; intros Z.
  - specialize (X Z). apply bind_table_of. eapply two_table; [reflexivity| |apply X|apply X]. apply two_bind.
    unfold uri_kind. destruct (_ && _)%bool; [cbn; intuition discriminate|].
    destruct (u_dn u) as [x|]; [destruct (dn_kw x =? _)%N|]; cbn; intuition discriminate.
  - specialize (Y Z). apply bind_table_of. eapply two_table; [reflexivity|apply two_bind; cbn; intuition discriminate|apply Y|apply Y].
Qed.
Example C73_uri_witness :
  let u := URI [UDn (GDN "dc=x"); UScope Subtree] in
  dn_isZero (u_dn u) = false /\ br_string (uri_Ne true u) = "groupdn != ""ldap:///dc=x??sub?""" /\
  brm_index (uri_BRM true u) (OStr "not equal to") = (Ne, Some (uri_Ne true u)).
Proof. repeat split; vm_compute; reflexivity. Qed.

(* ---- C122 ---- *)
Lemma get_member m k r : m_get m k = Some r -> In r (map snd m).
Proof.
  induction m as [|[k' r'] m IH]; [discriminate|]. cbn [m_get map snd].
  destruct (k' =? k)%N; [intros E; injection E as <-; now left|]. intros E. right. now apply IH.
Qed.
Lemma range_member s m k r : range_methods s m = (k, Some r) -> In r (map snd m).
Proof.
  induction m as [|[k' r'] m IH]; [discriminate|]. cbn [range_methods map snd].
  destruct (strInSliceFold _ _); [intros E; injection E as _ <-; now left|]. intros E. right. now apply IH.
Qed.
Lemma bint_member m z k r : brm_index_int m z = (k, Some r) -> In r (map snd m).
Proof.
  unfold brm_index_int. destruct (m_get m (Z.to_N (z mod 256))) eqn:G; [|discriminate].
  intros E. injection E as _ <-. now apply get_member in G.
Qed.
Lemma brm_member m x k r : brm_index (Some m) x = (k, Some r) -> In r (map snd m).
Proof. destruct x; cbn [brm_index]; [apply range_member|apply bint_member|apply bint_member|discriminate]. Qed.
Lemma trm_member m x k r : trm_index (Some m) x = (k, Some r) -> In r (map snd m).
Proof.
  assert (T : forall z, trm_index_int m z = (k, Some r) -> In r (map snd m)).
  { intros z. unfold trm_index_int. destruct (negb _); [discriminate|]. apply (bint_member m z k r). }
  destruct x; cbn [trm_index]; [apply range_member|apply T|apply T|discriminate].
Qed.
Lemma m_get_eq m m' r : NoDup (map fst m) -> In (Eq, r) m -> Permutation m' m -> m_get m' Eq = Some r.
Proof.
  intros N I P. apply m_get_in.
  - apply (Permutation_NoDup (l := map fst m)); [apply Permutation_map; now symmetry|exact N].
  - now apply (Permutation_in _ (Permutation_sym P)).
Qed.
Lemma speaks_bind m e : NoDup (map fst m) -> In (Eq, e) m ->
  (br_valid e = true -> forall r, In r (map snd m) -> br_valid r = true) -> bind_speaks (Some m).
Proof.
  intros N I A m' P. assert (G := m_get_eq m m' e N I P).
  assert (X : brm_index (Some m') (OCop Eq) = (Eq, Some e)).
  { cbn [brm_index]. unfold brm_index_int. change (Z.to_N (Z.of_N Eq mod 256)) with Eq. now rewrite G. }
  exists (br_valid e). split; [unfold brm_valid; now rewrite X|]. split.
  - intros V x k r E. apply brm_member in E. apply (A V). now apply (Permutation_in _ (Permutation_map snd P)).
  - intros H. exact (H _ _ _ X).
Qed.
Lemma speaks_target m e : NoDup (map fst m) -> In (Eq, e) m ->
  (tr_valid e = true -> forall r, In r (map snd m) -> tr_valid r = true) -> target_speaks (Some m).
Proof.
  intros N I A m' P. assert (G := m_get_eq m m' e N I P).
  assert (X : trm_index (Some m') (OCop Eq) = (Eq, Some e)).
  { cbn [trm_index]. unfold trm_index_int. change (negb _) with false. cbv iota.
    change (Z.to_N (Z.of_N Eq mod 256)) with Eq. now rewrite G. }
  exists (tr_valid e). split; [unfold trm_valid; now rewrite X|]. split.
  - intros V x k r E. apply trm_member in E. apply (A V). now apply (Permutation_in _ (Permutation_map snd P)).
  - intros H. exact (H _ _ _ X).
Qed.
Ltac keys_differ := repeat constructor; cbn; intros X; repeat (destruct X as [X|X]; [discriminate X|]); contradiction.
Ltac bsp := eapply speaks_bind; [keys_differ|left; reflexivity|].
Ltac tsp := eapply speaks_target; [keys_differ|left; reflexivity|].

Ltac from_eq V r H := intros V r H; cbn [map snd In] in H; destruct H as [H|H]; [subst r; exact V|];
  repeat (destruct H as [H|H]; [subst r|]); [..|contradiction H].
Lemma says_ok pad r k o v : bind_says pad r k o v -> br_valid r = true.
Proof. intros H. apply H. Qed.
Lemma tsays_ok pad r k o v : target_says pad r k o v -> tr_valid r = true.
Proof. intros H. apply H. Qed.
Lemma none_ok (P : rule -> bool) r : no_rule r -> P None = false -> P r = true -> False.
Proof. intros -> E. rewrite E. discriminate. Qed.

(* The claim (bind.go:200-203, target.go:144-147): if any one method works, all do, and
   Valid tries one.  False for the add=/delete= operations, where Valid passes although
   the method for Ne gives the zero rule, and for a pair filled by Set without a keyword,
   where Valid passes although the rule made by Ne is not valid. *)
Theorem C122_refuted :
  ~ (forall pad o, target_speaks (afo_TRM pad (Some o))) /\
  ~ (forall pad o, target_speaks (afos_TRM pad (Some o))) /\
  ~ (forall pad fmt a, bind_speaks (abtv_BRM pad fmt a)) /\
  brm_valid (abtv_BRM true "" filled) = Some true /\ br_valid (abtv_Ne true "" filled) = false.
Proof.
  split; [|split; [|split; [|split; vm_compute; reflexivity]]].
  - intros H. destruct (H true (MkAFO 1 []) _ (Permutation_refl _)) as (b & V & [X _]).
    assert (E : b = true) by (vm_compute in V; congruence). specialize (X E (OCop Ne) Ne None eq_refl). discriminate X.
  - intros H. destruct (H true (MkAFOs "," []) _ (Permutation_refl _)) as (b & V & [X _]).
    assert (E : b = true) by (vm_compute in V; congruence). specialize (X E (OCop Ne) Ne None eq_refl). discriminate X.
  - intros H. destruct (H true "" filled _ (Permutation_refl _)) as (b & V & [X _]).
    assert (E : b = true) by (vm_compute in V; congruence).
    specialize (X E (OCop Ne) Ne (abtv_Ne true "" filled) eq_refl). vm_compute in X. discriminate X.
Qed.
(* What is missing is those two kinds of value: every other table has Eq, its check does
   not panic, and it speaks for every method in it, valid value or not. *)
Theorem C122_bind_partial : forall sh low pad fmt,
  (forall a, bind_speaks (ip_BRM pad a)) /\
  (forall f, bind_speaks (fqdn_BRM pad f)) /\
  (forall n, bind_speaks (am_BRM low pad n)) /\
  (forall s, bind_speaks (ssf_BRM pad s)) /\
  (forall d, bind_speaks (dow_BRM sh pad d)) /\
  (forall t, bind_speaks (tod_BRM pad t)) /\
  (forall u, bind_speaks (uri_BRM pad u)) /\
  (forall d, dn_isZero d = true \/ (exists k t, In k [UserDN; RoleDN; GroupDN] /\ d = Some (MkDN (bindkw_const k) (Some t))) ->
     bind_speaks (bdn_BRM pad d)) /\
  (forall l, l = None \/ (exists k m, In k [UserDN; RoleDN; GroupDN] /\ l = Some (bindkw_const k, m)) ->
     bind_speaks (bdns_BRM pad l)) /\
  (forall i, inh_isZero i = true \/ (exists k lv p, In k [UserAttr; GroupAttr] /\ i = Some (MkInh lv (MkABTV (bindkw_const k) (Some p)))) ->
     bind_speaks (inh_BRM sh pad fmt i)).
Proof.
  intros sh low pad fmt. repeat match goal with |- _ /\ _ => split end.
  - intros a. bsp. from_eq V r H. destruct a as [[|x l]|]; try discriminate V. destruct (proj1 (C71_address pad) x l) as [_ X]. exact (says_ok _ _ _ _ _ X).
  - intros f. bsp. from_eq V r H. destruct (fqdn_valid f) eqn:E; [destruct (proj1 (C71_fqdn pad f) E) as [_ X]; exact (says_ok _ _ _ _ _ X)|].
    exfalso. apply (none_ok br_valid (fqdn_Eq pad f)); [now apply C71_fqdn|reflexivity|exact V].
  - intros n. bsp. from_eq V r H. destruct (N.eq_dec n 0) as [-> |E]; [discriminate V|]. destruct (proj1 (C71_auth_method low pad n) E) as [_ X]. exact (says_ok _ _ _ _ _ X).
  - intros s. bsp. destruct (C71_strength_factor pad s) as (X1 & X2 & X3 & X4 & X5 & X6).
    from_eq V r H; [exact (says_ok _ _ _ _ _ X2)|exact (says_ok _ _ _ _ _ X3)|exact (says_ok _ _ _ _ _ X4)|exact (says_ok _ _ _ _ _ X5)|exact (says_ok _ _ _ _ _ X6)].
  - intros d. bsp. from_eq V r H. destruct (dow_valid sh d) eqn:E; [destruct (proj1 (C71_day_of_week sh pad d) E) as [_ X]; exact (says_ok _ _ _ _ _ X)|].
    exfalso. apply (none_ok br_valid (dow_Eq sh pad d)); [now apply C71_day_of_week|reflexivity|exact V].
  - intros [t|]; bsp; [|intros V; discriminate V].
    destruct (proj1 (C71_time_of_day pad (Some t))) as (X1 & X2 & X3 & X4 & X5 & X6); [discriminate|].
    from_eq V r H; [exact (says_ok _ _ _ _ _ X2)|exact (says_ok _ _ _ _ _ X3)|exact (says_ok _ _ _ _ _ X4)|exact (says_ok _ _ _ _ _ X5)|exact (says_ok _ _ _ _ _ X6)].
  - intros u. bsp. from_eq V r H. destruct (dn_isZero (u_dn u)) eqn:E; [|destruct (proj1 (C71_uri pad u) E) as [_ X]; exact (says_ok _ _ _ _ _ X)].
    exfalso. apply (none_ok br_valid (uri_Eq pad u)); [now apply C71_uri|reflexivity|exact V].
  - intros d D. bsp. from_eq V r H. destruct D as [E|(k & t & K & E)]; [|destruct (proj1 (C71_bind_dn pad d) k t K E) as [_ X]; exact (says_ok _ _ _ _ _ X)].
    exfalso. apply (none_ok br_valid (bdn_Eq pad d)); [now apply C71_bind_dn|reflexivity|exact V].
  - intros l D. bsp. from_eq V r H. destruct D as [-> |(k & m & K & ->)]; [discriminate V|]. destruct (proj1 (C71_bind_dns pad) k m K) as [_ X]; exact (says_ok _ _ _ _ _ X).
  - intros i D. bsp. from_eq V r H. destruct D as [E|(k & lv & p & K & E)]; [|destruct (proj1 (C71_inheritance sh pad fmt i) k lv p K E) as [_ X]; exact (says_ok _ _ _ _ _ X)].
    exfalso. apply (none_ok br_valid (inh_Eq sh pad fmt i)); [now apply C71_inheritance|reflexivity|exact V].
Qed.
Theorem C122_target_partial : forall pad,
  (forall d, dn_isZero d = true \/ (exists k t, In k [TgTarget; TgTo; TgFrom] /\ d = Some (MkDN (targetkw_const k) (Some t))) ->
     target_speaks (tdn_TRM pad d)) /\
  (forall l, l = None \/ (exists k m, In k [TgTarget; TgTo; TgFrom] /\ l = Some (targetkw_const k, m)) ->
     target_speaks (tdns_TRM pad l)) /\
  (forall a, target_speaks (at_TRM pad a)) /\
  (forall l, target_speaks (ats_TRM pad l)) /\
  (forall o, oid_valid o = false \/ (exists k t, In k [TgExtOp; TgCtrl] /\ o = Some (MkOID (targetkw_const k) (Some t))) ->
     target_speaks (oid_TRM pad o)) /\
  (forall l, target_speaks (oids_TRM pad l)) /\
  (forall f, target_speaks (sf_TRM pad f)) /\
  (forall n, target_speaks (scope_TRM pad n)).
Proof.
  intros pad. repeat match goal with |- _ /\ _ => split end.
  - intros d D. tsp. from_eq V r H. destruct D as [E|(k & t & K & E)]; [|destruct (proj1 (C71_target_dn pad d) k t K E) as [_ X]; exact (tsays_ok _ _ _ _ _ X)].
    exfalso. apply (none_ok tr_valid (tdn_Eq pad d)); [now apply C71_target_dn|reflexivity|exact V].
  - intros l D. tsp. from_eq V r H. destruct D as [-> |(k & m & K & ->)]; [discriminate V|]. destruct (proj1 (C71_target_dns pad) k m K) as [_ X]; exact (tsays_ok _ _ _ _ _ X).
  - intros a. tsp. from_eq V r H. destruct a as [[|c a]|]; [discriminate V| |discriminate V].
    destruct (proj1 (C71_attribute_type pad) (String c a)) as [_ X]; [discriminate|]. exact (tsays_ok _ _ _ _ _ X).
  - intros [[[] m]|]; [|reflexivity..]. tsp. from_eq V r H. destruct (proj1 (C71_attribute_types pad) true m) as [_ X]. exact (tsays_ok _ _ _ _ _ X).
  - intros o D. tsp. from_eq V r H. destruct D as [E|(k & t & K & E)]; [|destruct (proj1 (C71_object_identifier pad o) k t K E) as [_ X]; exact (tsays_ok _ _ _ _ _ X)].
    exfalso. unfold oid_Eq in V. rewrite E in V. discriminate V.
  - intros [[k m]|]; tsp; from_eq V r H; try discriminate V.
    unfold oids_Eq, oids_Ne, ol_kind in V |- *. cbn [ol_kw ol_mem] in V |- *.
    destruct (N.eqb_spec k TargetExtOp) as [-> |A]; [destruct (proj1 (C71_object_identifiers pad) TgExtOp m (or_introl eq_refl)) as [_ X]; exact (tsays_ok _ _ _ _ _ X)|].
    destruct (N.eqb_spec k TargetCtrl) as [-> |B]; [destruct (proj1 (C71_object_identifiers pad) TgCtrl m (or_intror (or_introl eq_refl))) as [_ X]; exact (tsays_ok _ _ _ _ _ X)|].
    discriminate V.
  - intros f. tsp. from_eq V r H. destruct f as [[|c f]|]; [discriminate V| |discriminate V].
    destruct (proj1 (C71_search_filter pad) (String c f)) as [_ X]; [discriminate|]. exact (tsays_ok _ _ _ _ _ X).
  - intros n. tsp. from_eq V r H.
Qed.
(* Exactly, for the two kinds left: a pair's check speaks for its methods unless the
   pair is set and has no keyword; the check of add=/delete= operations always passes. *)
Theorem C122_exact : forall pad fmt,
  (forall a, In (ab_kw a) [0%N; bindkw_const UserAttr; bindkw_const GroupAttr] ->
     (bind_speaks (abtv_BRM pad fmt a) <-> pair_isZero (ab_pair a) = true \/ ab_kw a <> 0%N)) /\
  (forall a, In (ab_kw a) [0%N; bindkw_const UserAttr; bindkw_const GroupAttr] ->
     brm_valid (abtv_BRM pad fmt a) = Some (negb (pair_isZero (ab_pair a)))) /\
  (forall o, trm_valid (afo_TRM pad (Some o)) = Some true) /\ (forall o, trm_valid (afos_TRM pad (Some o)) = Some true) /\
  trm_valid (afo_TRM pad None) = Some false /\ trm_valid (afos_TRM pad None) = Some false.
Proof.
  intros pad fmt.
  assert (E : forall a, In (ab_kw a) [0%N; BindUAT; BindGAT] -> br_valid (abtv_Eq pad fmt a) = negb (pair_isZero (ab_pair a))).
  { intros a K. unfold abtv_Eq. destruct (pair_isZero (ab_pair a)); [reflexivity|]. cbn [negb].
    generalize (abtv_text fmt a). intros t. cbn [In] in K. destruct K as [<-|[<-|[<-|[]]]]; reflexivity. }
  assert (F : forall a, In (ab_kw a) [0%N; BindUAT; BindGAT] ->
            br_valid (abtv_Ne pad fmt a) = (negb (pair_isZero (ab_pair a)) && negb (ab_kw a =? 0)%N)%bool).
  { intros a K. unfold abtv_Ne. destruct (pair_isZero (ab_pair a)); [reflexivity|]. cbn [negb].
    generalize (abtv_text fmt a). intros t. cbn [In] in K. destruct K as [<-|[<-|[<-|[]]]]; reflexivity. }
  split; [|split; [|split; [intros o; reflexivity|split; [intros o; reflexivity|split; reflexivity]]]].
  - intros a K. specialize (E a K). specialize (F a K). split.
    + intros H. destruct (H _ (Permutation_refl _)) as (b & V & [X _]).
      assert (V' : b = negb (pair_isZero (ab_pair a))) by (rewrite <- E; change (brm_valid _) with (Some (br_valid (abtv_Eq pad fmt a))) in V; congruence).
      destruct (pair_isZero (ab_pair a)); [now left|]. right. specialize (X V' (OCop Ne) Ne (abtv_Ne pad fmt a) eq_refl).
      rewrite F in X. cbn [negb andb] in X. apply negb_true_iff, N.eqb_neq in X. exact X.
    + intros D. bsp. from_eq V r H. rewrite F. rewrite E in V. rewrite V. destruct D as [D|D]; [rewrite D in V; discriminate V|].
      apply N.eqb_neq in D. now rewrite D.
  - intros a K. rewrite <- (E a K). reflexivity.
Qed.
(* the nil table is zero, empty and not valid; no table a value gives is *)
Theorem C122_zero : forall sh low pad fmt,
  tab_isZero None = true /\ tab_len None = O /\ brm_valid None = Some false /\ trm_valid None = Some false /\
  Forall (fun t => tab_isZero t = false /\ (1 <= tab_len t <= 6)%nat)
    [ip_BRM pad None; fqdn_BRM pad None; am_BRM low pad 0; ssf_BRM pad None; dow_BRM sh pad None; tod_BRM pad None;
     bdn_BRM pad None; bdns_BRM pad None; inh_BRM sh pad fmt None; tdn_TRM pad None; tdns_TRM pad None; at_TRM pad None;
     oid_TRM pad None; oids_TRM pad None; sf_TRM pad None; afo_TRM pad None; afos_TRM pad None; scope_TRM pad 0].
Proof.
  intros sh low pad fmt. repeat match goal with |- _ /\ _ => split end; try reflexivity.
  repeat constructor.
Qed.
Example C122_witness :
  brm_valid (ip_BRM true (IP ["10.1.*"])) = Some true /\ brm_valid (ip_BRM true None) = Some false /\
  trm_valid (scope_TRM true 3) = Some true /\ trm_valid (ats_TRM true (Some (false, []))) = Some false /\
  In (ab_kw filled) [0%N; bindkw_const UserAttr; bindkw_const GroupAttr] /\ pair_isZero (ab_pair filled) = false.
Proof. repeat split; try (vm_compute; reflexivity). now left. Qed.
Print Assumptions C71_uri.
Print Assumptions C73_uri.
Print Assumptions C122_refuted.
Print Assumptions C122_bind_partial.
Print Assumptions C122_target_partial.
Print Assumptions C122_exact.
Print Assumptions C122_zero.
