(* Theorems for C26-C32. *)
From Coq Require Import String Ascii List PeanoNat NArith Bool Lia.
From Verif Require Import GoStr GoStrFacts MMisc MKw MAttr MLists SAttr SLists PMisc PAttr PLists.
Import ListNotations.
Open Scope string_scope.

(* ---- C26 ---- *)
(* The six constructors with their keywords. *)
Definition dn_makers : list ((string -> dn) * N) :=
  [(UDN, 1); (RDN, 2); (GDN, 3); (TDN, 1); (TTDN, 2); (TFDN, 5)]%N.
Theorem C26_prefix : forall mk kw bad s, In (mk, kw) dn_makers -> s <> "" -> has_prefix "ldap:///" s = false ->
  dn_string bad (mk s) = "ldap:///" ++ s /\
  dn_string bad (mk ("ldap:///" ++ s)) = "ldap:///" ++ s /\
  mk ("ldap:///" ++ s) = mk s.
Proof.
  intros mk kw bad s H Hs Hp.
  assert (E : forall k, newDistinguishedName s k = MkDN k (Some s)).
  { intros k. unfold newDistinguishedName. rewrite (proj2 (len0f s) Hs). unfold chopDNPfx, LocalScheme. now rewrite Hp. }
  assert (E' : forall k, newDistinguishedName ("ldap:///" ++ s) k = MkDN k (Some s)).
  { intros k. unfold newDistinguishedName. change ("ldap:///" ++ s) with (LocalScheme ++ s). rewrite chop_scheme. reflexivity. }
  unfold dn_makers in H. cbn [In] in H. repeat destruct H as [H|H]; try contradiction; injection H as <- <-;
  unfold UDN, RDN, GDN, TDN, TTDN, TFDN; rewrite E, E'; repeat split.
Qed.
Theorem C26_rebuild : forall mk kw bad s, In (mk, kw) dn_makers -> s <> "" ->
  mk (dn_string bad (mk s)) = mk s /\ dn_isZero (mk s) = false /\
  (exists d, mk s = Some d /\ dn_kw d = kw).
Proof.
  intros mk kw bad s H Hs.
  assert (E : forall k, newDistinguishedName s k = MkDN k (Some (chopDNPfx s))).
  { intros k. unfold newDistinguishedName. now rewrite (proj2 (len0f s) Hs). }
  assert (E' : forall k, newDistinguishedName (LocalScheme ++ chopDNPfx s) k = MkDN k (Some (chopDNPfx s))).
  { intros k. unfold newDistinguishedName. rewrite chop_scheme. reflexivity. }
  unfold dn_makers in H. cbn [In] in H. repeat destruct H as [H|H]; try contradiction; injection H as <- <-;
  unfold UDN, RDN, GDN, TDN, TTDN, TFDN; rewrite E; cbn [dn_string]; rewrite E'; repeat split; eauto.
Qed.
Theorem C26_empty : forall mk kw bad, In (mk, kw) dn_makers -> dn_isZero (mk "") = true /\ dn_string bad (mk "") = bad.
Proof.
  intros mk kw bad H. unfold dn_makers in H. cbn [In] in H.
  repeat destruct H as [H|H]; try contradiction; injection H as <- <-; split; reflexivity.
Qed.
(* Set with a non-empty text is the constructor of the keyword; with an empty
   text it leaves a non-zero name alone *)
Theorem C26_set : forall r s ks, s <> "" ->
  bdn_set r s ks = match ks with 2%N :: _ => RDN s | 3%N :: _ => GDN s | _ => UDN s end /\
  tdn_set r s ks = match ks with 2%N :: _ => TTDN s | 5%N :: _ => TFDN s | _ => TDN s end.
Proof.
  intros r s ks Hs. unfold bdn_set, tdn_set, dname_set. rewrite (proj2 (len0f s) Hs). split.
  - destruct ks as [|k ks]; [reflexivity|].
    destruct (N.eqb_spec k BindGDN) as [->|N1]; [reflexivity|].
    destruct (N.eqb_spec k BindRDN) as [->|N2]; [reflexivity|]. cbn [orb].
    unfold BindGDN, BindRDN in *. destruct k as [|[[p|p|]|[p|p|]|]]; try reflexivity; exfalso; auto.
  - destruct ks as [|k ks]; [reflexivity|].
    destruct (N.eqb_spec k TargetTo) as [->|N1]; [reflexivity|].
    destruct (N.eqb_spec k TargetFrom) as [->|N2]; [reflexivity|]. cbn [orb].
    unfold TargetTo, TargetFrom in *. destruct k as [|[[[p|p|]|[p|p|]|]|[p|p|]|]]; try reflexivity; exfalso; auto.
Qed.
Theorem C26_set_empty : forall r ks, dn_isZero r = false -> bdn_set r "" ks = r /\ tdn_set r "" ks = r.
Proof. intros [[k [s|]]|] ks H; try discriminate. split; reflexivity. Qed.
Print Assumptions C26_prefix.
Print Assumptions C26_rebuild.
Print Assumptions C26_empty.
Print Assumptions C26_set.
Print Assumptions C26_set_empty.
Example C26_witness : dn_string badBDN (GDN "cn=x,dc=y") = "ldap:///cn=x,dc=y" /\
  dn_string badBDN (GDN "ldap:///ldap:///cn=x") = "ldap:///ldap:///cn=x".
Proof. split; reflexivity. Qed.

(* ---- C27 ---- *)
(* For any equality [eqf] in the place of case folding, any text for an invalid
   name, with (bind) or without (target) URIs. *)
Theorem C27_distinct : forall eqf bad uris kw init h,
  let l := dn_run eqf bad uris kw init h in
  distinct_by (fun x y => eqf (dmember_string bad x) (dmember_string bad y)) l.
Proof. intros. apply (dn_run_inv eqf bad uris kw init h). Qed.
Theorem C27_distinct_pairs : forall eqf bad uris kw init h i j x y,
  (forall a b, eqf a b = eqf b a) ->
  let l := dn_run eqf bad uris kw init h in
  nth_error l i = Some x -> nth_error l j = Some y -> i <> j ->
  eqf (dmember_string bad x) (dmember_string bad y) = false.
Proof.
  intros eqf bad uris kw init h i j x y S l Hi Hj N. assert (D := C27_distinct eqf bad uris kw init h). fold l in D.
  destruct (Nat.lt_ge_cases i j) as [L|L].
  - exact (fop_pairs _ l D i j x y Hi Hj L).
  - rewrite S. exact (fop_pairs _ l D j i y x Hj Hi ltac:(lia)).
Qed.
Theorem C27_keyword : forall eqf bad uris kw init h m,
  In m (dn_run eqf bad uris kw init h) ->
  match m with
  | MDN d => exists s, d = Some (MkDN kw (Some s))
  | MURI _ => uris = true
  end.
Proof.
  intros eqf bad uris kw init h m H.
  destruct (proj2 (dn_run_inv eqf bad uris kw init h) m H) as [[s ->]|[U [t ->]]]; eauto.
Qed.
(* one push, exactly: appended if its text is new, otherwise nothing changes *)
Theorem C27_push : forall eqf bad uris kw l s, s <> "" ->
  let m := MDN (Some (MkDN kw (Some (chopDNPfx s)))) in
  ((forall y, In y l -> eqf (dmember_string bad y) ("ldap:///" ++ chopDNPfx s) = false) ->
     dn_push eqf bad uris kw l [DStr s] = (l ++ [m])%list /\
     dn_push eqf bad uris kw l [DDN (Some (MkDN kw (Some (chopDNPfx s))))] = (l ++ [m])%list) /\
  ((exists y, In y l /\ eqf (dmember_string bad y) ("ldap:///" ++ chopDNPfx s) = true) ->
     dn_push eqf bad uris kw l [DStr s] = l /\
     dn_push eqf bad uris kw l [DDN (Some (MkDN kw (Some (chopDNPfx s))))] = l).
Proof.
  intros eqf bad uris kw l s Hs m.
  assert (P : forall l', push1 (dn_policy eqf bad) l' m = if existsb (fun y => eqf (dmember_string bad y) ("ldap:///" ++ chopDNPfx s)) l' then l' else (l' ++ [m])%list).
  { intros l'. unfold push1, dn_policy, dn_contains. change (dmember_string bad m) with ("ldap:///" ++ chopDNPfx s). now destruct (existsb _ l'). }
  assert (E1 : dn_push eqf bad uris kw l [DStr s] = push1 (dn_policy eqf bad) l m).
  { cbn [dn_push push_cast]. replace (0 <? String.length s)%nat with true by (destruct s; [easy|reflexivity]).
    unfold newDistinguishedName. now rewrite (proj2 (len0f s) Hs). }
  assert (E2 : dn_push eqf bad uris kw l [DDN (Some (MkDN kw (Some (chopDNPfx s))))] = push1 (dn_policy eqf bad) l m).
  { cbn [dn_push push_cast]. cbn [dn_isZero negb andb dn_kw]. now rewrite N.eqb_refl. }
  rewrite E1, E2, P. split.
  - intros H. rewrite (proj2 (existsb_false _ l) H). split; reflexivity.
  - intros (y & Hy & H). replace (existsb _ l) with true by (symmetry; apply existsb_exists; eauto). split; reflexivity.
Qed.
Theorem C27_foreign_keyword : forall eqf bad uris kw l d, dn_isZero (Some d) = true \/ dn_kw d <> kw ->
  dn_push eqf bad uris kw l [DDN (Some d)] = l.
Proof.
  intros eqf bad uris kw l d H. cbn [dn_push push_cast]. destruct (negb (dn_isZero (Some d)) && (dn_kw d =? kw)%N)%bool eqn:E; [|easy].
  apply andb_true_iff in E as [E1 E2]. apply negb_true_iff in E1. apply N.eqb_eq in E2. destruct H; congruence.
Qed.
Print Assumptions C27_distinct.
Print Assumptions C27_distinct_pairs.
Print Assumptions C27_keyword.
Print Assumptions C27_push.
Print Assumptions C27_foreign_keyword.
Example C27_witness :
  dn_run eqfold badBDN true BindUDN [DStr "cn=a"; DDN (UDN "ldap:///CN=A")]
    [DPush [DStr "ldap:///cn=b"; DURI "ldap:///x??sub?"; DDN (GDN "cn=g"); DStr "cn=c"]; DPush [DStr "cn=d"]; DPop]
  = [MDN (UDN "cn=a"); MDN (UDN "cn=b"); MURI "ldap:///x??sub?"].
Proof. vm_compute. reflexivity. Qed.

(* ---- C28 ---- *)
(* False: a text without = that is no alias is accepted. *)
Definition dn_like (s : string) : Prop := contains_byte "=" s \/ exists a, In a aliases /\ eqfold s a = true.
Theorem C28_rejected_refuted :
  ~ (forall key v l, assertTargetTFDN eqfold badTDN false key [v] = Some l -> dn_like v) /\
  ~ (forall p key v l, assertBindUGRDN eqfold badBDN true p key [v] = Some l -> dn_like v).
Proof.
  assert (N : ~ dn_like "nobody").
  { intros [H|(a & H & E)].
    - cbn in H. repeat destruct H as [H|H]; try discriminate; contradiction.
    - cbn in H. repeat destruct H as [<-|H]; try discriminate; contradiction. }
  split; intros H; apply N.
  - exact (H Target "nobody" _ eq_refl).
  - exact (H (fun _ => None) BindUDN "nobody" _ eq_refl).
Qed.
(* Exactly: a target rule text is accepted when every value, without its prefix,
   has 3 bytes or more and either has a = or is not a prefixed alias. *)
Definition dn_accepted (s : string) : Prop :=
  (3 <= String.length s)%nat /\
  (contains_byte "=" s \/ forall a, In a aliases -> eqfold s ("ldap:///" ++ a) = false).
Lemma syntax_iff s : isInvalidDNSyntax eqfold s = false <-> dn_accepted s.
Proof.
  unfold isInvalidDNSyntax, dn_accepted, contains_byte. rewrite orb_false_iff, Nat.ltb_ge, negb_false_iff, orb_true_iff.
  change (scontains "=" s) with (scontains (String "=" "") s). rewrite contains1, negb_true_iff.
  unfold isDNAlias. change ["all"; "anyone"; "self"; "parent"] with aliases. rewrite existsb_false.
  assert (E : forall a, In a aliases -> dn_string badBDN (UDN a) = "ldap:///" ++ a).
  { intros a Ha. unfold aliases in Ha. cbn [In] in Ha. repeat destruct Ha as [<-|Ha]; try contradiction; reflexivity. }
  split; intros [L [H|H]]; (split; [exact L|]); [now left|right|now left|right]; intros a Ha; specialize (H a Ha);
  rewrite E in *; auto.
Qed.
Theorem C28_exact_target : forall key vals,
  (exists l, assertTargetTFDN eqfold badTDN false key vals = Some l) <->
  vals <> [] /\ forall v, In v vals -> dn_accepted (chopDNPfx (condenseWHSP v)).
Proof.
  intros key vals. unfold assertTargetTFDN.
  assert (S : forall vs l, snd (tdn_setExpressionValues eqfold badTDN false key l vs) = true <-> forall v, In v vs -> dn_accepted (chopDNPfx (condenseWHSP v))).
  { induction vs as [|v vs IH]; intros l; cbn [tdn_setExpressionValues]; [easy|].
    destruct (isInvalidDNSyntax eqfold (chopDNPfx (condenseWHSP v))) eqn:E.
    - split; [discriminate|]. intros H. specialize (H v (or_introl eq_refl)). apply syntax_iff in H. congruence.
    - rewrite IH. apply syntax_iff in E. split.
      + intros H w [<-|Hw]; auto.
      + intros H w Hw. apply H. now right. }
  destruct vals as [|v vals].
  - split; [intros [l H]; discriminate|now intros [H _]].
  - rewrite <- (S (v :: vals) []). destruct (tdn_setExpressionValues _ _ _ _ _ _) as [l ok]. cbn [snd].
    destruct ok; split; try (intros [? H]; discriminate); intros _; eauto. now split.
Qed.
Definition bind_value_ok (parse_uri : string -> option string) (v : string) : Prop :=
  if (has_prefix "ldap:///" v && scontains "?" v)%bool then parse_uri v <> None
  else dn_accepted (chopDNPfx (condenseWHSP v)) /\ ~ contains_byte "?" (chopDNPfx (condenseWHSP v)).
Theorem C28_exact_bind : forall parse_uri key v0 vals,
  (exists l, assertBindUGRDN eqfold badBDN true parse_uri key (v0 :: vals) = Some l) <->
  (3 <= String.length (unquote (condenseWHSP v0)))%nat /\ forall v, In v (v0 :: vals) -> bind_value_ok parse_uri v.
Proof.
  intros pu key v0 vals. unfold assertBindUGRDN.
  assert (S : forall vs l, snd (bdn_setExpressionValues eqfold badBDN true pu key l vs) = true <-> forall v, In v vs -> bind_value_ok pu v).
  { induction vs as [|v vs IH]; intros l; cbn [bdn_setExpressionValues]; [easy|].
    assert (X : forall l', bind_value_ok pu v -> (snd (bdn_setExpressionValues eqfold badBDN true pu key l' vs) = true <-> forall w, In w (v :: vs) -> bind_value_ok pu w)).
    { intros l' Hv. rewrite IH. split; [intros H w [<-|Hw]; auto|intros H w Hw; apply H; now right]. }
    assert (Y : forall l' : list dmember, ~ bind_value_ok pu v -> (snd (l', false) = true <-> forall w, In w (v :: vs) -> bind_value_ok pu w)).
    { intros l' Hv. split; [discriminate|]. intros H. destruct Hv. apply H. now left. }
    change LocalScheme with "ldap:///".
    destruct (has_prefix "ldap:///" v && scontains "?" v)%bool eqn:U.
    - destruct (pu v) eqn:P; [apply X|apply Y]; unfold bind_value_ok; rewrite U, P; [discriminate|now intros H].
    - destruct (negb (isInvalidDNSyntax eqfold (chopDNPfx (condenseWHSP v))) && negb (scontains "?" (chopDNPfx (condenseWHSP v))))%bool eqn:P;
      [apply X|apply Y]; unfold bind_value_ok; rewrite U, <- syntax_iff; unfold contains_byte; rewrite <- contains1.
      + apply andb_true_iff in P as [P1 P2]. rewrite negb_true_iff in P1, P2. split; congruence.
      + intros [H1 H2]. rewrite H1 in P. cbn in P. destruct (scontains _ _) eqn:Q in P; [auto|discriminate]. }
  rewrite <- (S (v0 :: vals) []). destruct (Nat.ltb_spec (String.length (unquote (condenseWHSP v0))) 3) as [L|L].
  - split; [intros [l H]; discriminate|lia].
  - destruct (bdn_setExpressionValues _ _ _ _ _ _ _) as [l ok]. cbn [snd].
    destruct ok; split; try (intros [? H]; discriminate); intros; eauto; intuition discriminate.
Qed.
Print Assumptions C28_rejected_refuted.
Print Assumptions C28_exact_target.
Print Assumptions C28_exact_bind.
Example C28_witness :
  (exists l, assertBindUGRDN eqfold badBDN true (fun _ => None) BindGDN ["ldap:///cn=a"; "cn=b"] = Some l) /\
  assertBindUGRDN eqfold badBDN true (fun _ => None) BindGDN ["cn=a"; "xy"] = None /\
  assertTargetTFDN eqfold badTDN false Target ["ldap:///ldap:///SELF"] = None.
Proof. repeat split; try (eexists; reflexivity). Qed.

(* ---- C29 ---- *)
(* What the caller may push: any text, and identifiers made by OID, Ctrl, ExtOp
   or the zero value; not bare keywords (see C29_keyword_refuted). *)
Definition made (dotnot : string -> option string) (o : option oid) : Prop :=
  o = None \/ exists kw s, o = mkOID dotnot kw s.
Definition pushable (dotnot : string -> option string) (x : oarg) : Prop :=
  match x with OStr _ => True | OOID o => made dotnot o | OKey _ => False | OOtherArg => True end.
Definition pushable_call dotnot (c : ocall) : Prop :=
  match c with OPush xs => forall x, In x xs -> pushable dotnot x | OPop => True end.
Lemma pushable_ok dotnot x : pushable dotnot x -> oarg_ok dotnot x.
Proof.
  destruct x as [s|o|k|]; cbn; try easy. intros [->|(kw & s & ->)]; [easy|]. apply mkOID_ok.
Qed.
Theorem C29_members : forall eqf dotnot kw init h,
  (forall s t, dotnot s = Some t -> t <> "" /\ t <> badDotNot) ->
  In kw [TargetExtOp; TargetCtrl] ->
  (forall x, In x init -> pushable dotnot x) -> (forall c, In c h -> pushable_call dotnot c) ->
  let r := oid_run eqf dotnot kw init h in
  ol_kw r = kw /\
  (forall m, In m (ol_mem r) -> exists s t, dotnot s = Some t /\ m = OOid (Some (MkOID kw (Some t)))) /\
  distinct_by (fun x y => eqf (omember_string x) (omember_string y)) (ol_mem r).
Proof.
  intros eqf dotnot kw init h DT K Hi Hh.
  destruct (orun_inv eqf dotnot DT kw init h) as (A & B & C); [| | |now repeat split].
  - destruct K as [<-|[<-|[]]]; discriminate.
  - intros x Hx. now apply pushable_ok, Hi.
  - intros c x Hc Hx. apply pushable_ok. specialize (Hh c Hc). destruct c; [now apply Hh|destruct Hx].
Qed.
(* one string, exactly *)
Theorem C29_push : forall eqf dotnot kw mem s,
  (forall s t, dotnot s = Some t -> t <> "" /\ t <> badDotNot) ->
  In kw [TargetExtOp; TargetCtrl] ->
  oid_push eqf dotnot (MkOL kw mem) [OStr s] =
  match dotnot s with
  | None => MkOL kw mem
  | Some t => if existsb (fun y => eqf (omember_string y) t) mem then MkOL kw mem
              else MkOL kw (mem ++ [OOid (Some (MkOID kw (Some t)))])
  end.
Proof.
  intros eqf dotnot kw mem s DT K.
  assert (K' : (kw =? 0)%N = false) by (destruct K as [<-|[<-|[]]]; reflexivity).
  assert (K2 : (if (kw =? TargetExtOp)%N then TargetExtOp else TargetCtrl) = kw) by (destruct K as [<-|[<-|[]]]; reflexivity).
  unfold oid_push. cbn [fold_left oid_push1 ol_kw ol_mem]. rewrite K2. unfold push1, mkOID, newObjectID.
  destruct (dotnot s) as [t|] eqn:E.
  - unfold oid_policy. cbn [oid_valid oid_kw]. rewrite K', N.eqb_refl. cbn [negb andb].
    assert (C : oid_contains eqf mem (OOid (Some (MkOID kw (Some t)))) = existsb (fun y => eqf (omember_string y) t) mem).
    { destruct (DT s t E) as [D1 D2]. destruct mem as [|m mem]; [reflexivity|]. unfold oid_contains. cbn [oid_string]. rewrite K'.
      rewrite (proj2 (len0f t) D1), (proj2 (String.eqb_neq _ _) D2). reflexivity. }
    rewrite C. now destruct (existsb _ mem).
  - unfold oid_policy. destruct (oid_contains _ _ _); reflexivity.
Qed.
(* False when a bare TargetKeyword is pushed: it becomes a member. *)
Theorem C29_keyword_refuted : forall eqf dotnot,
  ~ (forall kw init h, In kw [TargetExtOp; TargetCtrl] ->
     forall m, In m (ol_mem (oid_run eqf dotnot kw init h)) -> exists s t, dotnot s = Some t /\ m = OOid (Some (MkOID kw (Some t)))).
Proof.
  intros eqf dotnot H. destruct (H TargetExtOp [OKey TargetAttr] [] (or_introl eq_refl) (OKw TargetAttr)) as (s & t & _ & E).
  - now left.
  - discriminate.
Qed.
(* Exactly, one argument on any list of either keyword: an identifier is appended when
   it has a text, the list's keyword, and no member has its text; a keyword is always
   appended, and the two keywords of such lists also take over an empty list. *)
Theorem C29_exact : forall eqf dotnot kw mem, In kw [TargetExtOp; TargetCtrl] ->
  (forall t, t <> "" -> t <> badDotNot -> forall k,
     oid_push eqf dotnot (MkOL kw mem) [OOID (Some (MkOID k (Some t)))] =
     if ((k =? kw)%N && negb (existsb (fun y => eqf (omember_string y) t) mem))%bool
     then MkOL kw (mem ++ [OOid (Some (MkOID k (Some t)))]) else MkOL kw mem) /\
  (forall o, oid_valid o = false -> oid_push eqf dotnot (MkOL kw mem) [OOID o] = MkOL kw mem) /\
  (forall k, oid_push eqf dotnot (MkOL kw mem) [OKey k] =
     MkOL (match mem with [] => if (k =? TargetExtOp)%N then TargetExtOp else if (k =? TargetCtrl)%N then TargetCtrl else kw | _ => kw end)
          (mem ++ [OKw k])) /\
  oid_push eqf dotnot (MkOL kw mem) [OOtherArg] = MkOL kw mem.
Proof.
  intros eqf dotnot kw mem K.
  assert (K' : (kw =? 0)%N = false) by (destruct K as [<-|[<-|[]]]; reflexivity).
  split; [|split; [|split; [|reflexivity]]].
  - intros t T1 T2 k. unfold oid_push. cbn [fold_left oid_push1 ol_kw ol_mem]. unfold push1, oid_policy. cbn [oid_valid oid_kw].
    destruct (N.eqb_spec k kw) as [-> |N].
    + assert (C : oid_contains eqf mem (OOid (Some (MkOID kw (Some t)))) = existsb (fun y => eqf (omember_string y) t) mem).
      { destruct mem as [|m mem]; [reflexivity|]. unfold oid_contains. cbn [oid_string]. rewrite K'.
        rewrite (proj2 (len0f t) T1), (proj2 (String.eqb_neq _ _) T2). reflexivity. }
      rewrite C, K'. cbn [negb andb]. now destruct (existsb _ mem).
    + cbn [andb]. destruct (oid_contains _ _ _); [reflexivity|]. now rewrite andb_false_r.
  - intros o V. unfold oid_push. cbn [fold_left oid_push1 ol_kw ol_mem]. unfold push1, oid_policy. rewrite V. now destruct (oid_contains _ _ _).
  - intros k. unfold oid_push. cbn [fold_left oid_push1 ol_kw ol_mem]. unfold push1, oid_policy.
    assert (C : oid_contains eqf mem (OKw k) = false) by (destruct mem; reflexivity). rewrite C. f_equal.
    destruct mem as [|m mem]; [|now rewrite andb_false_r]. cbn [List.length Nat.eqb]. rewrite andb_true_r.
    destruct (N.eqb_spec k TargetExtOp) as [-> |]; [reflexivity|]. destruct (N.eqb_spec k TargetCtrl) as [-> |]; reflexivity.
Qed.
Print Assumptions C29_exact.
Print Assumptions C29_members.
Print Assumptions C29_push.
Print Assumptions C29_keyword_refuted.
Definition toy_dot (s : string) : option string := if has_prefix "1." s then Some s else None.
Example C29_witness :
  (forall s t, toy_dot s = Some t -> t <> "" /\ t <> badDotNot) /\
  ol_mem (oid_run eqfold toy_dot TargetCtrl [OStr "1.2"; OStr "x"; OStr "1.2"]
    [OPush [OOID (mkOID toy_dot TargetExtOp "1.7"); OStr "1.3"]; OPush [OStr "1.4"]; OPop])
  = [OOid (mkOID toy_dot TargetCtrl "1.2"); OOid (mkOID toy_dot TargetCtrl "1.3")].
Proof.
  split; [|reflexivity]. intros s t. unfold toy_dot. destruct (has_prefix "1." s) eqn:E; [|discriminate]. intros H. injection H as <-.
  split; intros ->; discriminate.
Qed.

(* ---- C30 ---- *)
(* False for every validator with a good and a bad text: the good one followed by
   the bad one is accepted with one member. *)
Theorem C30_all_values_refuted : forall eqf dotnot good t bad,
  (forall s t, dotnot s = Some t -> t <> "" /\ t <> badDotNot) ->
  dotnot good = Some t -> dotnot bad = None ->
  ~ (forall key vals r, In key [TargetExtOp; TargetCtrl] -> assertTargetOID eqf dotnot key vals = Some r ->
       List.length (ol_mem r) = List.length vals).
Proof.
  intros eqf dotnot good t bad DT G B H.
  assert (K : TargetCtrl <> 0%N) by discriminate.
  assert (S := set_values_spec eqf dotnot DT TargetCtrl [good; bad] K []). cbn zeta in S. cbn [map] in S.
  cbn [good_prefix] in S. rewrite G, B in S. cbn [firsts_by existsb app map] in S.
  specialize (H TargetCtrl [good; bad] (MkOL TargetCtrl [OOid (Some (MkOID TargetCtrl (Some t)))]) (or_intror (or_introl eq_refl))).
  unfold assertTargetOID in H. cbn [N.eqb Pos.eqb TargetCtrl TargetExtOp] in H, S. rewrite S in H. specialize (H eq_refl). discriminate.
Qed.
(* Exactly: the values before the first bad one, repeats left out; an error only
   when the first value is bad. *)
Theorem C30_exact : forall eqf dotnot key v vals,
  (forall s t, dotnot s = Some t -> t <> "" /\ t <> badDotNot) ->
  In key [TargetExtOp; TargetCtrl] ->
  assertTargetOID eqf dotnot key (v :: vals) =
  match dotnot v with
  | None => None
  | Some _ => Some (MkOL key (map (fun t => OOid (Some (MkOID key (Some t)))) (firsts_by eqf (good_prefix dotnot (v :: vals)) [])))
  end.
Proof.
  intros eqf dotnot key v vals DT K.
  assert (K0 : key <> 0%N) by (destruct K as [<-|[<-|[]]]; discriminate).
  assert (K2 : (if (key =? TargetExtOp)%N then TargetExtOp else TargetCtrl) = key) by (destruct K as [<-|[<-|[]]]; reflexivity).
  assert (S := set_values_spec eqf dotnot DT key (v :: vals) K0 []). cbn zeta in S. cbn [map app] in S.
  unfold assertTargetOID. rewrite K2, S. cbn [ol_mem good_prefix]. destruct (dotnot v); reflexivity.
Qed.
(* so a rule with good, different values holds them all in order *)
Theorem C30_good_values : forall eqf dotnot key vals ts,
  (forall s t, dotnot s = Some t -> t <> "" /\ t <> badDotNot) ->
  In key [TargetExtOp; TargetCtrl] -> vals <> [] ->
  Forall2 (fun v t => dotnot v = Some t) vals ts -> distinct_by eqf ts ->
  assertTargetOID eqf dotnot key vals = Some (MkOL key (map (fun t => OOid (Some (MkOID key (Some t)))) ts)).
Proof.
  intros eqf dotnot key vals ts DT K NE F D. destruct vals as [|v vals]; [easy|]. rewrite C30_exact by easy.
  assert (G : good_prefix dotnot (v :: vals) = ts).
  { clear -F. induction F as [|a b l m H F IH]; [reflexivity|]. cbn [good_prefix]. now rewrite H, IH. }
  rewrite G. inversion F as [|a b ? ? H]; subst. rewrite H. f_equal. f_equal. f_equal.
  assert (X : forall l seen, distinct_by eqf (seen ++ l)%list -> firsts_by eqf l seen = l).
  { induction l as [|x l IH]; intros seen Dl; [reflexivity|]. cbn [firsts_by].
    replace (existsb (fun y => eqf y x) seen) with false.
    - f_equal. apply IH. now rewrite <- app_assoc.
    - symmetry. apply existsb_false. intros y Hy. clear IH. unfold distinct_by in Dl. induction seen as [|z seen IHs]; [destruct Hy|].
      cbn in Dl. inversion Dl as [|? ? F1 F2]; subst. destruct Hy as [->|Hy]; [|auto].
      rewrite Forall_forall in F1. apply F1, in_app_iff. right. now left. }
  apply (X _ []). rewrite H3. exact D.
Qed.
Print Assumptions C30_all_values_refuted.
Print Assumptions C30_exact.
Print Assumptions C30_good_values.
Example C30_witness : assertTargetOID eqfold toy_dot TargetExtOp ["1.2"; "1.3"; "junk"; "1.4"]
  = Some (MkOL TargetExtOp [OOid (mkOID toy_dot TargetExtOp "1.2"); OOid (mkOID toy_dot TargetExtOp "1.3")]).
Proof. reflexivity. Qed.

(* ---- C31 ---- *)
Lemma at_nonzero s : at_isZero (AT s) = false -> attr_name s.
Proof. destruct (AT_iff s) as [[E A]|[E A]]; rewrite E; [easy|discriminate]. Qed.
Theorem C31_all_attributes_refuted :
  ~ (forall vals l, assertTargetAttributes vals = Some l -> map at_string l = vals).
Proof. intros H. specialize (H ["cn"; "sn"] _ eq_refl). discriminate. Qed.
(* Exactly: only the first value is read; it is put in the list once per value. *)
Theorem C31_exact : forall v vals,
  let first := unquote (condenseWHSP v) in
  (attr_name first -> exists a, at_string a = first /\ assertTargetAttributes (v :: vals) = Some (repeat a (S (List.length vals)))) /\
  (~ attr_name first -> assertTargetAttributes (v :: vals) = None).
Proof.
  intros v vals first.
  assert (L : forall vs ex, attr_name first -> ta_loop v vs ex = Some (ex ++ repeat (AT first) (List.length vs))%list).
  { induction vs as [|w vs IH]; intros ex A; cbn [ta_loop]; [now rewrite app_nil_r|].
    fold first. rewrite (proj2 (len0f first)) by now apply attr_name_nonempty.
    assert (Z : at_isZero (AT first) = false) by (rewrite (AT_name _ A); apply len0f; now apply attr_name_nonempty).
    rewrite Z. cbn [List.length repeat]. rewrite IH by exact A.
    unfold at_push. cbn [fold_left at_push1]. unfold push1. rewrite (at_policy_name _ first eq_refl), Z. cbn [negb].
    now rewrite <- app_assoc. }
  split.
  - intros A. exists (AT first). split; [now rewrite AT_name|]. unfold assertTargetAttributes. rewrite L by exact A. reflexivity.
  - intros A. unfold assertTargetAttributes. cbn [ta_loop]. fold first. destruct (String.length first =? 0)%nat; [reflexivity|].
    destruct (at_isZero (AT first)) eqn:Z; [reflexivity|]. apply at_nonzero in Z. now destruct A.
Qed.
Theorem C31_single_partial : forall v, attr_name (unquote (condenseWHSP v)) ->
  exists a, at_string a = unquote (condenseWHSP v) /\ assertTargetAttributes [v] = Some [a].
Proof. intros v A. exact (proj1 (C31_exact v []) A). Qed.
Print Assumptions C31_all_attributes_refuted.
Print Assumptions C31_exact.
Print Assumptions C31_single_partial.

(* ---- C32 ---- *)
Theorem C32_distinct_refuted :
  ~ (forall init h, distinct_by (fun x y => eqfold (at_string x) (at_string y)) (at_run init h)).
Proof.
  intros H. specialize (H [] [APush [AStr "cn"; AStr "CN"]]). vm_compute in H. inversion H as [|? ? F _]. inversion F. discriminate.
Qed.
(* Exactly: a push adds the attribute names among its arguments, in order. *)
Definition offered (x : aarg) : option attype :=
  match x with AStr s => Some (AT s) | AType a => Some a | AOther => None end.
Definition kept (x : aarg) : list attype :=
  match offered x with Some a => if at_isZero a then [] else [a] | None => [] end.
Theorem C32_push_exact : forall l xs, at_push l xs = (l ++ flat_map kept xs)%list.
Proof.
  intros l xs. revert l. unfold at_push. induction xs as [|x xs IH]; intros l; cbn [fold_left flat_map]; [now rewrite app_nil_r|].
  rewrite IH, app_assoc. f_equal. destruct x as [s|a|]; unfold kept; cbn [at_push1 offered]; unfold push1.
  - unfold at_pushPolicy, at_contains. destruct (at_isZero (AT s)); cbn [negb]; [now rewrite app_nil_r|reflexivity].
  - unfold at_pushPolicy, at_contains. destruct (at_isZero a); cbn [negb]; [now rewrite app_nil_r|reflexivity].
  - now rewrite app_nil_r.
Qed.
Theorem C32_names_partial : forall init h a,
  let texts := (init ++ flat_map (fun c => match c with APush xs => xs | APop => [] end) h)%list in
  (forall x b, In x texts -> x = AType b -> at_isZero b = true \/ exists s, b = AT s) ->
  In a (at_run init h) -> attr_name (at_string a).
Proof.
  intros init h a texts M.
  assert (P : forall xs l, (forall x b, In x xs -> x = AType b -> at_isZero b = true \/ exists s, b = AT s) ->
    (forall b, In b l -> attr_name (at_string b)) -> forall b, In b (at_push l xs) -> attr_name (at_string b)).
  { intros xs l Mx Ml b Hb. rewrite C32_push_exact in Hb. apply in_app_iff in Hb as [Hb|Hb]; [auto|].
    apply in_flat_map in Hb as (x & Hx & Hb). unfold kept in Hb. destruct x as [s|c|]; cbn [offered] in Hb; try contradiction.
    - destruct (at_isZero (AT s)) eqn:Z; [destruct Hb|]. destruct Hb as [<-|[]]. apply at_nonzero in Z. now rewrite AT_name.
    - destruct (at_isZero c) eqn:Z; [destruct Hb|]. destruct Hb as [<-|[]]. destruct (Mx _ c Hx eq_refl) as [Z'|[s ->]]; [congruence|].
      apply at_nonzero in Z. now rewrite AT_name. }
  unfold at_run.
  assert (I : forall b, In b (at_push [] init) -> attr_name (at_string b)).
  { apply P; [|easy]. intros x b Hx. apply M. apply in_app_iff. now left. }
  assert (M2 : forall c, In c h -> forall x b, In x (match c with APush xs => xs | APop => [] end) -> x = AType b -> at_isZero b = true \/ exists s, b = AT s).
  { intros c Hc x b Hx. apply M. apply in_app_iff. right. apply in_flat_map. eauto. }
  clear M texts. revert I M2. generalize (at_push [] init). induction h as [|c h IH]; intros l I M2; cbn [fold_left]; [apply I|].
  apply IH; [|intros c' Hc'; apply M2; now right]. intros b Hb. specialize (M2 c (or_introl eq_refl)).
  destruct c as [xs|]; cbn [at_step] in Hb.
  - revert b Hb. now apply P.
  - apply I. now apply in_pop.
Qed.
Print Assumptions C32_distinct_refuted.
Print Assumptions C32_push_exact.
Print Assumptions C32_names_partial.
Example C32_witness : map at_string (at_run [AStr "cn"] [APush [AStr "9x"; AStr "sn"]; APush [AType (AT "cn")]; APush [AStr "mail"]; APop])
  = ["cn"; "sn"; "cn"].
Proof. reflexivity. Qed.
