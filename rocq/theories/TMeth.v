(* C71-C77: the rules values make of themselves and the tables of those methods. *)
From Coq Require Import String Ascii List PeanoNat NArith ZArith Bool Lia Permutation.
From Verif Require Import GoStr GoStrFacts Shifty MMisc MLists MAttr MLevels MSec MTime MNet MFilter MUri MRule MKw MMeth
  SKw PKw PRights SMeth PMeth.
Import ListNotations.
Open Scope string_scope.

(* ---- C71: the rule has the value's keyword, the method's operator and the
   value's text in double quotes; a value that is not valid gives the zero rule ---- *)
Theorem C71_address : forall pad,
  (forall x l, bind_says pad (ip_Eq pad (Some (x :: l))) IPAddr REq (join "," (x :: l)) /\
               bind_says pad (ip_Ne pad (Some (x :: l))) IPAddr RNe (join "," (x :: l))) /\
  (forall a, ipaddr_len a = O -> no_rule (ip_Eq pad a) /\ no_rule (ip_Ne pad a)).
Proof.
  intros pad. split; [intros x l|intros [[|? ?]|] H; try discriminate H; split; reflexivity].
  destruct pad; repeat split; reflexivity.
Qed.
Theorem C71_fqdn : forall pad f,
  (fqdn_valid f = true -> bind_says pad (fqdn_Eq pad f) DNSName REq (fqdn_string f) /\
                          bind_says pad (fqdn_Ne pad f) DNSName RNe (fqdn_string f)) /\
  (fqdn_valid f = false -> no_rule (fqdn_Eq pad f) /\ no_rule (fqdn_Ne pad f)).
Proof.
  intros pad f. unfold fqdn_Eq, fqdn_Ne. split; intros E; rewrite E; cbn [negb]; [|split; reflexivity].
  destruct pad; repeat split; reflexivity.
Qed.
Theorem C71_auth_method : forall low pad n,
  (n <> 0%N -> bind_says pad (am_Eq low pad n) AuthMethod REq (auth_string low n) /\
               bind_says pad (am_Ne low pad n) AuthMethod RNe (auth_string low n)) /\
  (n = 0%N -> no_rule (am_Eq low pad n) /\ no_rule (am_Ne low pad n)).
Proof.
  intros low pad n. unfold am_Eq, am_Ne, noAuth. split; intros E.
  - apply N.eqb_neq in E. rewrite E. destruct pad; repeat split; reflexivity.
  - subst n. split; reflexivity.
Qed.
(* the security strength factor has no invalid value: the uninitialised one is 0 *)
Theorem C71_strength_factor : forall pad s,
  bind_says pad (ssf_Eq pad s) StrengthFactor REq (ssf_string s) /\
  bind_says pad (ssf_Ne pad s) StrengthFactor RNe (ssf_string s) /\
  bind_says pad (ssf_Lt pad s) StrengthFactor RLt (ssf_string s) /\
  bind_says pad (ssf_Le pad s) StrengthFactor RLe (ssf_string s) /\
  bind_says pad (ssf_Gt pad s) StrengthFactor RGt (ssf_string s) /\
  bind_says pad (ssf_Ge pad s) StrengthFactor RGe (ssf_string s).
Proof. intros pad s. destruct pad; repeat split; reflexivity. Qed.
Theorem C71_day_of_week : forall sh pad d,
  (dow_valid sh d = true -> bind_says pad (dow_Eq sh pad d) DayOfWeek REq (dow_string sh d) /\
                            bind_says pad (dow_Ne sh pad d) DayOfWeek RNe (dow_string sh d)) /\
  (dow_valid sh d = false -> no_rule (dow_Eq sh pad d) /\ no_rule (dow_Ne sh pad d)).
Proof.
  intros sh pad d. unfold dow_Eq, dow_Ne. split; intros E; rewrite E; [|split; reflexivity].
  destruct pad; repeat split; reflexivity.
Qed.
Theorem C71_time_of_day : forall pad t,
  (t <> None ->
   bind_says pad (tod_Eq pad t) TimeOfDay REq (tod_string t) /\
   bind_says pad (tod_Ne pad t) TimeOfDay RNe (tod_string t) /\
   bind_says pad (tod_Lt pad t) TimeOfDay RLt (tod_string t) /\
   bind_says pad (tod_Le pad t) TimeOfDay RLe (tod_string t) /\
   bind_says pad (tod_Gt pad t) TimeOfDay RGt (tod_string t) /\
   bind_says pad (tod_Ge pad t) TimeOfDay RGe (tod_string t)) /\
  (t = None -> no_rule (tod_Eq pad t) /\ no_rule (tod_Ne pad t) /\ no_rule (tod_Lt pad t) /\
               no_rule (tod_Le pad t) /\ no_rule (tod_Gt pad t) /\ no_rule (tod_Ge pad t)).
Proof.
  intros pad t. split; intros E; [destruct t as [n|]; [|contradiction]|subst t; repeat split; reflexivity].
  destruct pad; repeat split; reflexivity.
Qed.
Theorem C71_bind_dn : forall pad d,
  (forall k t, In k [UserDN; RoleDN; GroupDN] -> d = Some (MkDN (bindkw_const k) (Some t)) ->
     bind_says pad (bdn_Eq pad d) k REq ("ldap:///" ++ t) /\
     bind_says pad (bdn_Ne pad d) k RNe ("ldap:///" ++ t)) /\
  (dn_isZero d = true -> no_rule (bdn_Eq pad d) /\ no_rule (bdn_Ne pad d)).
Proof.
  intros pad d. split.
  - intros k t [<-|[<-|[<-|[]]]] ->; destruct pad; repeat split; reflexivity.
  - intros E. unfold bdn_Eq, bdn_Ne, bdn_cond. rewrite E. split; reflexivity.
Qed.
(* what the constructors give *)
Theorem C71_bind_dn_made : forall pad x, x <> "" ->
  let t := "ldap:///" ++ chopDNPfx x in
  (bind_says pad (bdn_Eq pad (UDN x)) UserDN REq t /\ bind_says pad (bdn_Ne pad (UDN x)) UserDN RNe t) /\
  (bind_says pad (bdn_Eq pad (RDN x)) RoleDN REq t /\ bind_says pad (bdn_Ne pad (RDN x)) RoleDN RNe t) /\
  (bind_says pad (bdn_Eq pad (GDN x)) GroupDN REq t /\ bind_says pad (bdn_Ne pad (GDN x)) GroupDN RNe t).
Proof.
  intros pad x H t. destruct x as [|a x]; [contradiction|].
  split; [|split]; (apply C71_bind_dn; [cbn; tauto|reflexivity]).
Qed.
Theorem C71_target_dn : forall pad d,
  (forall k t, In k [TgTarget; TgTo; TgFrom] -> d = Some (MkDN (targetkw_const k) (Some t)) ->
     target_says pad (tdn_Eq pad d) k REq ("ldap:///" ++ t) /\
     target_says pad (tdn_Ne pad d) k RNe ("ldap:///" ++ t)) /\
  (dn_isZero d = true -> no_rule (tdn_Eq pad d) /\ no_rule (tdn_Ne pad d)).
Proof.
  intros pad d. split.
  - intros k t [<-|[<-|[<-|[]]]] ->; destruct pad; repeat split; reflexivity.
  - intros E. unfold tdn_Eq, tdn_Ne, tdn_cond. rewrite E. split; reflexivity.
Qed.
Theorem C71_target_dn_made : forall pad x, x <> "" ->
  let t := "ldap:///" ++ chopDNPfx x in
  (target_says pad (tdn_Eq pad (TDN x)) TgTarget REq t /\ target_says pad (tdn_Ne pad (TDN x)) TgTarget RNe t) /\
  (target_says pad (tdn_Eq pad (TTDN x)) TgTo REq t /\ target_says pad (tdn_Ne pad (TTDN x)) TgTo RNe t) /\
  (target_says pad (tdn_Eq pad (TFDN x)) TgFrom REq t /\ target_says pad (tdn_Ne pad (TFDN x)) TgFrom RNe t).
Proof.
  intros pad x H t. destruct x as [|a x]; [contradiction|].
  split; [|split]; (apply C71_target_dn; [cbn; tauto|reflexivity]).
Qed.
(* a list gives its members' texts joined by " || ", all in one pair of quotes *)
Theorem C71_bind_dns : forall pad,
  (forall k m, In k [UserDN; RoleDN; GroupDN] ->
     let l := Some (bindkw_const k, m) in
     bind_says pad (bdns_Eq pad l) k REq (alternatives (map (dmember_string badBDN) m)) /\
     bind_says pad (bdns_Ne pad l) k RNe (alternatives (map (dmember_string badBDN) m))) /\
  no_rule (bdns_Eq pad None) /\ no_rule (bdns_Ne pad None).
Proof.
  intros pad. split; [|split; reflexivity].
  intros k m [<-|[<-|[<-|[]]]] l; destruct pad; repeat split; reflexivity.
Qed.
Theorem C71_target_dns : forall pad,
  (forall k m, In k [TgTarget; TgTo; TgFrom] ->
     let l := Some (targetkw_const k, m) in
     target_says pad (tdns_Eq pad l) k REq (alternatives (map (dmember_string badTDN) m)) /\
     target_says pad (tdns_Ne pad l) k RNe (alternatives (map (dmember_string badTDN) m))) /\
  no_rule (tdns_Eq pad None) /\ no_rule (tdns_Ne pad None).
Proof.
  intros pad. split; [|split; reflexivity].
  intros k m [<-|[<-|[<-|[]]]] l; destruct pad; repeat split; reflexivity.
Qed.
Theorem C71_attribute_type : forall pad,
  (forall a, a <> "" -> target_says pad (at_Eq pad (Some a)) TgAttr REq a /\
                        target_says pad (at_Ne pad (Some a)) TgAttr RNe a) /\
  (forall a, at_isZero a = true -> no_rule (at_Eq pad a) /\ no_rule (at_Ne pad a)).
Proof.
  intros pad. split.
  - intros [|c a] H; [contradiction|]. destruct pad; repeat split; reflexivity.
  - intros a E. unfold at_Eq, at_Ne. rewrite E. split; reflexivity.
Qed.
Theorem C71_attribute_types : forall pad,
  (forall b m, target_says pad (ats_Eq pad (Some (b, m))) TgAttr REq (alternatives (map at_string m)) /\
               target_says pad (ats_Ne pad (Some (b, m))) TgAttr RNe (alternatives (map at_string m))) /\
  no_rule (ats_Eq pad None) /\ no_rule (ats_Ne pad None).
Proof.
  intros pad. split; [|split; reflexivity]. intros b m; destruct pad; repeat split; reflexivity.
Qed.
Theorem C71_object_identifier : forall pad o,
  (forall k t, In k [TgExtOp; TgCtrl] -> o = Some (MkOID (targetkw_const k) (Some t)) ->
     target_says pad (oid_Eq pad o) k REq t /\ target_says pad (oid_Ne pad o) k RNe t) /\
  (oid_valid o = false -> no_rule (oid_Eq pad o) /\ no_rule (oid_Ne pad o)).
Proof.
  intros pad o. split.
  - intros k t [<-|[<-|[]]] ->; destruct pad; repeat split; reflexivity.
  - intros E. unfold oid_Eq, oid_Ne. rewrite E. split; reflexivity.
Qed.
Theorem C71_object_identifiers : forall pad,
  (forall k m, In k [TgExtOp; TgCtrl] ->
     let l := Some (MkOL (targetkw_const k) m) in
     target_says pad (oids_Eq pad l) k REq (alternatives (map omember_text m)) /\
     target_says pad (oids_Ne pad l) k RNe (alternatives (map omember_text m))) /\
  no_rule (oids_Eq pad None) /\ no_rule (oids_Ne pad None).
Proof.
  intros pad. split; [|split; reflexivity].
  intros k m [<-|[<-|[]]] l; destruct pad; repeat split; reflexivity.
Qed.
Theorem C71_search_filter : forall pad,
  (forall f, f <> "" -> target_says pad (sf_Eq pad (Some f)) TgFilter REq f /\
                        target_says pad (sf_Ne pad (Some f)) TgFilter RNe f) /\
  (forall f, sf_isZero f = true -> no_rule (sf_Eq pad f) /\ no_rule (sf_Ne pad f)).
Proof.
  intros pad. split.
  - intros [|c f] H; [contradiction|]. destruct pad; repeat split; reflexivity.
  - intros f E. unfold sf_Eq, sf_Ne. rewrite E. split; reflexivity.
Qed.
(* the keyword targattrfilters admits no Ne: that method never gives a rule *)
Theorem C71_filter_operations : forall pad,
  (forall o, target_says pad (afo_Eq pad (Some o)) TgAttrFilters REq (afo_string o)) /\
  (forall o, target_says pad (afos_Eq pad (Some o)) TgAttrFilters REq (afos_string o)) /\
  no_rule (afo_Eq pad None) /\ no_rule (afos_Eq pad None) /\
  (forall o, no_rule (afo_Ne o)) /\ (forall o, no_rule (afos_Ne o)).
Proof. intros pad. repeat split; destruct pad; reflexivity. Qed.
Theorem C71_scope : forall pad n,
  (n <> 0%N -> target_says pad (scope_Eq pad n) TgScope REq (scope_string n)) /\
  (n = 0%N -> no_rule (scope_Eq pad n)) /\ no_rule (scope_Ne n).
Proof.
  intros pad n. unfold scope_Eq, scope_Ne, noScope. split; [|split; [intros ->|]; reflexivity].
  intros E. apply N.eqb_neq in E. rewrite E. destruct pad; repeat split; reflexivity.
Qed.
Theorem C71_inheritance : forall sh pad fmt i,
  (forall k lv p, In k [UserAttr; GroupAttr] -> i = Some (MkInh lv (MkABTV (bindkw_const k) (Some p))) ->
     bind_says pad (inh_Eq sh pad fmt i) k REq (inh_string sh fmt i) /\
     bind_says pad (inh_Ne sh pad fmt i) k RNe (inh_string sh fmt i)) /\
  (inh_isZero i = true -> no_rule (inh_Eq sh pad fmt i) /\ no_rule (inh_Ne sh pad fmt i)).
Proof.
  intros sh pad fmt i. split.
  - intros k lv p [<-|[<-|[]]] ->; destruct pad; repeat split; reflexivity.
  - intros E. unfold inh_Eq, inh_Ne, inh_valid. rewrite E. destruct i; split; reflexivity.
Qed.
Example C71_witness :
  br_string (ip_Eq true (IP ["10.1.*"; "192.168.0.1"])) = "ip = ""10.1.*,192.168.0.1""" /\
  br_string (tod_Ge false (ToD [TStr "1700"])) = "timeofday>=""1700""" /\
  tr_string (tdns_Ne true (Some (TargetTo, [MDN (TTDN "ou=a"); MDN (TTDN "ou=b")]))) =
    "( target_to != ""ldap:///ou=a || ldap:///ou=b"" )" /\
  tr_string (oids_Eq false (Some (MkOL TargetCtrl [OOid (Some (MkOID TargetCtrl (Some "1.3.6")))]))) = "(targetcontrol=""1.3.6"")".
Proof. repeat split; reflexivity. Qed.

(* ---- C72: attr#value pairs ---- *)
(* False: a pair that was filled by Set on an uninitialised value says it belongs to
   userattr (Keyword), but its rules do not, and its Ne has no operator at all. *)
Definition filled : abtv := abtv_set abtv_zero [BAT (AT "manager"); BBT USERDN].
Theorem C72_keyword_refuted :
  ~ (forall pad a t fmt, abtv_string a = Some t -> pair_isZero (ab_pair a) = false ->
       br_keyword (abtv_Eq pad fmt a) = abtv_keyword a) /\
  abtv_keyword filled = BindUAT /\
  br_string (abtv_Eq true "" filled) = "<invalid_bind_keyword> = ""manager#USERDN""" /\
  br_keyword (abtv_Eq true "" filled) = 0%N /\
  rule_operator (abtv_Ne true "" filled) = 0%N /\ br_valid (abtv_Ne true "" filled) = false.
Proof.
  split; [|repeat split; reflexivity]. intros H. specialize (H true filled "manager#USERDN" "" eq_refl eq_refl). discriminate H.
Qed.
(* What is missing: values without a keyword of their own.  A pair made by UAT, GAT or
   ABTV, or read by the parser, has one, and then its rules are as they should be. *)
Theorem C72_partial : forall pad fmt a,
  (forall k p t, In k [UserAttr; GroupAttr] -> a = MkABTV (bindkw_const k) (Some p) -> p <> pair_nil ->
     abtv_string a = Some t ->
     abtv_keyword a = bindkw_const k /\
     bind_says pad (abtv_Eq pad fmt a) k REq t /\ bind_says pad (abtv_Ne pad fmt a) k RNe t) /\
  (ab_pair a = None \/ ab_pair a = Some pair_nil -> no_rule (abtv_Eq pad fmt a) /\ no_rule (abtv_Ne pad fmt a)).
Proof.
  intros pad fmt a. split.
  - intros k p t K -> P T. unfold abtv_Eq, abtv_Ne, abtv_text. rewrite T.
    assert (Z : pair_isZero (ab_pair (MkABTV (bindkw_const k) (Some p))) = false).
    { cbn [ab_pair pair_isZero]. destruct p as [[x|] [|v|n]]; trivial. now contradiction P. }
    rewrite Z. cbn [negb]. destruct K as [<-|[<-|[]]]; destruct pad; repeat split; reflexivity.
  - intros [E|E]; unfold abtv_Eq, abtv_Ne; rewrite E; split; reflexivity.
Qed.
(* Exactly: the rules of a pair that is set have the keyword the pair reports when its
   keyword is userattr or groupattr, and otherwise never. *)
Theorem C72_exact : forall pad fmt a, pair_isZero (ab_pair a) = false ->
  (br_keyword (abtv_Eq pad fmt a) = abtv_keyword a <-> In (ab_kw a) [BindUAT; BindGAT]) /\
  (br_keyword (abtv_Ne pad fmt a) = abtv_keyword a <-> In (ab_kw a) [BindUAT; BindGAT]).
Proof.
  intros pad fmt a Z.
  assert (G : forall op, br_keyword (btext pad (ab_kw a) op (abtv_text fmt a)) = abtv_keyword a <-> In (ab_kw a) [BindUAT; BindGAT]).
  { intros op. assert (K : forall n, matchBKW (bkw_string n) = n \/ matchBKW (bkw_string n) = 0%N).
    { intros n. unfold bkw_string, bkwMap. cbn [tbl_get]. repeat match goal with |- context [(?k =? n)%N] => destruct (N.eqb_spec k n) as [<-|]; [left; reflexivity|] end. right. reflexivity. }
    assert (B : br_keyword (btext pad (ab_kw a) op (abtv_text fmt a)) = matchBKW (bkw_string (ab_kw a))).
    { unfold btext, BR. cbn [br_init br_set_keyword]. unfold br_set_operator. destruct (_ && _)%bool; [reflexivity|]. destruct (op_arg (OCop op) =? 0)%N; reflexivity. }
    rewrite B. unfold abtv_keyword. destruct (N.eqb_spec (ab_kw a) BindGAT) as [-> | N]; [split; [now right; left|reflexivity]|].
    split; [|intros [<-|[E|[]]]; [reflexivity|now destruct N]]. intros E. destruct (K (ab_kw a)) as [X|X]; rewrite X in E; [left; now symmetry|discriminate E]. }
  unfold abtv_Eq, abtv_Ne. rewrite Z. split; apply G.
Qed.
Print Assumptions C72_exact.
Example C72_witness : br_string (abtv_Ne true "" (GAT [BStr "owner"; BStr "groupdn"])) = "groupattr != ""owner#GROUPDN""".
Proof. reflexivity. Qed.


(* ---- C73: the table of a bind value ---- *)
Lemma two_table t a b allowed (says : rule -> relop -> Prop) : t = Some [(Eq, a); (Ne, b)] ->
  (forall o, allowed o = true <-> o = REq \/ o = RNe) -> says a REq -> says b RNe ->
  exists m, t = Some m /\ tab_len t = List.length (filter allowed [REq; RNe; RLt; RLe; RGt; RGe]) /\ table_for (Some m) m allowed says.
Proof.
  intros -> A Sa Sb. exists [(Eq, a); (Ne, b)]. split; [reflexivity|]. split; [|split; [reflexivity|]].
  - assert (F : forall o, o <> REq -> o <> RNe -> allowed o = false).
    { intros o X Y. destruct (allowed o) eqn:E; [|reflexivity]. apply A in E. tauto. }
    cbn [filter]. rewrite (proj2 (A REq)), (proj2 (A RNe)), !F by (tauto || discriminate). reflexivity.
  - split; [repeat constructor; cbn; intros X; repeat (destruct X as [X|X]; [discriminate X|]); contradiction|]. split.
    + intros k r [E|[E|[]]]; injection E as <- <-; [exists REq|exists RNe]; (split; [reflexivity|split; [apply A; tauto|assumption]]).
    + intros o Ho. apply A in Ho. destruct Ho as [-> | ->]; cbn; tauto.
Qed.
Lemma six_table t a b c d e f allowed (says : rule -> relop -> Prop) : t = Some [(Eq, a); (Ne, b); (Lt, c); (Le, d); (Gt, e); (Ge, f)] ->
  (forall o, allowed o = true) -> says a REq -> says b RNe -> says c RLt -> says d RLe -> says e RGt -> says f RGe ->
  exists m, t = Some m /\ tab_len t = List.length (filter allowed [REq; RNe; RLt; RLe; RGt; RGe]) /\ table_for (Some m) m allowed says.
Proof.
  intros -> A Sa Sb Sc Sd Se Sf. eexists. split; [reflexivity|]. split; [|split; [reflexivity|]].
  - cbn [filter]. rewrite !A. reflexivity.
  - split; [repeat constructor; cbn; intros X; repeat (destruct X as [X|X]; [discriminate X|]); contradiction|]. split.
    + intros k r H. cbn [In] in H. repeat (destruct H as [H|H]; [injection H as <- <-|]); [exists REq|exists RNe|exists RLt|exists RLe|exists RGt|exists RGe|contradiction]; (split; [reflexivity|split; [apply A|assumption]]).
    + intros o _. destruct o; cbn; tauto.
Qed.
Lemma bind_table_of t allowed says :
  (exists m, t = Some m /\ tab_len t = List.length (filter allowed [REq; RNe; RLt; RLe; RGt; RGe]) /\ table_for (Some m) m allowed says) ->
  bind_table t allowed says.
Proof. intros (m & E & L & F). exists m. split; [exact E|]. split; [exact L|]. intros m' P. now apply (brm_builds m). Qed.
Lemma target_table_of t allowed says :
  (exists m, t = Some m /\ tab_len t = List.length (filter allowed [REq; RNe; RLt; RLe; RGt; RGe]) /\ table_for (Some m) m allowed says) ->
  target_table t allowed says.
Proof. intros (m & E & L & F). exists m. split; [exact E|]. split; [exact L|]. intros m' P. split; [now apply (trm_builds m)|now apply (trm_only m allowed says)]. Qed.
Lemma two_bind k : ~ In k [TimeOfDay; StrengthFactor] -> forall o, bindkw_allows k o = true <-> o = REq \/ o = RNe.
Proof.
  intros K o. destruct k; cbn in K; try tauto; destruct o; cbn; (split; [intros H; try discriminate H; tauto|intros [H|H]; try discriminate H; reflexivity]).
Qed.
Lemma two_target k : ~ In k [TgScope; TgAttrFilters] -> forall o, targetkw_allows k o = true <-> o = REq \/ o = RNe.
Proof.
  intros K o. destruct k; cbn in K; try tauto; destruct o; cbn; (split; [intros H; try discriminate H; tauto|intros [H|H]; try discriminate H; reflexivity]).
Qed.
Ltac btwo T := apply bind_table_of; eapply two_table; [reflexivity|apply two_bind; cbn; intuition discriminate|apply T|apply T].
Ltac ttwo T := apply target_table_of; eapply two_table; [reflexivity|apply two_target; cbn; intuition discriminate|apply T|apply T].

(* For every valid value, under every name, number and value of an operator its
   keyword admits, the table gives the method that makes the rule with that operator;
   it gives nothing for the other operators. *)
Theorem C73_bind_tables : forall sh low pad fmt,
  (forall a, ipaddr_len a <> O ->
     bind_table (ip_BRM pad a) (bindkw_allows IPAddr) (fun r o => bind_says pad r IPAddr o (ipaddr_string a))) /\
  (forall f, fqdn_valid f = true ->
     bind_table (fqdn_BRM pad f) (bindkw_allows DNSName) (fun r o => bind_says pad r DNSName o (fqdn_string f))) /\
  (forall n, n <> 0%N ->
     bind_table (am_BRM low pad n) (bindkw_allows AuthMethod) (fun r o => bind_says pad r AuthMethod o (auth_string low n))) /\
  (forall s, bind_table (ssf_BRM pad s) (bindkw_allows StrengthFactor) (fun r o => bind_says pad r StrengthFactor o (ssf_string s))) /\
  (forall d, dow_valid sh d = true ->
     bind_table (dow_BRM sh pad d) (bindkw_allows DayOfWeek) (fun r o => bind_says pad r DayOfWeek o (dow_string sh d))) /\
  (forall t, t <> None ->
     bind_table (tod_BRM pad t) (bindkw_allows TimeOfDay) (fun r o => bind_says pad r TimeOfDay o (tod_string t))) /\
  (forall k t, In k [UserDN; RoleDN; GroupDN] ->
     bind_table (bdn_BRM pad (Some (MkDN (bindkw_const k) (Some t)))) (bindkw_allows k) (fun r o => bind_says pad r k o ("ldap:///" ++ t))) /\
  (forall k m, In k [UserDN; RoleDN; GroupDN] ->
     bind_table (bdns_BRM pad (Some (bindkw_const k, m))) (bindkw_allows k)
       (fun r o => bind_says pad r k o (alternatives (map (dmember_string badBDN) m)))) /\
  (forall k p t, In k [UserAttr; GroupAttr] -> p <> pair_nil -> pair_string p = Some t ->
     bind_table (abtv_BRM pad fmt (MkABTV (bindkw_const k) (Some p))) (bindkw_allows k) (fun r o => bind_says pad r k o t)) /\
  (forall k lv p, In k [UserAttr; GroupAttr] ->
     let i := Some (MkInh lv (MkABTV (bindkw_const k) (Some p))) in
     bind_table (inh_BRM sh pad fmt i) (bindkw_allows k) (fun r o => bind_says pad r k o (inh_string sh fmt i))).
Proof.
  intros sh low pad fmt. repeat apply conj.
  - intros [[|x l]|] H; try (contradiction H; reflexivity). btwo (proj1 (C71_address pad) x l).
  - intros f H. apply C71_fqdn with (pad := pad) in H. apply bind_table_of; eapply two_table; [reflexivity|apply two_bind; cbn; intuition discriminate|apply H|apply H].
  - intros n H. destruct (C71_auth_method low pad n) as [X _]. specialize (X H). apply bind_table_of; eapply two_table; [reflexivity|apply two_bind; cbn; intuition discriminate|apply X|apply X].
  - intros s. assert (X := C71_strength_factor pad s). apply bind_table_of; eapply six_table; [reflexivity|intros []; reflexivity|apply X..].
  - intros d H. destruct (C71_day_of_week sh pad d) as [X _]. specialize (X H). apply bind_table_of; eapply two_table; [reflexivity|apply two_bind; cbn; intuition discriminate|apply X|apply X].
  - intros t H. destruct (C71_time_of_day pad t) as [X _]. specialize (X H). apply bind_table_of; eapply six_table; [reflexivity|intros []; reflexivity|apply X..].
  - intros k t K. destruct (C71_bind_dn pad (Some (MkDN (bindkw_const k) (Some t)))) as [X _]. specialize (X k t K eq_refl).
    apply bind_table_of; eapply two_table; [reflexivity|apply two_bind; cbn in *; intuition (subst; discriminate)|apply X|apply X].
  - intros k m K. destruct (C71_bind_dns pad) as [X _]. specialize (X k m K).
    apply bind_table_of; eapply two_table; [reflexivity|apply two_bind; cbn in *; intuition (subst; discriminate)|apply X|apply X].
  - intros k p t K Hp Ht. destruct (C72_partial pad fmt (MkABTV (bindkw_const k) (Some p))) as [X _]. specialize (X k p t K eq_refl Hp Ht).
    apply bind_table_of; eapply two_table; [reflexivity|apply two_bind; cbn in *; intuition (subst; discriminate)|apply X|apply X].
  - intros k lv p K i. destruct (C71_inheritance sh pad fmt i) as [X _]. specialize (X k lv p K eq_refl).
    apply bind_table_of; eapply two_table; [reflexivity|apply two_bind; cbn in *; intuition (subst; discriminate)|apply X|apply X].
Qed.
(* a value that is not valid has the same table of methods, and they give no rule *)
Theorem C73_invalid : forall sh low pad fmt,
  (forall a, ipaddr_len a = O -> bind_table (ip_BRM pad a) (bindkw_allows IPAddr) (fun r _ => no_rule r)) /\
  (forall f, fqdn_valid f = false -> bind_table (fqdn_BRM pad f) (bindkw_allows DNSName) (fun r _ => no_rule r)) /\
  bind_table (am_BRM low pad 0) (bindkw_allows AuthMethod) (fun r _ => no_rule r) /\
  (forall d, dow_valid sh d = false -> bind_table (dow_BRM sh pad d) (bindkw_allows DayOfWeek) (fun r _ => no_rule r)) /\
  bind_table (tod_BRM pad None) (bindkw_allows TimeOfDay) (fun r _ => no_rule r) /\
  (forall d, dn_isZero d = true -> bind_table (bdn_BRM pad d) (bindkw_allows UserDN) (fun r _ => no_rule r)) /\
  bind_table (bdns_BRM pad None) (bindkw_allows UserDN) (fun r _ => no_rule r) /\
  (forall kw, bind_table (abtv_BRM pad fmt (MkABTV kw (Some pair_nil))) (bindkw_allows UserAttr) (fun r _ => no_rule r)) /\
  (forall i, inh_isZero i = true -> bind_table (inh_BRM sh pad fmt i) (bindkw_allows UserAttr) (fun r _ => no_rule r)).
Proof.
  intros sh low pad fmt. repeat apply conj.
  - intros a H. apply bind_table_of; eapply two_table; [reflexivity|apply two_bind; cbn; intuition discriminate| |]; now apply C71_address.
  - intros f H. apply bind_table_of; eapply two_table; [reflexivity|apply two_bind; cbn; intuition discriminate| |]; now apply C71_fqdn.
  - btwo (proj2 (C71_auth_method low pad 0) eq_refl).
  - intros d H. apply bind_table_of; eapply two_table; [reflexivity|apply two_bind; cbn; intuition discriminate| |]; now apply C71_day_of_week.
  - apply bind_table_of; eapply six_table; [reflexivity|intros []; reflexivity| | | | | |]; reflexivity.
  - intros d H. apply bind_table_of; eapply two_table; [reflexivity|apply two_bind; cbn; intuition discriminate| |]; now apply C71_bind_dn.
  - apply bind_table_of; eapply two_table; [reflexivity|apply two_bind; cbn; intuition discriminate| |]; reflexivity.
  - intros kw. apply bind_table_of; eapply two_table; [reflexivity|apply two_bind; cbn; intuition discriminate| |]; reflexivity.
  - intros i H. apply bind_table_of; eapply two_table; [reflexivity|apply two_bind; cbn; intuition discriminate| |]; now apply C71_inheritance.
Qed.

(* ---- C74: the table of a target value ---- *)
Theorem C74_target_tables : forall pad,
  (forall k t, In k [TgTarget; TgTo; TgFrom] ->
     target_table (tdn_TRM pad (Some (MkDN (targetkw_const k) (Some t)))) (targetkw_allows k) (fun r o => target_says pad r k o ("ldap:///" ++ t))) /\
  (forall k m, In k [TgTarget; TgTo; TgFrom] ->
     target_table (tdns_TRM pad (Some (targetkw_const k, m))) (targetkw_allows k)
       (fun r o => target_says pad r k o (alternatives (map (dmember_string badTDN) m)))) /\
  (forall a, a <> "" -> target_table (at_TRM pad (Some a)) (targetkw_allows TgAttr) (fun r o => target_says pad r TgAttr o a)) /\
  (forall m, target_table (ats_TRM pad (Some (true, m))) (targetkw_allows TgAttr)
       (fun r o => target_says pad r TgAttr o (alternatives (map at_string m)))) /\
  (forall k t, In k [TgExtOp; TgCtrl] ->
     target_table (oid_TRM pad (Some (MkOID (targetkw_const k) (Some t)))) (targetkw_allows k) (fun r o => target_says pad r k o t)) /\
  (forall k m, In k [TgExtOp; TgCtrl] ->
     target_table (oids_TRM pad (Some (MkOL (targetkw_const k) m))) (targetkw_allows k)
       (fun r o => target_says pad r k o (alternatives (map omember_text m)))) /\
  (forall f, f <> "" -> target_table (sf_TRM pad (Some f)) (targetkw_allows TgFilter) (fun r o => target_says pad r TgFilter o f)) /\
  (forall n, n <> 0%N -> target_table (scope_TRM pad n) (targetkw_allows TgScope) (fun r o => target_says pad r TgScope o (scope_string n))).
Proof.
  intros pad. repeat apply conj.
  - intros k t K. destruct (C71_target_dn pad (Some (MkDN (targetkw_const k) (Some t)))) as [X _]. specialize (X k t K eq_refl).
    apply target_table_of; eapply two_table; [reflexivity|apply two_target; cbn in *; intuition (subst; discriminate)|apply X|apply X].
  - intros k m K. destruct (C71_target_dns pad) as [X _]. specialize (X k m K).
    apply target_table_of; eapply two_table; [reflexivity|apply two_target; cbn in *; intuition (subst; discriminate)|apply X|apply X].
  - intros a H. ttwo (proj1 (C71_attribute_type pad) a H).
  - intros m. ttwo (proj1 (C71_attribute_types pad) true m).
  - intros k t K. destruct (C71_object_identifier pad (Some (MkOID (targetkw_const k) (Some t)))) as [X _]. specialize (X k t K eq_refl).
    apply target_table_of; eapply two_table; [reflexivity|apply two_target; cbn in *; intuition (subst; discriminate)|apply X|apply X].
  - intros k m K. destruct (C71_object_identifiers pad) as [X _]. specialize (X k m K).
    apply target_table_of; eapply two_table; [reflexivity|apply two_target; cbn in *; intuition (subst; discriminate)|apply X|apply X].
  - intros f H. ttwo (proj1 (C71_search_filter pad) f H).
  - intros n H. destruct (C71_scope pad n) as [X _]. specialize (X H). apply target_table_of. exists [(Eq, scope_Eq pad n)].
    split; [reflexivity|]. split; [reflexivity|]. split; [reflexivity|]. split; [repeat constructor; intros []|]. split.
    + intros k r [E|[]]. injection E as <- <-. exists REq. repeat split; apply X.
    + intros o Ho. destruct o; try discriminate Ho. now left.
Qed.
(* False for the add=/delete= operations: their table offers Ne, which their keyword
   does not admit; the method found there gives the zero rule. *)
Theorem C74_filter_operations_refuted :
  ~ (forall pad o, target_table (afo_TRM pad (Some o)) (targetkw_allows TgAttrFilters) (fun r p => target_says pad r TgAttrFilters p (afo_string o))) /\
  ~ (forall pad o, target_table (afos_TRM pad (Some o)) (targetkw_allows TgAttrFilters) (fun r p => target_says pad r TgAttrFilters p (afos_string o))) /\
  (forall pad o, trm_contains (afo_TRM pad o) (OCop Ne) = true /\ trm_index (afo_TRM pad o) (OCop Ne) = (Ne, Some None)) /\
  (forall pad o, trm_contains (afos_TRM pad o) (OCop Ne) = true /\ trm_index (afos_TRM pad o) (OCop Ne) = (Ne, Some None)).
Proof.
  split; [|split; [|split; intros; split; reflexivity]].
  - intros H. destruct (H true (MkAFO 1 [])) as (m & _ & L & _). discriminate L.
  - intros H. destruct (H true (MkAFOs "," [])) as (m & _ & L & _). discriminate L.
Qed.
(* What is missing is that one entry: with Ne counted among the operators offered, every
   other part of the claim holds of these tables. *)
Theorem C74_filter_operations_partial : forall pad,
  (forall o, target_table (afo_TRM pad (Some o)) (fun p => match p with REq | RNe => true | _ => false end)
     (fun r p => match p with REq => target_says pad r TgAttrFilters REq (afo_string o) | _ => no_rule r end)) /\
  (forall o, target_table (afos_TRM pad (Some o)) (fun p => match p with REq | RNe => true | _ => false end)
     (fun r p => match p with REq => target_says pad r TgAttrFilters REq (afos_string o) | _ => no_rule r end)).
Proof.
  intros pad. destruct (C71_filter_operations pad) as (X & Y & _).
  assert (W : forall p, (match p with REq | RNe => true | _ => false end) = true <-> p = REq \/ p = RNe).
  { intros []; (split; [intros Z; try discriminate Z; tauto|intros [Z|Z]; try discriminate Z; reflexivity]). }
  split; intros o; apply target_table_of.
  - apply (two_table (afo_TRM pad (Some o)) (afo_Eq pad (Some o)) None); [reflexivity|exact W|exact (X o)|reflexivity].
  - apply (two_table (afos_TRM pad (Some o)) (afos_Eq pad (Some o)) None); [reflexivity|exact W|exact (Y o)|reflexivity].
Qed.
(* lists made for a URI, and nil lists, have no table *)
Theorem C74_no_table : forall pad m x,
  ats_TRM pad (Some (false, m)) = None /\ ats_TRM pad None = None /\ trm_index None x = (0%N, None) /\ trm_contains None x = false.
Proof. intros. repeat split; reflexivity. Qed.
Example C74_witness :
  trm_index (sf_TRM true (Some "(cn=a)")) (OStr "NOT equal TO") = (Ne, Some (sf_Ne true (Some "(cn=a)"))) /\
  tr_string (sf_Ne true (Some "(cn=a)")) = "( targetfilter != ""(cn=a)"" )" /\
  trm_index (sf_TRM true (Some "(cn=a)")) (OInt 257) = (0%N, None) /\
  trm_index (scope_TRM true 3) (OStr "ne") = (0%N, None).
Proof. repeat split; vm_compute; reflexivity. Qed.

(* ---- C75: arguments that name no operator ---- *)
(* False for bind tables: a number is cut down to eight bits first, so 257 finds Eq.
   The tables of target values (C74, finds_only) do not have this. *)
Theorem C75_bind_numbers_refuted :
  ~ (forall pad a, finds_only (brm_index (ip_BRM pad a))) /\
  (forall pad a, brm_index (ip_BRM pad a) (OInt 257) = (Eq, Some (ip_Eq pad a)) /\ brm_contains (ip_BRM pad a) (OInt 257) = true /\
                 brm_index (ip_BRM pad a) (OInt (-254)) = (Ne, Some (ip_Ne pad a))).
Proof.
  split; [|intros; repeat split; reflexivity]. intros H. specialize (H true None (OInt 257)).
  assert (X : forall o, ~ designates (OInt 257) o) by (intros []; discriminate). specialize (H X). discriminate H.
Qed.
(* exact: every number finds what its remainder modulo 256 finds *)
Theorem C75_bind_numbers_exact : forall m z, brm_index (Some m) (OInt z) = brm_index (Some m) (OInt (z mod 256)).
Proof. intros m z. apply brm_number. Qed.
(* What is missing: numbers outside 0..255. *)
Theorem C75_partial : forall t allowed says m m' x, t = Some m -> table_for t m allowed says -> Permutation m' m ->
  (forall o, ~ designates x o) ->
  (forall z, x = OInt z -> 0 <= z < 256)%Z -> (forall n, x = OCop n -> n < 256)%N ->
  brm_index (Some m') x = (0%N, None).
Proof. intros t allowed says m m' x -> T P D B1 B2. now apply (brm_only_partial m allowed says T m' P). Qed.
Example C75_witness : table_for (ip_BRM true (IP ["10.0.0.1"])) [(Eq, ip_Eq true (IP ["10.0.0.1"])); (Ne, ip_Ne true (IP ["10.0.0.1"]))]
    (bindkw_allows IPAddr) (fun r o => bind_says true r IPAddr o "10.0.0.1") /\
  Permutation [(Ne, ip_Ne true (IP ["10.0.0.1"])); (Eq, ip_Eq true (IP ["10.0.0.1"]))] [(Eq, ip_Eq true (IP ["10.0.0.1"])); (Ne, ip_Ne true (IP ["10.0.0.1"]))] /\
  (forall o, ~ designates (OStr "equal") o) /\ (forall o, ~ designates (OInt 7) o).
Proof.
  split; [|split; [constructor|split; [intros []; cbn; intros [H|[H|H]]; discriminate H|intros []; discriminate]]].
  split; [reflexivity|]. split; [repeat constructor; cbn; intuition discriminate|]. split.
  - intros k r [E|[E|[]]]; injection E as <- <-; [exists REq|exists RNe]; repeat split; reflexivity.
  - intros [] H; try discriminate H; cbn; tauto.
Qed.

(* ---- C76: Weekdays and Weekend ---- *)
Definition weekday_text : string := "Mon,Tues,Wed,Thur,Fri".
Definition weekend_text : string := "Sun,Sat".
Lemma dow_val sh : shifty_ok sh ->
  DoW sh [DDay Mon; DDay Tues; DDay Wed; DDay Thur; DDay Fri] = Some 124%N /\ DoW sh [DDay Sun; DDay Sat] = Some 130%N /\
  dow_string sh (Some 124%N) = weekday_text /\ dow_string sh (Some 130%N) = weekend_text.
Proof.
  intros S. assert (H : forall v x, (v < 256)%N -> (0 < x)%N -> (x < 256)%N -> sh_shift sh 8 v (Z.of_N x) = N.lor v x).
  { intros v x A B C. now apply (proj1 (S 8%N v A)). }
  assert (P : forall v, (v < 256)%N -> days_set sh v = filter (N.testbit v) bits8).
  { intros v A. unfold days_set. apply filter_ext_in. intros i Hi. apply (proj1 (proj2 (S 8%N v A))).
    unfold bits8 in Hi. cbn [In] in Hi. lia. }
  unfold DoW, dow_shift. cbn [fold_left dow_shift1].
  split; [|split].
  { rewrite (H 0 Mon)%N by reflexivity. change (N.lor 0 Mon) with 4%N.
    rewrite (H 4 Tues)%N by reflexivity. change (N.lor 4 Tues) with 12%N.
    rewrite (H 12 Wed)%N by reflexivity. change (N.lor 12 Wed) with 28%N.
    rewrite (H 28 Thur)%N by reflexivity. change (N.lor 28 Thur) with 60%N.
    rewrite (H 60 Fri)%N by reflexivity. reflexivity. }
  { rewrite (H 0 Sun)%N by reflexivity. change (N.lor 0 Sun) with 2%N. rewrite (H 2 Sat)%N by reflexivity. reflexivity. }
  unfold dow_string. rewrite (P 124%N), (P 130%N) by reflexivity. split; reflexivity.
Qed.
(* every argument that designates Eq or Ne gives the rule with that operator over the
   five weekdays, or the two days of the weekend; every other operator gives none *)
Theorem C76_weekdays : forall sh, shifty_ok sh -> forall pad x o, designates x o ->
  if bindkw_allows DayOfWeek o
  then bind_says pad (Weekdays sh pad x) DayOfWeek o "Mon,Tues,Wed,Thur,Fri" /\
       bind_says pad (Weekend sh pad x) DayOfWeek o "Sun,Sat"
  else no_rule (Weekdays sh pad x) /\ no_rule (Weekend sh pad x).
Proof.
  intros sh S pad x o D. destruct (dow_val sh S) as (E1 & E2 & T1 & T2).
  destruct (C73_bind_tables sh true pad "") as (_ & _ & _ & _ & B & _).
  assert (V1 : dow_valid sh (Some 124%N) = true) by (unfold dow_valid; rewrite T1; reflexivity).
  assert (V2 : dow_valid sh (Some 130%N) = true) by (unfold dow_valid; rewrite T2; reflexivity).
  unfold Weekdays, Weekend. rewrite E1, E2.
  destruct (B _ V1) as (m1 & M1 & _ & B1). destruct (B _ V2) as (m2 & M2 & _ & B2). rewrite M1, M2.
  specialize (B1 m1 (Permutation_refl _) x o D). specialize (B2 m2 (Permutation_refl _) x o D). rewrite T1 in B1. rewrite T2 in B2.
  unfold table, methods in *.
  destruct (bindkw_allows DayOfWeek o).
  - destruct B1 as (r1 & -> & S1). destruct B2 as (r2 & -> & S2).
    assert (C : cop_valid (relop_const o) = true) by (destruct o; reflexivity).
    unfold call_method. cbn [fst snd]. rewrite C. split; [exact S1|exact S2].
  - rewrite B1, B2. split; reflexivity.
Qed.
Example C76_witness : designates (OStr "not equal to") RNe /\ shifty_ok shifty_ref /\
  br_string (Weekdays shifty_ref true (OStr "Not Equal To")) = "dayofweek != ""Mon,Tues,Wed,Thur,Fri""" /\
  br_string (Weekend shifty_ref true (OCop Eq)) = "dayofweek = ""Sun,Sat""" /\ Weekend shifty_ref true (OStr "Ge") = None.
Proof. split; [right; right; reflexivity|]. split; [exact shifty_ref_ok|]. repeat split; vm_compute; reflexivity. Qed.

Print Assumptions C71_address.
Print Assumptions C71_fqdn.
Print Assumptions C71_auth_method.
Print Assumptions C71_strength_factor.
Print Assumptions C71_day_of_week.
Print Assumptions C71_time_of_day.
Print Assumptions C71_bind_dn.
Print Assumptions C71_bind_dn_made.
Print Assumptions C71_target_dn.
Print Assumptions C71_target_dn_made.
Print Assumptions C71_bind_dns.
Print Assumptions C71_target_dns.
Print Assumptions C71_attribute_type.
Print Assumptions C71_attribute_types.
Print Assumptions C71_object_identifier.
Print Assumptions C71_object_identifiers.
Print Assumptions C71_search_filter.
Print Assumptions C71_filter_operations.
Print Assumptions C71_scope.
Print Assumptions C71_inheritance.
Print Assumptions C72_keyword_refuted.
Print Assumptions C72_partial.
Print Assumptions C73_bind_tables.
Print Assumptions C73_invalid.
Print Assumptions C74_target_tables.
Print Assumptions C74_filter_operations_refuted.
Print Assumptions C74_filter_operations_partial.
Print Assumptions C74_no_table.
Print Assumptions C75_bind_numbers_refuted.
Print Assumptions C75_bind_numbers_exact.
Print Assumptions C75_partial.
Print Assumptions C76_weekdays.
