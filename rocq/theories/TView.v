(* C81-C84: Contains, Pop, Len, Index and Parse. *)
From Coq Require Import String Ascii List PeanoNat NArith ZArith Bool Lia.
From Verif Require Import GoStr GoStrFacts Shifty MMisc MAttr MKw MRights MLists MFilter MUri MRule MConv MTree MAci MView
  PAttr SLists SFilter PFilter SAci PLists SKw PKw PRule STree PTree TTree PAci TAci.
Import ListNotations.
Open Scope string_scope.

Lemma ex_find {A} (f : A -> bool) (l : list A) : (match l with [] => false | _ => existsb f l end) = existsb f l.
Proof. now destruct l. Qed.
Lemma snoc_neq {A} (l : list A) x : l <> (l ++ [x])%list.
Proof. intros E. apply (f_equal (@List.length A)) in E. rewrite app_length in E. cbn in E. lia. Qed.
Lemma push1_changed {A} (policy : list A -> A -> bool) l x : push1 policy l x <> l -> push1 policy l x = (l ++ [x])%list.
Proof. unfold push1. destruct (policy l x); [easy|congruence]. Qed.

(* ---- C81: Contains reports the members, compared by text ---- *)
(* the text a name is printed with *)
Theorem C81_names : forall eqf bad uris kw l,
  (forall s, s <> "" -> dn_Contains eqf bad uris kw l (DCArg (DStr s)) = true <->
     exists m, In m l /\ eqf (dmember_string bad m) ("ldap:///" ++ chopDNPfx s) = true) /\
  (forall k s, dn_Contains eqf bad uris kw l (DCArg (DDN (Some (MkDN k (Some s))))) = true <->
     exists m, In m l /\ eqf (dmember_string bad m) ("ldap:///" ++ s) = true) /\
  (forall t, uris = true -> dn_Contains eqf bad uris kw l (DCArg (DURI t)) = true <->
     exists m, In m l /\ eqf (dmember_string bad m) t = true).
Proof.
  intros eqf bad uris kw l. unfold dn_Contains. repeat apply conj.
  - intros s N. rewrite ex_find, existsb_exists. cbn [dn_candidate]. unfold newDistinguishedName.
    apply len0f in N. rewrite N. reflexivity.
  - intros k s. rewrite ex_find, existsb_exists. reflexivity.
  - intros t ->. rewrite ex_find, existsb_exists. reflexivity.
Qed.
Theorem C81_oids : forall eqf l,
  (forall s, s <> "" -> s <> badDotNot -> oid_Contains eqf l (MLists.OStr s) = true <-> exists m, In m l /\ eqf (omember_string m) s = true) /\
  (forall k t, k <> 0%N -> t <> "" -> t <> badDotNot ->
     oid_Contains eqf l (OOID (Some (MkOID k (Some t)))) = true <-> exists m, In m l /\ eqf (omember_string m) t = true).
Proof.
  intros eqf l. unfold oid_Contains. assert (X : forall s, s <> "" -> s <> badDotNot ->
    ((String.length s =? 0)%nat || String.eqb s badDotNot)%bool = false).
  { intros s N B. apply orb_false_iff. split; [now apply len0f|now apply String.eqb_neq]. }
  split.
  - intros s N B. cbv beta zeta. rewrite X by assumption. now rewrite ex_find, existsb_exists.
  - intros k t K N B. cbn [oid_string]. apply N.eqb_neq in K. cbv beta zeta. rewrite K, X by assumption. now rewrite ex_find, existsb_exists.
Qed.
Theorem C81_attributes : forall l,
  (forall s, at_Contains l (MLists.AStr s) = true <-> exists a, In a l /\ eqfold (at_string a) s = true) /\
  (forall a, at_Contains l (AType a) = true <-> exists b, In b l /\ eqfold (at_string b) (at_string a) = true).
Proof. intros l. unfold at_Contains. split; intros; rewrite ex_find, existsb_exists; reflexivity. Qed.
Theorem C81_filters : forall l,
  (forall s, afo_Contains l (AOStr s) = true <-> exists f, In f l /\ af_string f = s) /\
  (forall f, afo_Contains l (AOFilter f) = true <-> exists g, In g l /\ af_string g = af_string f).
Proof.
  intros l. unfold afo_Contains. split; intros; rewrite ex_find, existsb_exists; split; intros (f' & I & E); exists f'; (split; [exact I|]); now apply String.eqb_eq.
Qed.
Theorem C81_operations : forall l,
  (forall s, afos_Contains l (ASStr s) = true <-> exists o, In o l /\ afo_string o = s) /\
  (forall o, afos_Contains l (ASOp o) = true <-> exists p, In p l /\ afo_string p = afo_string o).
Proof.
  intros l. unfold afos_Contains. split; intros; rewrite ex_find, existsb_exists; split; intros (f' & I & E); exists f'; (split; [exact I|]); now apply String.eqb_eq.
Qed.
(* target rules are looked up by keyword *)
Theorem C81_target_rules : forall stop init h s, let l := trs_run stop init h in
  trs_Contains l (TCStr s) = true <-> exists k, eqfold (targetkw_name k) s = true /\ exists r, In r l /\ tr_keyword r = targetkw_const k.
Proof.
  intros stop init h s l. assert (I : trs_inv l) by apply trs_run_inv. destruct I as [K _]. unfold trs_Contains.
  rewrite ex_find, existsb_exists. split.
  - intros (r & Hr & E). destruct (K r Hr) as [k Hk]. exists k. rewrite (kwname_const r k Hk) in E. split; [exact E|]. now exists r.
  - intros (k & E & r & Hr & Hk). exists r. split; [exact Hr|]. now rewrite (kwname_const r k Hk).
Qed.
Theorem C81_permission_bind_rules : forall W l,
  (forall r, pbrs_Contains W l (PLRule r) = Some true <-> exists y, In y l /\ e_eqf (w_env W) (pbr_string W y) (pbr_string W r) = true) /\
  (forall s r, parsePBR W s = Gives r -> pbrs_Contains W l (PLStr s) = pbrs_Contains W l (PLRule r)) /\
  (* a text that is no rule, and any other value, is looked for as the nil rule *)
  (forall s, parsePBR W s = Fails -> pbrs_Contains W l (PLStr s) = pbrs_Contains W l (PLRule None)) /\
  pbrs_Contains W l PLOther = pbrs_Contains W l (PLRule None) /\
  (* it panics exactly when there are members and reading the text does *)
  (forall x, pbrs_Contains W l x = None <-> l <> [] /\ exists s, x = PLStr s /\ parsePBR W s = Panics).
Proof.
  intros W l. split; [|split; [|split; [|split]]].
  - intros r. unfold pbrs_Contains. destruct l as [|y l]; [split; [discriminate|intros (y & [] & _)]|].
    cbv beta iota. set (L := y :: l). split.
    + intros [= H]. apply existsb_exists. exact H.
    + intros H. f_equal. apply existsb_exists. exact H.
  - intros s r E. unfold pbrs_Contains. now rewrite E.
  - intros s E. unfold pbrs_Contains. now rewrite E.
  - reflexivity.
  - intros x. destruct l as [|y l]; [split; [discriminate|now intros [? _]]|]. unfold pbrs_Contains.
    destruct x as [s|r|]; [destruct (parsePBR W s) eqn:E| |]; split; try discriminate.
    + intros _. split; [discriminate|now exists s].
    + reflexivity.
    + intros (_ & s' & X & P). injection X as <-. congruence.
    + intros (_ & s' & X & P). injection X as <-. congruence.
    + intros (_ & s' & X & _). discriminate X.
    + intros (_ & s' & X & _). discriminate X.
Qed.
Theorem C81_instructions : forall W l,
  (forall i, inss_Contains W l (JIns i) = true <-> exists y, In y l /\ e_eqf (w_env W) (ins_string W y) (condenseWHSP (ins_string W i)) = true) /\
  (forall s, inss_Contains W l (JStr s) = true <-> exists y, In y l /\ e_eqf (w_env W) (ins_string W y) (condenseWHSP s) = true).
Proof. intros W l. unfold inss_Contains. split; intros; rewrite ex_find, existsb_exists; reflexivity. Qed.
(* so every member is reported, where the comparison is reflexive *)
Theorem C81_members : forall eqf W, (forall s, eqf s s = true) -> (forall s, e_eqf (w_env W) s s = true) ->
  (forall bad uris kw l k s, In (MDN (Some (MkDN k (Some s)))) l -> dn_Contains eqf bad uris kw l (DCArg (DDN (Some (MkDN k (Some s))))) = true) /\
  (forall bad kw l t, In (MURI t) l -> dn_Contains eqf bad true kw l (DCArg (DURI t)) = true) /\
  (forall l k t, k <> 0%N -> t <> "" -> t <> badDotNot -> In (OOid (Some (MkOID k (Some t)))) l -> oid_Contains eqf l (OOID (Some (MkOID k (Some t)))) = true) /\
  (forall l a, In a l -> at_Contains l (AType a) = true) /\
  (forall l f, In f l -> afo_Contains l (AOFilter f) = true) /\
  (forall l o, In o l -> afos_Contains l (ASOp o) = true) /\
  (forall l r, In r l -> pbrs_Contains W l (PLRule r) = Some true).
Proof.
  intros eqf W R RW. repeat apply conj.
  - intros bad uris kw l k s I. apply (C81_names eqf bad uris kw l). exists (MDN (Some (MkDN k (Some s)))). split; [exact I|apply R].
  - intros bad kw l t I. apply (C81_names eqf bad true kw l); [reflexivity|]. exists (MURI t). split; [exact I|apply R].
  - intros l k t K N B I. apply (C81_oids eqf l); try assumption. eexists. split; [exact I|]. cbn [omember_string oid_string]. apply N.eqb_neq in K. rewrite K. apply R.
  - intros l a I. apply C81_attributes. exists a. split; [exact I|apply eqfold_refl].
  - intros l f I. apply C81_filters. now exists f.
  - intros l o I. apply C81_operations. now exists o.
  - intros l r I. apply C81_permission_bind_rules. exists r. split; [exact I|apply RW].
Qed.
(* Missing from C81: instructions whose text has runs of white space, which are not found *)
Theorem C81_partial : forall W l i, (forall s, e_eqf (w_env W) s s = true) -> In i l ->
  condenseWHSP (ins_string W i) = ins_string W i -> inss_Contains W l (JIns i) = true.
Proof. intros W l i R I E. apply C81_instructions. exists i. split; [exact I|]. rewrite E. apply R. Qed.
Theorem C81_refuted : ~ (forall W l i, (forall s, e_eqf (w_env W) s s = true) -> In i l -> inss_Contains W l (JIns i) = true).
Proof.
  intros H. specialize (H W0 [ACI W0 [IStr "a  b"; IPBR theA]] _ (fun s => eqfold_refl s) (or_introl eq_refl)). vm_compute in H. discriminate H.
Qed.
Print Assumptions C81_names.
Print Assumptions C81_oids.
Print Assumptions C81_attributes.
Print Assumptions C81_filters.
Print Assumptions C81_operations.
Print Assumptions C81_target_rules.
Print Assumptions C81_permission_bind_rules.
Print Assumptions C81_instructions.
Print Assumptions C81_members.
Print Assumptions C81_partial.
Print Assumptions C81_refuted.
Example C81_witness :
  dn_Contains eqfold badBDN true BindUDN (dn_run eqfold badBDN true BindUDN [DStr "cn=a"; DURI "ldap:///cn=b??sub?"] []) (DCArg (DStr "LDAP:///cn=A")) = false /\
  dn_Contains eqfold badBDN true BindUDN (dn_run eqfold badBDN true BindUDN [DStr "cn=a"; DURI "ldap:///cn=b??sub?"] []) (DCArg (DStr "ldap:///CN=A")) = true /\
  dn_Contains eqfold badBDN true BindUDN [MDN (UDN "cn=a")] (DCArg (DURI "ldap:///cn=a")) = true /\
  at_Contains (at_run [MLists.AStr "cn"; MLists.AStr "sn"] []) (MLists.AStr "SN") = true /\
  trs_Contains (trs_run false [TRule tScope; TRule tFilter] []) (TCStr "TargetScope") = true /\
  pbrs_Contains W0 [theA] (PLStr "A") = Some true /\ pbrs_Contains W0 [theA] (PLStr "B") = Some false.
Proof. repeat apply conj; vm_compute; reflexivity. Qed.

(* ---- C82: Push and Contains agree ---- *)
(* [agree l l' before after]: a value reported by Contains is refused, a value that
   was accepted is reported *)
Definition agree {A} (l l' : list A) (before after : bool) : Prop :=
  (before = true -> l' = l) /\ (l' <> l -> after = true).
Lemma agree_push {A} (policy : list A -> A -> bool) (C : list A -> bool) l m :
  (C l = true -> policy l m = false) -> C (l ++ [m])%list = true -> agree l (push1 policy l m) (C l) (C (push1 policy l m)).
Proof.
  intros H T. split.
  - intros B. unfold push1. now rewrite (H B).
  - intros N. now rewrite (push1_changed policy l m N).
Qed.
Lemma agree_same {A} (l : list A) b a : agree l l b a.
Proof. now split. Qed.
Theorem C82_names : forall eqf bad uris kw l x, (forall s, eqf s s = true) ->
  let l' := dn_push eqf bad uris kw l [x] in
  agree l l' (dn_Contains eqf bad uris kw l (DCArg x)) (dn_Contains eqf bad uris kw l' (DCArg x)).
Proof.
  intros eqf bad uris kw l x R l'. unfold l'. cbn [dn_push]. destruct (push_cast uris kw x) as [m|] eqn:C; [|apply agree_same].
  assert (E : dn_candidate bad uris kw (DCArg x) = dmember_string bad m).
  { destruct x as [s|d|t|]; cbn [push_cast] in C; cbn [dn_candidate].
    - destruct (0 <? String.length s)%nat; [|discriminate]. injection C as <-. reflexivity.
    - destruct (_ && _)%bool; [|discriminate]. now injection C as <-.
    - destruct uris; [|discriminate]. now injection C as <-.
    - discriminate. }
  apply (agree_push (dn_policy eqf bad) (fun l => dn_Contains eqf bad uris kw l (DCArg x))).
  - unfold dn_Contains. rewrite ex_find, E. intros H. unfold dn_policy, dn_contains. now rewrite H.
  - unfold dn_Contains. rewrite ex_find, existsb_app, E. cbn [existsb]. now rewrite R, orb_true_r.
Qed.
Theorem C82_oids : forall eqf dotnot kw l x, (forall s, eqf s s = true) -> kw = TargetExtOp \/ kw = TargetCtrl ->
  (forall s t, x = MLists.OStr s -> dotnot s = Some t -> t = s /\ s <> "" /\ s <> badDotNot) ->
  (forall k t, x = OOID (Some (MkOID k (Some t))) -> t <> "" /\ t <> badDotNot) -> (forall k, x <> OKey k) ->
  let l' := ol_mem (oid_push eqf dotnot (MkOL kw l) [x]) in
  agree l l' (oid_Contains eqf l x) (oid_Contains eqf l' x).
Proof.
  intros eqf dotnot kw l x R KW D X NK l'. unfold l', oid_push. cbn [fold_left oid_push1].
  assert (G : forall o, (forall k t, o = Some (MkOID k (Some t)) -> t <> "" /\ t <> badDotNot) ->
    agree l (push1 (oid_policy eqf kw) l (OOid o)) (oid_Contains eqf l (OOID o)) (oid_Contains eqf (push1 (oid_policy eqf kw) l (OOid o)) (OOID o))).
  { intros o H. split.
    - intros B. unfold push1, oid_policy. assert (B' : oid_contains eqf l (OOid o) = true) by exact B. now rewrite B'.
    - intros N. assert (P := push1_changed _ _ _ N). rewrite P.
      assert (V : oid_valid o = true).
      { unfold push1, oid_policy in N. destruct (oid_contains _ _ _); [now destruct N|]. destruct (oid_valid o); [reflexivity|now destruct N]. }
      destruct o as [[k [t|]]|]; try discriminate V. destruct (H k t eq_refl) as [H1 H2].
      cbn [oid_valid] in V. apply negb_true_iff, N.eqb_neq in V.
      apply (C81_oids eqf); try assumption. exists (OOid (Some (MkOID k (Some t)))). split; [apply in_or_app; right; now left|].
      cbn [omember_string oid_string]. apply N.eqb_neq in V. rewrite V. apply R. }
  destruct x as [s|o|k|]; cbn [oid_push1 ol_kw ol_mem].
  - set (kk := if (kw =? TargetExtOp)%N then TargetExtOp else TargetCtrl).
    assert (K0 : kk <> 0%N) by (unfold kk; destruct (kw =? TargetExtOp)%N; discriminate).
    unfold mkOID, newObjectID. destruct (dotnot s) as [t|] eqn:E.
    + destruct (D s t eq_refl E) as (-> & N1 & N2).
      assert (Q : forall l, oid_Contains eqf l (MLists.OStr s) = oid_Contains eqf l (OOID (Some (MkOID kk (Some s))))).
      { intros m. unfold oid_Contains. cbn [oid_string]. apply N.eqb_neq in K0. now rewrite K0. }
      rewrite !Q. apply G. intros k t [= <- <-]. now split.
    + assert (P : push1 (oid_policy eqf kw) l (OOid (Some (MkOID 0 None))) = l).
      { unfold push1, oid_policy. destruct (oid_contains _ _ _); [reflexivity|]. reflexivity. }
      rewrite P. apply agree_same.
  - apply G. intros k t ->. now apply (X k t).
  - now destruct (NK k).
  - apply agree_same.
Qed.
Theorem C82_filters : forall op l x, (forall n, x <> AOOp n) ->
  let l' := afo_mem (afo_push (MkAFO op l) [x]) in agree l l' (afo_Contains l x) (afo_Contains l' x).
Proof.
  intros op l x NO l'. unfold l', afo_push. cbn [fold_left afo_push1].
  assert (G : forall f, agree l (push1 afo_policy l f) (afo_Contains l (AOFilter f)) (afo_Contains (push1 afo_policy l f) (AOFilter f))).
  { intros f. apply (agree_push afo_policy (fun l => afo_Contains l (AOFilter f))).
    - unfold afo_Contains. rewrite ex_find. intros H. unfold afo_policy, afo_contains. now rewrite H.
    - apply C81_filters. exists f. split; [apply in_or_app; right; now left|reflexivity]. }
  destruct x as [s|n|f|]; cbn [afo_push1 afo_op afo_mem].
  - destruct (parseAttributeFilter s) as [f|] eqn:E; [|apply agree_same]. cbn [afo_mem].
    destruct (parse_filter_inv s f E) as (i & [Hs A] & Hf). assert (NA := attr_name_nonempty _ A).
    destruct (String.eqb_spec (snd i) "") as [Z|Z].
    + assert (V : af_valid f = false).
      { rewrite Hf, Z. cbn. now destruct (String.length (fst i) =? 0)%nat. }
      assert (P : push1 afo_policy l f = l). { unfold push1, afo_policy. destruct (afo_contains l f); [reflexivity|]. now rewrite V. }
      rewrite P. apply agree_same.
    + assert (S : af_string f = s).
      { rewrite Hf, filter_some by exact Z. destruct (item_string i NA Z) as [I _]. rewrite Hs. exact I. }
      assert (Q : forall m, afo_Contains m (AOStr s) = afo_Contains m (AOFilter f)).
      { intros m. unfold afo_Contains. now rewrite S. }
      rewrite !Q. apply G.
  - now destruct (NO n).
  - apply G.
  - apply agree_same.
Qed.
Theorem C82_operations : forall d l o,
  let l' := afos_mem (afos_push (MkAFOs d l) [ASOp o]) in agree l l' (afos_Contains l (ASOp o)) (afos_Contains l' (ASOp o)).
Proof.
  intros d l o l'. unfold l', afos_push. cbn [fold_left afos_push1 afos_mem].
  apply (agree_push afos_policy (fun l => afos_Contains l (ASOp o))).
  - unfold afos_Contains. rewrite ex_find. intros H. unfold afos_policy, afos_contains. now rewrite H.
  - apply C81_operations. exists o. split; [apply in_or_app; right; now left|reflexivity].
Qed.
Theorem C82_operation_texts : forall d l s o, parseAFO s = Some o -> afo_string o = s ->
  let l' := afos_mem (afos_push (MkAFOs d l) [ASStr s]) in agree l l' (afos_Contains l (ASStr s)) (afos_Contains l' (ASStr s)).
Proof.
  intros d l s o E S l'. unfold l', afos_push. cbn [fold_left afos_push1]. rewrite E. destruct (0 <? _)%nat eqn:L; [|apply agree_same].
  assert (Q : forall m, afos_Contains m (ASStr s) = afos_Contains m (ASOp o)) by (intros m; unfold afos_Contains; now rewrite S).
  rewrite !Q. exact (C82_operations d l o).
Qed.
(* target rules, by their keyword *)
Theorem C82_target_rules : forall stop init h r, let l := trs_run stop init h in
  let l' := trs_push stop l [TRule r] in
  agree l l' (trs_Contains l (TCKw (tr_kwname r))) (trs_Contains l' (TCKw (tr_kwname r))).
Proof.
  intros stop init h r l l'. assert (I : trs_inv l) by apply trs_run_inv. assert (I' : trs_inv l') by now apply push_inv.
  unfold l', trs_push in *. rewrite push_many_one in *. destruct (push1_exact l (TRule r) I) as [A B].
  destruct (tr_keyword_cases r) as [Z|K].
  - rewrite B; [apply agree_same|]. intros x [= <-]. left. intros [k H]. rewrite Z in H. destruct k; discriminate H.
  - split.
    + intros H. apply B. intros x [= <-]. right. apply (trs_contains_spec l r (proj1 I) K).
      unfold trs_Contains in H. rewrite ex_find in H. exact H.
    + intros N. destruct (in_dec N.eq_dec (tr_keyword r) (map tr_keyword l)) as [H|H].
      * destruct N. apply B. intros x [= <-]. now right.
      * rewrite (A r eq_refl K H). unfold trs_Contains. rewrite ex_find, existsb_app. cbn [existsb]. now rewrite eqfold_refl, orb_true_r.
Qed.
Theorem C82_permission_bind_rules : forall W l x l' b a, (forall s, e_eqf (w_env W) s s = true) ->
  pbrs_push W l [x] = Some l' -> pbrs_Contains W l x = Some b -> pbrs_Contains W l' x = Some a -> agree l l' b a.
Proof.
  intros W l x l' b a R P B A.
  assert (G : forall r l' b a, pbrs_push1 W l (PLRule r) = l' -> pbrs_Contains W l (PLRule r) = Some b -> pbrs_Contains W l' (PLRule r) = Some a -> agree l l' b a).
  { clear P B A. intros r m b' a' P B A. cbn [pbrs_push1] in P. subst m. split.
    - intros ->. apply C81_permission_bind_rules in B as (y & Iy & E). unfold push1, pbrs_policy.
      replace (pbrs_contains W l r) with true; [reflexivity|]. symmetry. apply existsb_exists. now exists y.
    - intros N. apply push1_changed in N. rewrite N in A.
      assert (T : pbrs_Contains W (l ++ [r])%list (PLRule r) = Some true).
      { apply C81_permission_bind_rules. exists r. split; [apply in_or_app; right; now left|apply R]. }
      rewrite T in A. now injection A as <-. }
  destruct x as [s|r|].
  - cbn [pbrs_push] in P. destruct (parsePBR W s) as [| |r] eqn:E; [discriminate| |].
    + injection P as <-. apply agree_same.
    + injection P as P. rewrite (proj1 (proj2 (C81_permission_bind_rules W l)) s r E) in B. rewrite (proj1 (proj2 (C81_permission_bind_rules W l')) s r E) in A.
      now apply (G r).
  - cbn [pbrs_push] in P. injection P as P. now apply (G r).
  - cbn [pbrs_push pbrs_push1] in P. injection P as <-. apply agree_same.
Qed.
(* instructions: what Contains reports is refused *)
Theorem C82_instructions : forall W l i, inss_Contains W l (JIns i) = true -> inss_push W l [JIns i] = Some l.
Proof.
  intros W l i H. unfold inss_Contains in H. rewrite ex_find in H. cbn [inss_push]. unfold push1, inss_policy, inss_contains. now rewrite H.
Qed.
Theorem C82_instructions_accepted : forall W l i, (forall s, e_eqf (w_env W) s s = true) -> condenseWHSP (ins_string W i) = ins_string W i ->
  inss_push W l [JIns i] <> Some l -> exists l', inss_push W l [JIns i] = Some l' /\ inss_Contains W l' (JIns i) = true.
Proof.
  intros W l i R E N. cbn [inss_push] in *. exists (push1 (inss_policy W) l i). split; [reflexivity|].
  rewrite (push1_changed (inss_policy W) l i) by congruence. apply C81_partial; [exact R|apply in_or_app; right; now left|exact E].
Qed.
Theorem C82_attributes_accepted : forall l x, let l' := at_push l [x] in l' <> l -> at_Contains l' x = true.
Proof.
  intros l x l' N. unfold l', at_push in *. cbn [fold_left] in *. destruct x as [s|a|]; cbn [at_push1] in *; [| |congruence].
  - unfold push1 in *. destruct (at_pushPolicy [] (AT s)) eqn:P; [|congruence]. apply C81_attributes. exists (AT s). split; [apply in_or_app; right; now left|].
    unfold AT in *. destruct (isIdentifier s || String.eqb s "*")%bool; [apply eqfold_refl|discriminate P].
  - apply push1_changed in N. rewrite N. apply C81_attributes. exists a. split; [apply in_or_app; right; now left|apply eqfold_refl].
Qed.
(* false: attribute lists accept what they already contain, operation lists accept
   texts that Contains then does not find, and instruction lists likewise *)
Theorem C82_refuted :
  ~ (forall l x, at_Contains l x = true -> at_push l [x] = l) /\
  ~ (forall d l s, let l' := afos_mem (afos_push (MkAFOs d l) [ASStr s]) in l' <> l -> afos_Contains l' (ASStr s) = true) /\
  ~ (forall W l l' i, (forall s, e_eqf (w_env W) s s = true) -> inss_push W l [JIns i] = Some l' -> l' <> l -> inss_Contains W l' (JIns i) = true).
Proof.
  repeat apply conj; intros H.
  - specialize (H [AT "cn"] (MLists.AStr "cn") eq_refl). discriminate H.
  - specialize (H ","%char [] (quote "add=cn:(x=1)")). cbv zeta in H. assert (X : afos_mem (afos_push (MkAFOs "," []) [ASStr (quote "add=cn:(x=1)")]) <> []) by (vm_compute; discriminate).
    specialize (H X). vm_compute in H. discriminate H.
  - specialize (H W0 [] _ (ACI W0 [IStr "a  b"; IPBR theA]) (fun s => eqfold_refl s) eq_refl ltac:(discriminate)). vm_compute in H. discriminate H.
Qed.
Print Assumptions C82_names.
Print Assumptions C82_oids.
Print Assumptions C82_filters.
Print Assumptions C82_operations.
Print Assumptions C82_operation_texts.
Print Assumptions C82_target_rules.
Print Assumptions C82_permission_bind_rules.
Print Assumptions C82_instructions.
Print Assumptions C82_instructions_accepted.
Print Assumptions C82_attributes_accepted.
Print Assumptions C82_refuted.
Example C82_witness :
  agree [MDN (UDN "cn=a")] (dn_push eqfold badBDN true BindUDN [MDN (UDN "cn=a")] [DStr "CN=A"]) true true /\
  dn_Contains eqfold badBDN true BindUDN [MDN (UDN "cn=a")] (DCArg (DStr "CN=A")) = true /\
  (exists l', pbrs_push W0 [theA] [PLStr "B"] = Some l' /\ l' <> [theA] /\ pbrs_Contains W0 l' (PLStr "B") = Some true) /\
  pbrs_push W0 [theA] [PLStr "A"] = Some [theA] /\ pbrs_Contains W0 [theA] (PLStr "A") = Some true.
Proof.
  repeat apply conj; try (vm_compute; reflexivity); try (vm_compute; tauto).
  exists [theA; theB]. repeat apply conj; [vm_compute; reflexivity|discriminate|vm_compute; reflexivity].
Qed.

(* ---- C83: Pop, Len and Index ---- *)
(* a list is its members, from Index 0 to Index Len-1 *)
Lemma index_in {A} (outside : Z -> option A) (l : list A) i : stk_index outside l (Z.of_nat i) =
  if (i <? stk_len l)%nat then nth_error l i else outside (Z.of_nat i).
Proof.
  unfold stk_index, stk_len. rewrite Nat2Z.id. destruct (Nat.ltb_spec i (List.length l)) as [L|L].
  - replace (0 <=? Z.of_nat i)%Z with true by (symmetry; apply Z.leb_le; lia).
    replace (Z.of_nat i <? Z.of_nat (List.length l))%Z with true by (symmetry; apply Z.ltb_lt; lia). reflexivity.
  - replace (Z.of_nat i <? Z.of_nat (List.length l))%Z with false by (symmetry; apply Z.ltb_ge; lia). now rewrite andb_false_r.
Qed.
Lemma popped_last {A} (l : list A) x : stk_popped (l ++ [x])%list = Some x.
Proof. unfold stk_popped. rewrite app_length. cbn [List.length]. rewrite Nat.add_sub. rewrite nth_error_app2, Nat.sub_diag by lia. reflexivity. Qed.
Lemma pop_last {A} (l : list A) x : pop (l ++ [x])%list = l.
Proof. apply removelast_last. Qed.
Lemma snoc_or_nil {A} (l : list A) : l = [] \/ exists l' x, l = (l' ++ [x])%list.
Proof. destruct l as [|a l] using rev_ind; [now left|right; now exists l, a]. Qed.
(* [pops l popped index]: Pop gives the value Index gives for the last place and leaves
   the others, in order, one fewer; on an empty list it gives the zero value [z] *)
Definition pops {A V} (l : list A) (popped : V) (index : list A -> Z -> V) (z : V) : Prop :=
  (l = [] -> popped = z /\ pop l = []) /\
  (l <> [] -> popped = index l (Z.of_nat (stk_len l) - 1)%Z /\ S (stk_len (pop l)) = stk_len l /\
     forall i, (i < stk_len (pop l))%nat -> index (pop l) (Z.of_nat i) = index l (Z.of_nat i)).
Lemma pops_gen {A V} (outside : Z -> option A) (f : option A -> V) (l : list A) :
  pops l (f (stk_popped l)) (fun l i => f (stk_index outside l i)) (f None).
Proof.
  split.
  - intros ->. now split.
  - intros N. destruct (snoc_or_nil l) as [->|(l' & x & ->)]; [now destruct N|]. rewrite pop_last, popped_last.
    assert (L : stk_len (l' ++ [x])%list = S (stk_len l')) by (unfold stk_len; rewrite app_length; cbn; lia).
    repeat apply conj.
    + rewrite L. replace (Z.of_nat (S (stk_len l')) - 1)%Z with (Z.of_nat (stk_len l')) by lia. rewrite index_in, L.
      replace (stk_len l' <? S (stk_len l'))%nat with true by (symmetry; apply Nat.ltb_lt; lia).
      unfold stk_len. rewrite nth_error_app2, Nat.sub_diag by lia. reflexivity.
    + now rewrite L.
    + intros i Hi. rewrite !index_in, L. replace (i <? stk_len l')%nat with true by (symmetry; now apply Nat.ltb_lt).
      replace (i <? S (stk_len l'))%nat with true by (symmetry; apply Nat.ltb_lt; lia). now rewrite nth_error_app1.
Qed.
Theorem C83_attributes : forall outside l, pops l (at_popped l) (at_Index outside) None.
Proof. intros outside l. exact (pops_gen outside (fun o => match o with Some a => a | None => None end) l). Qed.
Theorem C83_filters : forall outside l, pops l (afo_popped l) (afo_Index outside) None.
Proof. intros outside l. exact (pops_gen outside (fun o => match o with Some a => a | None => None end) l). Qed.
Theorem C83_target_rules : forall outside l, pops l (trs_popped l) (trs_Index outside) None.
Proof. intros outside l. exact (pops_gen outside (fun o => match o with Some a => a | None => None end) l). Qed.
Theorem C83_permission_bind_rules : forall outside l, pops l (pbrs_popped l) (pbrs_Index outside) None.
Proof. intros outside l. exact (pops_gen outside (fun o => match o with Some a => a | None => None end) l). Qed.
Theorem C83_instructions : forall outside l, pops l (inss_popped l) (inss_Index outside) None.
Proof. intros outside l. exact (pops_gen outside (fun o => match o with Some a => a | None => None end) l). Qed.
Theorem C83_oids : forall outside l, pops l (oid_popped l) (oid_Index outside) None.
Proof. intros outside l. exact (pops_gen outside (fun o => match o with Some (OOid a) => a | _ => None end) l). Qed.
(* a rule stack: the members of its text *)
Theorem C83_bind_rules : forall w p f d l x,
  brs_popped (Stk w p f d (l ++ [x])%list) = Some x /\ brs_pop (Stk w p f d (l ++ [x])%list) = Stk w p f d l /\
  brs_popped (Stk w p f d []) = None.
Proof. intros. cbn [brs_popped brs_pop]. now rewrite popped_last, pop_last. Qed.
(* Index gives the members as they were pushed *)
Theorem C83_index : forall eqf bad uris kw l xs outside i x, nth_error l i = Some x ->
  dn_Index outside (dn_push eqf bad uris kw l xs) (Z.of_nat i) = x.
Proof.
  intros eqf bad uris kw l xs outside i x H. unfold dn_Index. rewrite index_in.
  assert (G : nth_error (dn_push eqf bad uris kw l xs) i = Some x).
  { revert l H. induction xs as [|y xs IH]; intros l H; [exact H|]. cbn [dn_push]. destruct (push_cast uris kw y); [|exact H].
    apply IH. unfold push1. destruct (dn_policy _ _ _ _); [|exact H]. rewrite nth_error_app1; [exact H|]. apply nth_error_Some. congruence. }
  rewrite G. replace (i <? stk_len _)%nat with true; [reflexivity|]. symmetry. apply Nat.ltb_lt, nth_error_Some. unfold stk_len in *. congruence.
Qed.
(* names: Index gives names and URIs, Pop only names; false for a list of URIs *)
Theorem C83_names_partial : forall outside l d, l <> [] -> (forall t, last l (MDN None) <> MURI t) ->
  (dn_Index outside l (Z.of_nat (stk_len l) - 1) = MDN d <-> dn_popped l = d) /\ S (stk_len (pop l)) = stk_len l /\
  forall i, (i < stk_len (pop l))%nat -> dn_Index outside (pop l) (Z.of_nat i) = dn_Index outside l (Z.of_nat i).
Proof.
  intros outside l d N U. destruct (pops_gen outside (fun o => match o with Some m => m | None => MDN None end) l) as [_ P].
  destruct (P N) as (P1 & P2 & P3). repeat apply conj; [| |exact P2|exact P3].
  - intros H. unfold dn_Index in H. rewrite <- P1 in H. unfold dn_popped. destruct (stk_popped l) as [m|]; cbn in H; [now rewrite H|injection H as <-; reflexivity].
  - intros H. unfold dn_Index. rewrite <- P1. unfold dn_popped in H. destruct (snoc_or_nil l) as [->|(l' & x & ->)]; [now destruct N|].
    rewrite popped_last in *. rewrite last_last in U. destruct x as [d'|t]; [now rewrite <- H|now destruct (U t)].
Qed.
Theorem C83_refuted :
  ~ (forall outside l, pops l (MDN (dn_popped l)) (dn_Index outside) (MDN None)) /\
  ~ (forall eqf dotnot kw xs l, l = ol_mem (oid_run eqf dotnot kw xs []) -> l <> [] ->
       exists outside, oid_valid (oid_Index outside l 0) = true).
Proof.
  split; intros H.
  - specialize (H (fun _ => None) [MURI "ldap:///cn=b??sub?"]). destruct H as [_ H]. destruct (H ltac:(discriminate)) as [H' _]. discriminate H'.
  - destruct (H eqfold (fun s => Some s) TargetCtrl [OKey TargetCtrl] _ eq_refl ltac:(discriminate)) as [o E]. discriminate E.
Qed.
Print Assumptions C83_attributes.
Print Assumptions C83_filters.
Print Assumptions C83_target_rules.
Print Assumptions C83_permission_bind_rules.
Print Assumptions C83_instructions.
Print Assumptions C83_oids.
Print Assumptions C83_bind_rules.
Print Assumptions C83_index.
Print Assumptions C83_names_partial.
Print Assumptions C83_refuted.
Example C83_witness : forall outside outside',
  at_popped [AT "cn"; AT "sn"] = AT "sn" /\ pop [AT "cn"; AT "sn"] = [AT "cn"] /\ at_Index outside [AT "cn"; AT "sn"] 1 = AT "sn" /\
  dn_popped [MDN (UDN "cn=a"); MDN (UDN "cn=b")] = UDN "cn=b" /\
  dn_Index outside' (dn_run eqfold badBDN true BindUDN [DStr "cn=a"; DURI "ldap:///cn=b??sub?"] []) 1 = MURI "ldap:///cn=b??sub?" /\
  oid_popped (ol_mem (oid_run eqfold (fun s => Some s) TargetCtrl [MLists.OStr "1.3.6"; MLists.OStr "1.3.7"] [])) = Some (MkOID TargetCtrl (Some "1.3.7")).
Proof. intros outside outside'. repeat apply conj; vm_compute; reflexivity. Qed.

(* ---- C84: Parse ---- *)
(* What a text says does not depend on the receiver; a text that is refused leaves
   the receiver as it was. *)
Definition transactional {R I} (P : R -> I -> option (R * bool)) : Prop :=
  forall s, (forall r, P r s = None) \/ (forall r, P r s = Some (r, false)) \/ (exists v, forall r, P r s = Some (v, true)).
(* a sequence of Parse calls *)
Fixpoint parses {R I} (P : R -> I -> option (R * bool)) (r : R) (h : list I) : option R :=
  match h with [] => Some r | s :: t => match P r s with None => None | Some (r', _) => parses P r' t end end.
(* the value is the one the last accepted text gives to any receiver, or the first
   value when no text was accepted *)
Definition last_accepted {R I} (P : R -> I -> option (R * bool)) : Prop :=
  forall r h r', parses P r h = Some r' ->
    (r' = r /\ forall s, In s h -> P r s = Some (r, false)) \/
    (exists h1 s h2, h = (h1 ++ s :: h2)%list /\ (forall x, P x s = Some (r', true)) /\
       forall t, In t h2 -> forall x, P x t = Some (x, false)).
Lemma trans_last {R I} (P : R -> I -> option (R * bool)) : transactional P -> last_accepted P.
Proof.
  intros T r h. revert r. induction h as [|s h IH]; intros r r' H; cbn [parses] in H.
  - injection H as <-. left. now split.
  - destruct (T s) as [N|[F|[v A]]].
    + now rewrite N in H.
    + rewrite F in H. destruct (IH r r' H) as [[-> E]|(h1 & s' & h2 & -> & E1 & E2)].
      * left. split; [reflexivity|]. intros t [<-|I']; [apply F|now apply E].
      * right. exists (s :: h1), s', h2. repeat apply conj; [reflexivity|exact E1|exact E2].
    + rewrite A in H. destruct (IH v r' H) as [[-> E]|(h1 & s' & h2 & -> & E1 & E2)].
      * right. exists [], s, h. repeat apply conj; [reflexivity|exact A|]. intros t I' x.
        destruct (T t) as [N'|[F'|[w A']]]; [|apply F'|]; specialize (E t I'); [rewrite N' in E|rewrite A' in E]; discriminate E.
      * right. exists (s :: h1), s', h2. repeat apply conj; [reflexivity|exact E1|exact E2].
Qed.
Ltac trans f := intros; intros s; unfold f; cbv beta;
  match goal with |- context [match ?e with Panics => _ | Fails => _ | Gives _ => _ end] =>
    destruct e as [| |v]; [left; reflexivity|right; left; reflexivity|right; right; now exists v] end.
Theorem C84_bind : forall W brs, transactional (BindRule_Parse W) /\ transactional (BindRules_Parse W brs).
Proof. intros W brs. split; [trans BindRule_Parse|trans BindRules_Parse]. Qed.
Theorem C84_target : forall W, transactional (TargetRule_Parse W) /\ transactional (TargetRules_Parse W).
Proof. intros W. split; [trans TargetRule_Parse|trans TargetRules_Parse]. Qed.
Theorem C84_permission : forall W pm, transactional (Permission_Parse W pm) /\ transactional (PermissionBindRule_Parse W) /\
  transactional (PermissionBindRules_Parse W) /\ transactional (Instruction_Parse W).
Proof. intros W pm. repeat apply conj; [trans Permission_Parse|trans PermissionBindRule_Parse|trans PermissionBindRules_Parse|trans Instruction_Parse]. Qed.
(* these never panic *)
Theorem C84_texts :
  transactional (fun r raw => Some (LDAPURI_Parse r raw)) /\
  transactional (fun r x => Some (AFOs_Parse r (fst x) (snd x))) /\
  transactional (fun r raw => Some (AFO_Parse r raw)) /\
  transactional (fun r raw => Some (AF_Parse r raw)) /\
  transactional (fun r x => Some (ABTV_Parse r (fst x) (snd x))).
Proof.
  repeat apply conj; intros s; [unfold LDAPURI_Parse; destruct (parseLDAPURI s [])|unfold AFOs_Parse; destruct (parseAFOs (fst s) (snd s))|
    unfold AFO_Parse; destruct (parseAFO s)|unfold AF_Parse; destruct (af_parse s)|unfold ABTV_Parse; destruct (abtv_parse (fst s) (snd s))];
  try (right; left; reflexivity); right; right; eexists; intros r; reflexivity.
Qed.
(* the value the last accepted text gives, after any sequence of calls *)
Theorem C84_history : forall W brs pm,
  last_accepted (BindRule_Parse W) /\ last_accepted (BindRules_Parse W brs) /\ last_accepted (TargetRule_Parse W) /\
  last_accepted (TargetRules_Parse W) /\ last_accepted (Permission_Parse W pm) /\ last_accepted (PermissionBindRule_Parse W) /\
  last_accepted (PermissionBindRules_Parse W) /\ last_accepted (Instruction_Parse W) /\
  last_accepted (fun r raw => Some (LDAPURI_Parse r raw)) /\ last_accepted (fun r x => Some (AFOs_Parse r (fst x) (snd x))) /\
  last_accepted (fun r raw => Some (AFO_Parse r raw)) /\ last_accepted (fun r raw => Some (AF_Parse r raw)) /\
  last_accepted (fun r x => Some (ABTV_Parse r (fst x) (snd x))).
Proof.
  intros W brs pm. destruct (C84_bind W brs), (C84_target W), (C84_permission W pm) as (? & ? & ? & ?), C84_texts as (? & ? & ? & ? & ?).
  repeat apply conj; now apply trans_last.
Qed.
(* an accepted instruction is valid, an accepted filter is what its text says *)
Theorem C84_accepted : forall W r raw i, Instruction_Parse W r raw = Some (i, true) -> ins_valid i = true.
Proof.
  intros W r raw i H. unfold Instruction_Parse in H. destruct (parseInstruction W raw) as [| |x] eqn:E; try discriminate. injection H as <-.
  unfold parseInstruction in E. destruct (w_ins W _); [|discriminate]. destruct (processTRs _ _) as [[t ?]|]; [|discriminate].
  destruct (processPBRs _ _ _) as [[p ?]|]; [|discriminate]. destruct (ins_valid _) eqn:V in E; [|discriminate]. injection E as <-. exact V.
Qed.
Print Assumptions C84_bind.
Print Assumptions C84_target.
Print Assumptions C84_permission.
Print Assumptions C84_texts.
Print Assumptions C84_history.
Print Assumptions C84_accepted.
Example C84_witness :
  parses (Instruction_Parse W0) None ["A"; "none"; "B"; "none"] = Some (Some (got "B")) /\
  parses (PermissionBindRule_Parse W0) None ["A"; "B"; "zzz"] = Some theB /\
  PermissionBindRule_Parse W0 theA "zzz" = Some (theA, false) /\
  parses (fun r raw => Some (AF_Parse r raw)) None ["cn:(a=b)"; "nonsense"] = Some (Some (Some "cn", Some "(a=b)")).
Proof. repeat apply conj; vm_compute; reflexivity. Qed.
