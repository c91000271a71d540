(* C118, C119: what IsZero says, and what numbers outside an enumeration print. *)
From Coq Require Import String Ascii List PeanoNat NArith ZArith Bool Lia Permutation DecimalString DecimalN.
From Verif Require Import GoStr GoStrFacts Shifty MMisc MLists MKw MRights MTime MNet MSec MFilter MUri MAttr MRule MConv MTree MAci MInfo MLevels
  SKw SRights STime SSec SMore SZero PRights.
Import ListNotations.
Open Scope string_scope.

Lemma to_uint_nonnil n : N.to_uint n <> Decimal.Nil.
Proof. destruct n as [|p]; [discriminate|]. intros H. assert (X := Unsigned.of_to (N.pos p)). rewrite H in X. discriminate X. Qed.
Lemma itoa_inj n m : itoa n = itoa m -> n = m.
Proof.
  unfold itoa. intros H. assert (X := NilZero.usu _ (to_uint_nonnil n)). rewrite H, NilZero.usu in X by apply to_uint_nonnil.
  injection X as X. now rewrite <- (Unsigned.of_to n), <- X, Unsigned.of_to.
Qed.

(* ---- C118 ---- *)
(* False: a call that stores nothing counts for some types, and for others a call that
   was given a value does not count. *)
Theorem C118_refuted :
  (ip_isZero (ipaddr_set None []) = false /\ ipaddr_len (ipaddr_set None []) = O) /\
  (fqdn_isZero (fqdn_set None [""]) = false /\ fqdn_Len (fqdn_set None [""]) = O) /\
  (forall sh, dow_isZero (dow_shift sh None []) = false) /\
  tod_isZero (tod_set None MTime.TOther) = false /\
  ssf_isZero (ssf_set None (SInt 0)) = true /\
  sf_isZero (sf_set None "") = true /\
  (forall W, pbr_isZero (Some (MkPB PNil None)) = true /\ pbr_set W None [] = Some (Some (MkPB PNil None))).
Proof. repeat split; reflexivity. Qed.
(* Exactly: addresses, names, clock times, URIs and instructions are zero until the
   first call of Set, whatever it is given; days until the first call of Shift *)
Theorem C118_calls_exact :
  (forall h, ip_isZero (fold_left ipaddr_set h None) = no_calls h) /\
  (forall h, fqdn_isZero (fold_left fqdn_set h None) = no_calls h) /\
  (forall h, tod_isZero (fold_left tod_set h None) = no_calls h) /\
  (forall h, luri_isZero (fold_left (fun u x => Some (uri_set (match u with Some u => u | None => uri_new end) x)) h None) = no_calls h) /\
  (forall W h, ins_isZero (fold_left (ins_set W) h None) = no_calls h) /\
  (forall sh h, dow_isZero (dow_run sh None h) = negb (existsb is_shift h)).
Proof.
  assert (G : forall T A (f : option T -> A -> option T) (z : option T -> bool), z None = true -> (forall x, z (Some x) = false) -> (forall v a, f v a <> None) ->
    forall h, z (fold_left f h None) = no_calls h).
  { intros T A f z Z N F h. destruct h as [|a h]; [exact Z|]. cbn [fold_left no_calls].
    assert (X : forall h v, v <> None -> z (fold_left f h v) = false).
    { induction h0 as [|b h0 IH]; intros v V; cbn [fold_left]; [|apply IH, F]. destruct v as [x|]; [apply N|now destruct V]. }
    apply X, F. }
  repeat apply conj; [intros h; now apply G|intros h; now apply G|intros h; now apply G|intros h; now apply G|intros W h; now apply G|].
  - intros sh h. unfold dow_run.
    assert (X : forall h v, v <> None -> dow_isZero (fold_left (dow_step sh) h v) = false).
    { induction h0 as [|b h0 IH]; intros v V; cbn [fold_left]; [now destruct v|]. apply IH. destruct v as [v|]; [|now destruct V]. now destruct b. }
    induction h as [|[xs|xs] h IH]; cbn [fold_left existsb is_shift orb negb dow_step dow_shift dow_unshift]; [reflexivity|now apply X|exact IH].
Qed.
(* constructors never give a zero address, name, clock time or day, also without arguments *)
Theorem C118_constructors : forall sh x y z w,
  ip_isZero (IP x) = false /\ fqdn_isZero (DNS y) = false /\ tod_isZero (ToD z) = false /\ dow_isZero (DoW sh w) = false.
Proof. intros sh x y z w. repeat split; [now destruct y|now destruct z]. Qed.
(* strength factors and filters are zero exactly when there is nothing in them *)
Theorem C118_content_exact :
  (forall s, ssf_isZero s = true <-> ssf_string s = "0") /\
  (forall f, sf_isZero f = true <-> sf_string f = "") /\
  (forall h, sf_isZero (fold_left sf_set h None) = forallb (fun s => String.eqb s "") h) /\
  (forall r, pbr_isZero r = true <-> forall x, r = Some x -> perm_valid (pb_p x) = false /\ pb_b x = None).
Proof.
  repeat apply conj.
  - intros [[v|]|]; cbn; split; try easy. intros H. exfalso.
    change "0" with (itoa 0) in H. apply itoa_inj in H. lia.
  - intros [s|]; cbn; split; try easy; destruct s; easy.
  - intros h. assert (X : forall h v, sf_isZero (fold_left sf_set h v) = (sf_isZero v && forallb (fun s => String.eqb s "") h)%bool).
    { induction h0 as [|s h0 IH]; intros v; cbn [fold_left forallb]; [now rewrite andb_true_r|]. rewrite IH.
      unfold sf_set. destruct s as [|c s]; cbn; [now destruct v|]. now rewrite andb_false_r. }
    apply X.
  - intros [[[|d v] [b|]]|]; cbn; split; intros H; try easy; try (now intros x [= <-]);
      destruct (H _ eq_refl) as [A B]; try discriminate A; try discriminate B.
Qed.
Print Assumptions C118_refuted.
Print Assumptions C118_calls_exact.
Print Assumptions C118_constructors.
Print Assumptions C118_content_exact.
Example C118_witness : ip_isZero (fold_left ipaddr_set [["10.0.0.1"]; []] None) = false /\
  dow_isZero (dow_run shifty_ref None [DUnshift [DInt 1]]) = true /\ dow_isZero (dow_run shifty_ref None [DUnshift [DInt 1]; DShift [DInt 1]; DUnshift [DInt 1]]) = false /\
  ssf_isZero (SSF [SInt 128]) = false /\ sf_isZero (fold_left sf_set [""; "(cn=a)"; ""] None) = false.
Proof. repeat split. Qed.

(* ---- C119 ---- *)
Theorem C119_marks :
  tells bkw_string bindkw_const bindkw_name "<invalid_bind_keyword>" /\
  tells tkw_string targetkw_const targetkw_name "<invalid_target_keyword>" /\
  tells bt_string bindtype_const bindtype_name "<invalid_bind_type>" /\
  tells right_string ro_const ro_name "" /\
  tells day_string day_const day_name "<invalid_days>" /\
  tells scope_string scope_const scope_target_name "".
Proof.
  assert (G : forall K (print : N -> string) (const : K -> N) name mark,
    (forall k, print (const k) = name k) -> (forall n, print n = mark \/ exists k, n = const k) -> (forall k, name k <> mark) ->
    (forall j k, name j = name k -> j = k) -> tells print const name mark).
  { intros K print const name mark A B C D. repeat split; trivial. intros n N. destruct (B n) as [H|[k ->]]; [exact H|]. now destruct (N k). }
  split; [apply G|split; [apply G|split; [apply G|split; [apply G|split; apply G]]]].
  all: try (intros k; destruct k as [| |[]] || destruct k; (reflexivity || discriminate)).
  all: try (intros j k; destruct j as [| |[]] || destruct j; destruct k as [| |[]] || destruct k; (reflexivity || discriminate)).
  all: intros n.
  - unfold bkw_string, bkwMap. cbn [tbl_get]. 
    destruct (N.eqb_spec BindUDN n) as [E|_]; [right; now exists UserDN|]. destruct (N.eqb_spec BindRDN n) as [E|_]; [right; now exists RoleDN|].
    destruct (N.eqb_spec BindGDN n) as [E|_]; [right; now exists GroupDN|]. destruct (N.eqb_spec BindUAT n) as [E|_]; [right; now exists UserAttr|].
    destruct (N.eqb_spec BindGAT n) as [E|_]; [right; now exists GroupAttr|]. destruct (N.eqb_spec BindIP n) as [E|_]; [right; now exists IPAddr|].
    destruct (N.eqb_spec BindDNS n) as [E|_]; [right; now exists DNSName|]. destruct (N.eqb_spec BindDoW n) as [E|_]; [right; now exists DayOfWeek|].
    destruct (N.eqb_spec BindToD n) as [E|_]; [right; now exists TimeOfDay|]. destruct (N.eqb_spec BindAM n) as [E|_]; [right; now exists AuthMethod|].
    destruct (N.eqb_spec BindSSF n) as [E|_]; [right; now exists StrengthFactor|]. now left.
  - unfold tkw_string, tkwMap. cbn [tbl_get].
    destruct (N.eqb_spec Target n) as [E|_]; [right; now exists TgTarget|]. destruct (N.eqb_spec TargetTo n) as [E|_]; [right; now exists TgTo|].
    destruct (N.eqb_spec TargetAttr n) as [E|_]; [right; now exists TgAttr|]. destruct (N.eqb_spec TargetCtrl n) as [E|_]; [right; now exists TgCtrl|].
    destruct (N.eqb_spec TargetFrom n) as [E|_]; [right; now exists TgFrom|]. destruct (N.eqb_spec TargetScope n) as [E|_]; [right; now exists TgScope|].
    destruct (N.eqb_spec TargetFilter n) as [E|_]; [right; now exists TgFilter|]. destruct (N.eqb_spec TargetAttrFilters n) as [E|_]; [right; now exists TgAttrFilters|].
    destruct (N.eqb_spec TargetExtOp n) as [E|_]; [right; now exists TgExtOp|]. now left.
  - unfold bt_string, btMap. cbn [tbl_get].
    destruct (N.eqb_spec USERDN n) as [E|_]; [right; now exists BtUser|]. destruct (N.eqb_spec ROLEDN n) as [E|_]; [right; now exists BtRole|].
    destruct (N.eqb_spec SELFDN n) as [E|_]; [right; now exists BtSelf|]. destruct (N.eqb_spec GROUPDN n) as [E|_]; [right; now exists BtGroup|].
    destruct (N.eqb_spec LDAPURL n) as [E|_]; [right; now exists BtURL|]. now left.
  - unfold right_string, rightsMap. cbn [lookup_num].
    destruct (N.eqb_spec NoAccess n) as [E|_]; [right; now exists Nothing|]. destruct (N.eqb_spec ReadAccess n) as [E|_]; [right; now exists (One Read)|].
    destruct (N.eqb_spec WriteAccess n) as [E|_]; [right; now exists (One Write)|]. destruct (N.eqb_spec AddAccess n) as [E|_]; [right; now exists (One Add)|].
    destruct (N.eqb_spec DeleteAccess n) as [E|_]; [right; now exists (One Delete)|]. destruct (N.eqb_spec SearchAccess n) as [E|_]; [right; now exists (One Search)|].
    destruct (N.eqb_spec CompareAccess n) as [E|_]; [right; now exists (One Compare)|]. destruct (N.eqb_spec SelfWriteAccess n) as [E|_]; [right; now exists (One SelfWrite)|].
    destruct (N.eqb_spec AllAccess n) as [E|_]; [right; now exists Everything|]. destruct (N.eqb_spec ProxyAccess n) as [E|_]; [right; now exists (One Proxy)|].
    destruct (N.eqb_spec ImportAccess n) as [E|_]; [right; now exists (One Import)|]. destruct (N.eqb_spec ExportAccess n) as [E|_]; [right; now exists (One Export)|]. now left.
  - unfold day_string. destruct (N.eqb_spec n Sun) as [->|_]; [right; now exists DSun|]. destruct (N.eqb_spec n Mon) as [->|_]; [right; now exists DMon|].
    destruct (N.eqb_spec n Tues) as [->|_]; [right; now exists DTue|]. destruct (N.eqb_spec n Wed) as [->|_]; [right; now exists DWed|].
    destruct (N.eqb_spec n Thur) as [->|_]; [right; now exists DThu|]. destruct (N.eqb_spec n Fri) as [->|_]; [right; now exists DFri|].
    destruct (N.eqb_spec n Sat) as [->|_]; [right; now exists DSat|]. now left.
  - unfold scope_string. destruct (N.eqb_spec n BaseObject) as [->|_]; [right; now exists ScBase|]. destruct (N.eqb_spec n SingleLevel) as [->|_]; [right; now exists ScOne|].
    destruct (N.eqb_spec n Subtree) as [->|_]; [right; now exists ScSub|]. destruct (N.eqb_spec n Subordinate) as [->|_]; [right; now exists ScChildren|]. now left.
Qed.
(* authentication methods: the name in the case that AuthenticationMethodLowerCase asks for *)
Theorem C119_auth : forall t low, Permutation t authNames ->
  tells (auth_string_in t low) authm_const (fun m => if low then lc (authm_name m) else authm_name m) "".
Proof.
  intros t low P.
  assert (G : forall t n, (forall k v, In (k, v) t -> v <> n) -> auth_string_in t low n = "").
  { induction t0 as [|[k v] t0 IH]; intros n H; [reflexivity|]. cbn [auth_string_in]. destruct (N.eqb_spec v n) as [E|_]; [exfalso; apply (H k v); [now left|exact E]|].
    apply IH. intros k' v' I. apply (H k' v'). now right. }
  assert (U : forall t k v, In (k, v) t -> (forall k', In (k', v) t -> k' = k) -> auth_string_in t low v = foldAuthenticationMethod low k).
  { induction t0 as [|[k v] t0 IH]; intros k' v' I H; [destruct I|]. cbn [auth_string_in]. destruct (N.eqb_spec v v') as [->|N].
    - f_equal. apply H. now left.
    - destruct I as [[= -> ->]|I]; [now destruct N|]. apply IH; [exact I|]. intros k2 I2. apply H. now right. }
  assert (M : forall m, exists k, In (k, authm_const m) authNames /\ (forall k', In (k', authm_const m) authNames -> k' = k) /\
                       foldAuthenticationMethod low k = (if low then lc (authm_name m) else authm_name m)).
  { intros m. destruct m; eexists; (split; [cbn; eauto 9|]); (split; [cbn; intros k' I; repeat (destruct I as [I|I]; [try discriminate I; now injection I as <-|]); destruct I|]);
      destruct low; reflexivity. }
  repeat apply conj.
  - intros m. destruct (M m) as (k & I & N & E). rewrite <- E. apply U; [now apply (Permutation_in _ (Permutation_sym P))|].
    intros k' I'. apply N. now apply (Permutation_in _ P).
  - intros n H. apply G. intros k v I E. apply (Permutation_in _ P) in I. cbn in I.
    destruct I as [[= _ <-]|[[= _ <-]|[[= _ <-]|[[= _ <-]|[[= _ <-]|[[= _ <-]|[[= _ <-]|[]]]]]]]].
    + now apply (H MNone). + now apply (H MSimple). + now apply (H MSSL). + now apply (H MSASL). + now apply (H MExternal). + now apply (H MDigest). + now apply (H MGSSAPI).
  - intros m. destruct m, low; discriminate.
  - intros j k. destruct j, k, low; (reflexivity || discriminate).
Qed.
(* False of the operations of attribute filters: every other number prints "add" *)
Theorem C119_refuted : forall mark, ~ tells aop_string op_const op_name mark.
Proof.
  intros mark (_ & B & C & _). apply (C OpAdd). rewrite <- (B 0%N); [reflexivity|]. intros []; discriminate.
Qed.
Theorem C119_operations_exact : forall n, (n = op_const OpDelete -> aop_string n = "delete") /\ (n <> op_const OpDelete -> aop_string n = "add").
Proof. intros n. unfold aop_string. destruct (N.eqb_spec n DelOp) as [->|N]; split; intros H; trivial; exfalso; [now apply H|now apply N]. Qed.
(* the three texts of an operator, and the levels of an inheritance *)
Theorem C119_operators :
  tells cop_string relop_const relop_symbol "<invalid_operator>" /\
  tells cop_context relop_const relop_short "<invalid_operator>" /\
  tells cop_description relop_const relop_long "<invalid_operator>".
Proof.
  assert (X : forall n, (forall k, n <> relop_const k) -> (n =? Eq = false /\ n =? Ne = false /\ n =? Lt = false /\ n =? Gt = false /\ n =? Le = false /\ n =? Ge = false)%N).
  { intros n H. repeat split; apply N.eqb_neq; [exact (H REq)|exact (H RNe)|exact (H RLt)|exact (H RGt)|exact (H RLe)|exact (H RGe)]. }
  assert (S : forall n, (forall k, n <> relop_const k) -> cop_string n = "<invalid_operator>").
  { intros n H. destruct (X n H) as (A & B & C & D & E & F). unfold cop_string. now rewrite A, B, C, D, E, F. }
  split; [|split]; (split; [intros []; reflexivity|]); (split; [|split; [intros []; discriminate|intros [] []; (reflexivity || discriminate)]]).
  - exact S.
  - intros n H. destruct (X n H) as (A & B & C & D & E & F). unfold cop_context. rewrite A, B, C, D, E, F. now apply S.
  - intros n H. destruct (X n H) as (A & B & C & D & E & F). unfold cop_description. rewrite A, B, C, D, E, F. now apply S.
Qed.
Theorem C119_levels :
  (forall n, (n < 10)%N -> lvl_string levelNumbers (2 ^ (n + 1)) = itoa n) /\
  (forall v, (forall n, (n < 10)%N -> v <> 2 ^ (n + 1))%N -> lvl_string levelNumbers v = "").
Proof.
  split.
  - intros n H. assert (T : In n [0;1;2;3;4;5;6;7;8;9]%N) by (cbn [In]; lia). cbn [In] in T.
    repeat (destruct T as [<-|T]; [reflexivity|]). destruct T.
  - intros v H. unfold levelNumbers. cbn [lvl_string].
    repeat match goal with |- context [(v =? level_const ?k)%N] => destruct (N.eqb_spec v (level_const k)) as [E|_]; [exfalso; apply (H k); [lia|exact E]|] end.
    reflexivity.
Qed.
Print Assumptions C119_operators.
Print Assumptions C119_levels.
Print Assumptions C119_marks.
Print Assumptions C119_auth.
Print Assumptions C119_refuted.
Print Assumptions C119_operations_exact.
Example C119_witness : bkw_string 12 = "<invalid_bind_keyword>" /\ right_string 3 = "" /\ right_string 895 = "all" /\ day_string 6 = "<invalid_days>" /\
  auth_string_in (rev authNames) true 6 = "sasl digest-md5".
Proof. repeat split. Qed.
