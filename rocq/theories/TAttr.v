(* Theorems for C22-C25 (attribute names, attr#value). *)
From Coq Require Import String Ascii List PeanoNat NArith ZArith Bool Permutation Lia.
From Verif Require Import GoStr GoStrFacts Shifty MMisc MKw MAttr SAttr PKw PAttr.
Import ListNotations.
Open Scope string_scope.

(* C22 *)
Theorem C22_accepted : forall s, attr_name s ->
  at_string (AT s) = s /\ at_isZero (AT s) = false.
Proof.
  intros s H. rewrite (AT_name s H). split; [easy|]. cbn [at_isZero].
  apply attr_name_nonempty in H. now destruct s.
Qed.
Theorem C22_rejected : forall s, ~ attr_name s -> at_isZero (AT s) = true /\ AT s = None.
Proof. intros s H. destruct (AT_iff s) as [[_ N]|[-> _]]; [contradiction|easy]. Qed.
(* on ASCII text the letters are a-z and A-Z *)
Theorem C22_ascii_letters : forall c, ascii_byte c = true -> letter c = ascii_letter c.
Proof. intros c. destruct c as [[] [] [] [] [] [] [] []]; intros H; vm_compute in H; try discriminate H; reflexivity. Qed.
Print Assumptions C22_accepted.
Print Assumptions C22_rejected.
Print Assumptions C22_ascii_letters.
Example C22_witness : attr_name "cn;lang-en" /\ attr_name "*" /\ ~ attr_name "c n" /\ ~ attr_name "cn-" /\ ~ attr_name "".
Proof.
  assert (D : forall s, AT s = None -> ~ attr_name s) by (intros s E H; rewrite (AT_name s H) in E; discriminate).
  split; [left; now apply identifier_iff|]. split; [now right|]. repeat split; apply D; reflexivity.
Qed.

(* C23: what is printed reads back to the same pair, for every attribute name
   and every bind type or value *)
Theorem C23_print : forall kw a w, attr_name a -> what_ok w ->
  abtv_string (userOrGroupAttr kw [BStr a; BStr (what_text w)]) = Some (a ++ "#" ++ what_text w).
Proof.
  intros kw a w Ha Hw. unfold userOrGroupAttr, abtv_string, pair_set, pair_nil.
  cbn [ab_pair fold_left pair_set1]. rewrite (AT_name a Ha).
  assert (E := what_read w Hw). destruct (matchBT (what_text w) =? 0)%N; cbn [negb] in E; rewrite E; now apply pair_text.
Qed.
Theorem C23_round_trip : forall kw a w, kw = BindUAT \/ kw = BindGAT -> attr_name a -> what_ok w ->
  abtv_string (MkABTV kw (Some (pair_of a w))) = Some (a ++ "#" ++ what_text w) /\
  parseATBTV (a ++ "#" ++ what_text w) [Some kw] = Some (MkABTV kw (Some (pair_of a w))).
Proof.
  intros kw a w Hk Ha Hw. split; [now apply pair_text|].
  change ("#" ++ what_text w) with (String "#" (what_text w)).
  rewrite parse_hash by now apply attr_name_no_hash. rewrite (AT_name a Ha), what_read by easy.
  unfold pair_of. do 2 f_equal. now destruct Hk as [->| ->].
Qed.
(* reading: exactly the texts with a # whose part before the first # is an
   attribute name are accepted; after it, a bind type name in any letter case is
   that bind type and any other text is kept as it is *)
Theorem C23_accept : forall x kws,
  (exists r, parseATBTV x kws = Some r) <-> exists a v, x = a ++ "#" ++ v /\ attr_name a.
Proof.
  intros x kws. split.
  - intros [r H]. destruct (idx "#" x) as [i|] eqn:E; [|unfold parseATBTV in H; rewrite E in H; discriminate].
    apply idx_split in E as (a & v & Ex & Hno & _). exists a, v. split; [exact Ex|].
    rewrite Ex, parse_hash in H by easy. destruct (AT_iff a) as [[_ N]|[E _]]; [exact N|]. rewrite E in H. discriminate.
  - intros (a & v & -> & Ha). change ("#" ++ v) with (String "#" v). rewrite parse_hash by now apply attr_name_no_hash.
    rewrite (AT_name a Ha). eauto.
Qed.
Theorem C23_read_type : forall a v kws n, attr_name a -> (1 <= n <= 5)%N -> eqfold v (bt_string n) = true ->
  exists r, parseATBTV (a ++ "#" ++ v) kws = Some r /\ ab_pair r = Some (pair_of a (WType n)).
Proof.
  intros a v kws n Ha Hn Hv. change ("#" ++ v) with (String "#" v). rewrite parse_hash by now apply attr_name_no_hash.
  rewrite (AT_name a Ha). assert (E : matchBT v = n).
  { assert (X : exists k, n = SKw.bindtype_const k /\ bt_string n = SKw.bindtype_name k).
    { assert (E : (n = 1 \/ n = 2 \/ n = 3 \/ n = 4 \/ n = 5)%N) by lia.
      repeat destruct E as [->|E]; subst;
      [exists SKw.BtUser|exists SKw.BtGroup|exists SKw.BtRole|exists SKw.BtSelf|exists SKw.BtURL]; easy. }
    destruct X as (k & -> & Ek). rewrite Ek in Hv. unfold matchBT.
    now apply (bindtype_lookup btMap (Permutation_refl _) v). }
  rewrite E. destruct (N.eqb_spec n 0); [lia|]. eexists. split; [reflexivity|]. reflexivity.
Qed.
Theorem C23_read_value : forall a v kws, attr_name a -> v <> "" -> (forall n, (1 <= n <= 5)%N -> eqfold v (bt_string n) = false) ->
  exists r, parseATBTV (a ++ "#" ++ v) kws = Some r /\ ab_pair r = Some (pair_of a (WValue v)).
Proof.
  intros a v kws Ha Hv H. change ("#" ++ v) with (String "#" v). rewrite parse_hash by now apply attr_name_no_hash.
  rewrite (AT_name a Ha). assert (E : matchBT v = 0%N).
  { unfold matchBT. apply (bindtype_lookup btMap (Permutation_refl _) v). intros k.
    replace (SKw.bindtype_name k) with (bt_string (SKw.bindtype_const k)) by now destruct k.
    apply H. destruct k; cbn; lia. }
  rewrite E. cbn [negb N.eqb]. unfold AV. destruct v; [easy|]. eexists. split; reflexivity.
Qed.
Print Assumptions C23_print.
Print Assumptions C23_round_trip.
Print Assumptions C23_accept.
Print Assumptions C23_read_type.
Print Assumptions C23_read_value.
Example C23_witness : attr_name "manager" /\ what_ok (WType USERDN) /\ what_ok (WValue "a#b c") /\
  parseATBTV "manager#userdn" [Some BindGAT] = Some (MkABTV BindGAT (Some (pair_of "manager" (WType USERDN)))).
Proof.
  split; [left; now apply identifier_iff|]. split; [unfold what_ok, USERDN; lia|]. split; [split; [discriminate|reflexivity]|reflexivity].
Qed.

(* C24 is false: a text that ends at its only # is accepted and then cannot be
   printed. *)
Theorem C24_no_panic_refuted :
  ~ (forall x kws r, parseATBTV x kws = Some r -> abtv_string r <> None).
Proof. intros H. now apply (H "cn#" [] _ eq_refl). Qed.
(* Exactly those texts panic. *)
Theorem C24_exact : forall x kws r, parseATBTV x kws = Some r ->
  (abtv_string r = None <-> exists a, attr_name a /\ x = a ++ "#").
Proof.
  intros x kws r H. destruct (proj1 (C23_accept x kws) (ex_intro _ r H)) as (a & v & -> & Ha).
  change ("#" ++ v) with (String "#" v) in *. rewrite parse_hash in H by now apply attr_name_no_hash.
  rewrite (AT_name a Ha) in H. injection H as <-. unfold abtv_string. cbn [ab_pair].
  split.
  - intros H. exists a. split; [easy|]. destruct (negb (matchBT v =? 0)%N) eqn:E; cbn [pair_string] in H.
    + destruct (matchBT v =? 0)%N; discriminate.
    + unfold AV in H. destruct v as [|c v]; [easy|]. cbn in H. discriminate.
  - intros (b & Hb & E). assert (v = "").
    { assert (L : idx "#" (a ++ String "#" v) = idx "#" (b ++ "#")) by now rewrite E.
      rewrite (idx_app "#" a v), (idx_app "#" b "") in L by now apply attr_name_no_hash. injection L as L.
      apply (app_inj_len a (String "#" v) b "#") in E; [|exact L]. now destruct E as [_ E]; injection E. }
    subst v. reflexivity.
Qed.
Print Assumptions C24_no_panic_refuted.
Print Assumptions C24_exact.

(* C25 is false: the keyword given to Parse is never used. *)
Theorem C25_keyword_kept_refuted :
  ~ (forall raw r, abtv_parse raw [Some BindGAT] = Some r -> abtv_keyword r = BindGAT).
Proof. intros H. specialize (H "cn#USERDN" _ eq_refl). discriminate H. Qed.
Theorem C25_exact : forall raw kws r, abtv_parse raw kws = Some r -> abtv_keyword r = BindUAT.
Proof.
  intros raw kws r H. unfold abtv_parse in H.
  destruct (proj1 (C23_accept raw [None]) (ex_intro _ r H)) as (a & v & -> & Ha).
  change ("#" ++ v) with (String "#" v) in *. rewrite parse_hash in H by now apply attr_name_no_hash.
  rewrite (AT_name a Ha) in H. injection H as <-. reflexivity.
Qed.
(* The bind rule reader, which passes the keyword itself, does keep it. *)
Theorem C25_rule_keeps_keyword : forall raw kw r, kw = BindUAT \/ kw = BindGAT ->
  parseATBTV raw [Some kw] = Some r -> abtv_keyword r = kw.
Proof.
  intros raw kw r Hk H.
  destruct (proj1 (C23_accept raw [Some kw]) (ex_intro _ r H)) as (a & v & -> & Ha).
  change ("#" ++ v) with (String "#" v) in *. rewrite parse_hash in H by now apply attr_name_no_hash.
  rewrite (AT_name a Ha) in H. injection H as <-. now destruct Hk as [->| ->].
Qed.
Print Assumptions C25_keyword_kept_refuted.
Print Assumptions C25_exact.
Print Assumptions C25_rule_keeps_keyword.
