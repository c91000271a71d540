(* Theorems for C05-C08 (inheritance levels). *)
From Coq Require Import String Ascii List PeanoNat NArith ZArith Bool Lia.
From Verif Require Import GoStr GoStrFacts Shifty MMisc MKw MAttr MLevels SAttr PRights PKw PMisc PAttr.
Import ListNotations.
Open Scope string_scope.

(* C05: after any history on Inherit(a, init), a level is positive - asked as a
   constant, number or digit - exactly when the last call that mentions it was a
   Shift, and the attribute part is a. *)
Theorem C05_history : forall sh, shifty_ok sh -> forall a init h n x,
  abtv_isZero a = false -> lcalls_ok (IShift init :: h) -> (n < 10)%N ->
  x = LLevel (level_const n) \/ x = LInt (Z.of_N n) \/ x = LStr (digit n) ->
  inh_positive sh (inh_run sh (Inherit sh a init) h) x = level_in false (IShift init :: h) n.
Proof.
  intros sh OK a init h n x Ha Hh Hn Hx.
  assert (E : inh_run sh (Inherit sh a init) h = inh_run sh (Some (MkInh 0 a)) (IShift init :: h)).
  { change (inh_run sh (Some (MkInh 0 a)) (IShift init :: h)) with (inh_run sh (inh_shift sh (Some (MkInh 0 a)) init) h).
    unfold inh_shift. cbn [in_abtv]. now rewrite Ha. }
  rewrite E. destruct (lrun sh OK (IShift init :: h) a 0%N (fun _ => false) Ha) as (v & -> & [Hv _] & Hg).
  - split; easy.
  - intros m _. apply N.bits_0.
  - exact Hh.
  - rewrite (positive_bit sh OK a v x n); auto.
Qed.
Theorem C05_attribute_constant : forall sh a init h, abtv_isZero a = false ->
  exists v, inh_run sh (Inherit sh a init) h = Some (MkInh v a).
Proof.
  intros sh a init h Ha. unfold Inherit. generalize (lvl_shift sh 0 init). induction h as [|c h IH]; intros v; [now exists v|].
  change (inh_run sh ?r (c :: h)) with (inh_run sh (inh_step sh r c) h).
  destruct c as [xs|xs]; cbn [inh_step]; [unfold inh_shift|unfold inh_unshift]; cbn [in_abtv]; rewrite Ha; apply IH.
Qed.
(* Len counts the levels that are set. *)
Theorem C05_length : forall sh, shifty_ok sh -> forall a init h,
  abtv_isZero a = false -> lcalls_ok (IShift init :: h) ->
  inh_len sh (inh_run sh (Inherit sh a init) h) = List.length (filter (level_in false (IShift init :: h)) all_levels).
Proof.
  intros sh OK a init h Ha Hh.
  assert (E : inh_run sh (Inherit sh a init) h = inh_run sh (Some (MkInh 0 a)) (IShift init :: h)).
  { change (inh_run sh (Some (MkInh 0 a)) (IShift init :: h)) with (inh_run sh (inh_shift sh (Some (MkInh 0 a)) init) h).
    unfold inh_shift. cbn [in_abtv]. now rewrite Ha. }
  rewrite E. destruct (lrun sh OK (IShift init :: h) a 0%N (fun _ => false) Ha) as (v & -> & [Hv H0] & Hg); [split; easy|intros m _; apply N.bits_0|exact Hh|].
  unfold inh_len. rewrite (filter_ext_in' _ (N.testbit v)).
  2:{ intros i Hi. unfold inh_positive. cbn [in_abtv in_levels larg_num]. rewrite Ha. apply (OK 16%N v (lt16 v Hv)). unfold bits12 in Hi. cbn [In] in Hi. lia. }
  rewrite <- (filter_ext_in' (fun n => N.testbit v (n + 1)) _ all_levels) by (intros n Hn; apply Hg; unfold all_levels in Hn; cbn [In] in Hn; lia).
  assert (H11 : N.testbit v 11 = false).
  { destruct (N.eq_dec v 0) as [->|]; [easy|]. apply N.bits_above_log2. apply N.log2_lt_pow2; [lia|exact Hv]. }
  unfold bits12, all_levels. cbn [filter]. rewrite H0, H11.
  change (0 + 1)%N with 1%N. change (1 + 1)%N with 2%N. change (2 + 1)%N with 3%N. change (3 + 1)%N with 4%N.
  change (4 + 1)%N with 5%N. change (5 + 1)%N with 6%N. change (6 + 1)%N with 7%N. change (7 + 1)%N with 8%N.
  change (8 + 1)%N with 9%N. change (9 + 1)%N with 10%N.
  destruct (N.testbit v 1), (N.testbit v 2), (N.testbit v 3), (N.testbit v 4), (N.testbit v 5),
    (N.testbit v 6), (N.testbit v 7), (N.testbit v 8), (N.testbit v 9), (N.testbit v 10); reflexivity.
Qed.
(* An argument that names no level is handed to the bit library as zero.  If the library
   leaves its value alone then, so do Shift and Unshift; the contract does not say it does. *)
Definition names_no_level (x : larg) : Prop :=
  match x with
  | LLevel n => n = 0%N
  | LInt z => (z < 0 \/ 9 < z)%Z
  | LStr s => forall n, (n < 10)%N -> s <> digit n
  | LOther => True
  end.
Theorem C05_ignored : forall sh, (forall v, sh_shift sh 16 v 0 = v /\ sh_unshift sh 16 v 0 = v) ->
  forall a lv x, abtv_isZero a = false -> names_no_level x ->
  inh_shift sh (Some (MkInh lv a)) [x] = Some (MkInh lv a) /\ inh_unshift sh (Some (MkInh lv a)) [x] = Some (MkInh lv a).
Proof.
  intros sh Z a lv x Ha Hx.
  assert (E : larg_num x = 0%N).
  { destruct x as [n|z|s|]; cbn [larg_num names_no_level] in *; [exact Hx| | |reflexivity].
    - unfold levelMap. cbn [lvl_of_int]. repeat match goal with |- context [(?k =? z)%Z] => destruct (Z.eqb_spec k z); [lia|] end. reflexivity.
    - unfold levelNumbers. cbn [lvl_of_str].
      repeat match goal with |- context [String.eqb s ?k] => destruct (String.eqb_spec s k) as [X|_];
        [exfalso; subst s; first [apply (Hx 0%N); [lia|reflexivity]|apply (Hx 1%N); [lia|reflexivity]|apply (Hx 2%N); [lia|reflexivity]
          |apply (Hx 3%N); [lia|reflexivity]|apply (Hx 4%N); [lia|reflexivity]|apply (Hx 5%N); [lia|reflexivity]|apply (Hx 6%N); [lia|reflexivity]
          |apply (Hx 7%N); [lia|reflexivity]|apply (Hx 8%N); [lia|reflexivity]|apply (Hx 9%N); [lia|reflexivity]]|] end. reflexivity. }
  unfold inh_shift, inh_unshift. cbn [in_abtv]. rewrite Ha. cbn [in_levels in_abtv].
  unfold lvl_shift, lvl_unshift. cbn [fold_left]. rewrite E. change (Z.of_N 0) with 0%Z. destruct (Z lv) as [-> ->]. split; reflexivity.
Qed.
Example C05_ignored_witness : (forall v, sh_shift shifty_ref 16 v 0 = v /\ sh_unshift shifty_ref 16 v 0 = v) /\
  names_no_level (LInt 10) /\ names_no_level (LStr "ten").
Proof. split; [intros v; split; reflexivity|]. split; [cbn; lia|]. intros n Hn. ten n Hn; discriminate. Qed.
Print Assumptions C05_length.
Print Assumptions C05_ignored.
Print Assumptions C05_history.
Print Assumptions C05_attribute_constant.
Definition demo_levels : list inh_call :=
  [IShift [LStr "3"; LLevel (level_const 0 + level_const 7)]; IUnshift [LInt 3]].
Example C05_witness : lcalls_ok (IShift [LInt 9] :: demo_levels) /\
  filter (level_in false (IShift [LInt 9] :: demo_levels)) all_levels = [0; 7; 9]%N /\
  abtv_isZero (UAT [BStr "cn"; BStr "x"]) = false.
Proof.
  split; [|split; reflexivity]. intros c x Hc Hx. unfold demo_levels in Hc. cbn [In] in Hc.
  repeat destruct Hc as [<-|Hc]; try contradiction; cbn [lcall_args In] in Hx;
  repeat destruct Hx as [<-|Hx]; try contradiction; cbn [larg_ok]; try lia.
  - now exists 3%N.
  - split; [split; reflexivity|reflexivity].
Qed.

(* C06: the text of a reachable inheritance with at least one level and a
   well-formed attribute part parses, to the same levels and the same attribute
   part, and that prints the same text. *)
Theorem C06_round_trip : forall sh, shifty_ok sh -> forall fp kw a w init h,
  kw = BindUAT \/ kw = BindGAT -> attr_name a -> what_ok w ->
  lcalls_ok (IShift init :: h) ->
  (exists n, (n < 10)%N /\ level_in false (IShift init :: h) n = true) ->
  let i := inh_run sh (Inherit sh (MkABTV kw (Some (pair_of a w))) init) h in
  inh_string sh fp i =
    "parent[" ++ join "," (map digit (filter (level_in false (IShift init :: h)) all_levels)) ++ "]." ++ a ++ "#" ++ what_text w /\
  exists j, parseInheritance sh (inh_string sh fp i) = IOk j /\
    (forall n, (n < 10)%N -> inh_positive sh j (LInt (Z.of_N n)) = inh_positive sh i (LInt (Z.of_N n))) /\
    (exists v, j = Some (MkInh v (MkABTV BindUAT (Some (pair_of a w))))) /\
    inh_string sh fp j = inh_string sh fp i.
Proof.
  intros sh OK fp kw a w init h Hk Ha Hw Hh (n0 & Hn0 & Hlv) i.
  set (ab := MkABTV kw (Some (pair_of a w))) in *.
  assert (Za : abtv_isZero ab = false) by (destruct Hk as [E|E]; unfold ab; rewrite E; reflexivity).
  assert (E : i = inh_run sh (Some (MkInh 0 ab)) (IShift init :: h)).
  { unfold i. change (inh_run sh (Some (MkInh 0 ab)) (IShift init :: h)) with (inh_run sh (inh_shift sh (Some (MkInh 0 ab)) init) h).
    unfold inh_shift. cbn [in_abtv]. now rewrite Za. }
  destruct (lrun sh OK (IShift init :: h) ab 0%N (fun _ => false) Za) as (v & Ev & Hv & Hg); [split; easy|intros; apply N.bits_0|exact Hh|].
  rewrite Ev in E. clear Ev. rewrite E. clear i E.
  assert (Nz : v <> 0%N) by (intros ->; specialize (Hg n0 Hn0); rewrite N.bits_0 in Hg; congruence).
  set (g := level_in false (IShift init :: h)) in *.
  assert (Fg : filter (fun n => N.testbit v (n + 1)) all_levels = filter g all_levels).
  { apply filter_ext_in'. intros n Hn. unfold g. rewrite Hg; [easy|]. unfold all_levels in Hn. cbn [In] in Hn. lia. }
  assert (ST : forall kw', kw' <> 0%N -> inh_string sh fp (Some (MkInh v (MkABTV kw' (Some (pair_of a w))))) =
    "parent[" ++ join "," (map digit (filter g all_levels)) ++ "]." ++ a ++ "#" ++ what_text w).
  { intros kw' Hk'. unfold inh_string. cbn [in_abtv in_levels]. unfold abtv_isZero, abtv_string. cbn [ab_pair ab_kw].
    destruct (N.eqb_spec kw' 0); [easy|]. rewrite pair_text by easy. rewrite levels_text by easy. now rewrite Fg. }
  assert (Kn : kw <> 0%N) by (destruct Hk as [->| ->]; discriminate).
  unfold ab. rewrite (ST kw Kn). split; [reflexivity|].
  set (ns := filter g all_levels). assert (Hns : forall n, In n ns -> (n < 10)%N).
  { intros n Hn. apply filter_In in Hn as [Hn _]. unfold all_levels in Hn. cbn [In] in Hn. lia. }
  assert (NE : ns <> []).
  { assert (In n0 ns) by (apply filter_In; split; [now apply lt10|exact Hlv]). intros X. now rewrite X in H. }
  destruct (joined_digits ns NE Hns) as [J1 J2]. destruct (shift_digits sh OK ns NE Hns) as (S1 & S2 & S3).
  change ("parent[" ++ join "," (map digit ns) ++ "]." ++ a ++ "#" ++ what_text w)
    with ("parent[" ++ (join "," (map digit ns) ++ "]." ++ (a ++ "#" ++ what_text w))).
  rewrite parse_shape by (exact J1 || apply lc_prefix7 || reflexivity). rewrite J2. cbv zeta.
  destruct (N.eqb_spec (lvl_shift sh 0 (map LStr (map digit ns))) 0) as [?|_]; [contradiction|].
  change ("#" ++ what_text w) with (String "#" (what_text w)).
  rewrite parse_hash by now apply attr_name_no_hash. rewrite (AT_name a Ha), what_read by easy.
  change (Some (Some a), what_second w) with (pair_of a w).
  assert (V : lvl_shift sh 0 (map LStr (map digit ns)) = v).
  { apply lsmall_inj; [exact S1|exact Hv|]. intros n Hn. rewrite S3, Hg by easy.
    apply eq_true_iff_eq. rewrite existsb_exists. unfold ns. split.
    - intros (m & Hm & E). apply N.eqb_eq in E as <-. now apply filter_In in Hm.
    - intros G. exists n. split; [apply filter_In; split; [now apply lt10|exact G]|apply N.eqb_refl]. }
  rewrite V. eexists. split; [reflexivity|]. split; [|split].
  - intros n Hn. rewrite !(positive_bit sh OK _ v (LInt (Z.of_N n)) n); auto; apply Hv.
  - now exists v.
  - apply ST. discriminate.
Qed.
(* With no level set the text names level 0. *)
Theorem C06_no_level : forall sh fp kw a w, kw = BindUAT \/ kw = BindGAT -> attr_name a -> what_ok w ->
  inh_string sh fp (Inherit sh (MkABTV kw (Some (pair_of a w))) []) = "parent[0]." ++ a ++ "#" ++ what_text w.
Proof.
  intros sh fp kw a w K Ha Hw. unfold Inherit, inh_string. cbn [in_abtv in_levels]. unfold abtv_isZero, abtv_string. cbn [ab_pair ab_kw].
  destruct (N.eqb_spec kw 0); [destruct K; subst; discriminate|]. rewrite pair_text by easy. reflexivity.
Qed.
Print Assumptions C06_no_level.
Print Assumptions C06_round_trip.
Example C06_witness :
  inh_string shifty_ref "" (inh_run shifty_ref (Inherit shifty_ref (MkABTV BindUAT (Some (pair_of "manager" (WType USERDN)))) [LInt 9]) demo_levels)
  = "parent[0,7,9].manager#USERDN".
Proof. reflexivity. Qed.

(* C07 is false: a value that ends at its first closing bracket panics, whatever
   the bit library does, and it can come from a userattr rule text. *)
Theorem C07_no_panic_refuted : forall sh,
  ~ (forall s, parseInheritance sh s <> IPanic) /\
  ~ (forall u v kw, assertBindUGAttr sh u [v] kw <> UPanic).
Proof.
  intros sh. split; intros H.
  - now apply (H "parent[0]").
  - now apply (H (fun _ => false) """parent[0]""" BindUAT).
Qed.
(* Exactly those values panic. *)
Theorem C07_exact : forall sh s,
  parseInheritance sh s = IPanic <->
  exists p lv, s = p ++ lv ++ "]" /\ String.length p = 7%nat /\ no_byte "]" lv = true /\
               has_prefix "parent[" (lc s) = true.
Proof.
  intros sh s. split.
  - unfold parseInheritance. destruct (has_prefix "parent[" (lc s)) eqn:P; cbn [negb]; [|discriminate].
    destruct (idx "]" (sdrop 7 s)) as [i|] eqn:I; [|discriminate].
    destruct (String.get (i + 1) (sdrop 7 s)) as [c|] eqn:G.
    + destruct (negb (Ascii.eqb c ".")); [discriminate|]. destruct (_ =? 0)%N; [discriminate|]. destruct (parseATBTV _ _); discriminate.
    + intros _. apply idx_split in I as (lv & b & E & Hno & Hl). exists (stake 7 s), lv.
      assert (B : b = "").
      { destruct b as [|c b]; [easy|]. rewrite E in G.
        replace (lv ++ String "]" (String c b)) with ((lv ++ "]") ++ String c b) in G by (rewrite app_assoc'; reflexivity).
        replace (i + 1)%nat with (String.length (lv ++ "]")) in G by (rewrite length_app, Hl; reflexivity).
        rewrite get_app in G. discriminate. }
      subst b. rewrite <- E, stake_sdrop. split; [easy|]. split; [|split; easy].
      assert (L : String.length (sdrop 7 s) <> 0%nat) by (rewrite E, length_app; cbn; lia).
      clear -L. assert (H : forall n s, String.length (sdrop n s) <> 0%nat -> String.length (stake n s) = n).
      { clear. induction n as [|n IH]; intros s L; [easy|]. destruct s; [easy|]. cbn in *. now rewrite IH. }
      now apply H.
  - intros (p & lv & E & Hp & Hno & Pf). unfold parseInheritance. rewrite Pf. cbn [negb].
    assert (D : sdrop 7 s = lv ++ "]") by (rewrite E, <- Hp; apply sdrop_app).
    rewrite D. rewrite (idx_app "]" lv "") by easy.
    assert (G : forall a b, String.get (String.length a + String.length b) (a ++ b) = None).
    { clear. intros a b. induction a as [|c a IH]; [|exact IH]. cbn. now induction b. }
    assert (G' := G lv (String "]" "")). cbn [String.length] in G'. rewrite G'. reflexivity.
Qed.
Print Assumptions C07_no_panic_refuted.
Print Assumptions C07_exact.

(* C08 is false, whatever an in-contract bit library does with the zero it is
   given for the unknown level: the text is accepted. *)
Theorem C08_unknown_level_reported_refuted : forall sh, shifty_ok sh ->
  exists i, parseInheritance sh "parent[eleven,3].manager#USERDN" = IOk i /\
            inh_positive sh i (LInt 3) = true.
Proof.
  intros sh OK.
  change "parent[eleven,3].manager#USERDN" with ("parent[" ++ "eleven,3" ++ "]." ++ "manager#USERDN").
  rewrite parse_shape by reflexivity. cbv zeta.
  change (split1 "," (remove_byte " " "eleven,3")) with ["eleven"; "3"].
  cbn [map]. unfold lvl_shift. cbn [fold_left].
  change (larg_num (LStr "eleven")) with 0%N. change (larg_num (LStr "3")) with 16%N.
  destruct (OK 16%N 0%N eq_refl) as (_ & _ & B). destruct (B (Z.of_N 0)) as [B' _].
  set (v := sh_shift sh 16 0 (Z.of_N 0)) in *.
  destruct (OK 16%N v B') as (A & _). destruct (A 16%N eq_refl eq_refl) as [-> _].
  assert (T : N.testbit (N.lor v 16) 4 = true) by (rewrite N.lor_spec; apply orb_true_r).
  destruct (N.eqb_spec (N.lor v 16) 0) as [E|_]; [rewrite E in T; discriminate|].
  eexists. split; [reflexivity|]. unfold inh_positive. cbn [in_abtv in_levels].
  change (abtv_isZero _) with false. cbv iota. change (larg_num (LInt 3)) with (2 ^ 4)%N.
  rewrite <- T. apply (OK 16%N _); [apply (lor_lt_pow2 16%N); [exact B'|reflexivity]|reflexivity].
Qed.
(* Proved part: a list of known levels gives exactly those levels. *)
Theorem C08_known_levels_partial : forall sh, shifty_ok sh -> forall ns a w,
  ns <> [] -> (forall n, In n ns -> (n < 10)%N) -> attr_name a -> what_ok w ->
  exists i, parseInheritance sh ("parent[" ++ join "," (map digit ns) ++ "]." ++ a ++ "#" ++ what_text w) = IOk i /\
    forall n, (n < 10)%N -> inh_positive sh i (LInt (Z.of_N n)) = true <-> In n ns.
Proof.
  intros sh OK ns a w NE Hns Ha Hw.
  destruct (joined_digits ns NE Hns) as [J1 J2]. destruct (shift_digits sh OK ns NE Hns) as (S1 & S2 & S3).
  change ("parent[" ++ join "," (map digit ns) ++ "]." ++ a ++ "#" ++ what_text w)
    with ("parent[" ++ (join "," (map digit ns) ++ "]." ++ (a ++ "#" ++ what_text w))).
  rewrite parse_shape by (exact J1 || apply lc_prefix7 || reflexivity). rewrite J2. cbv zeta.
  destruct (N.eqb_spec (lvl_shift sh 0 (map LStr (map digit ns))) 0) as [?|_]; [contradiction|].
  change ("#" ++ what_text w) with (String "#" (what_text w)).
  rewrite parse_hash by now apply attr_name_no_hash. rewrite (AT_name a Ha), what_read by easy.
  eexists. split; [reflexivity|]. intros n Hn.
  rewrite (positive_bit sh OK _ _ (LInt (Z.of_N n)) n); auto; [|apply S1]. rewrite S3, existsb_exists by easy.
  split; [intros (m & Hm & E); now apply N.eqb_eq in E as ->|intros Hi; exists n; split; [easy|apply N.eqb_refl]].
Qed.
Print Assumptions C08_unknown_level_reported_refuted.
Print Assumptions C08_known_levels_partial.
(* An inheritance read in a groupattr rule forgets the keyword. *)
Theorem C49_groupattr_kept_refuted : forall sh, shifty_ok sh ->
  ~ (forall u v i x, assertBindUGAttr sh u [v] BindGAT = UInh (Some i) -> in_abtv i = x -> abtv_keyword x = BindGAT).
Proof.
  intros sh OK H.
  destruct (C08_unknown_level_reported_refuted sh OK) as ([i|] & E & P); [|discriminate P].
  specialize (H (fun _ => false) """parent[eleven,3].manager#USERDN""" i (in_abtv i)).
  assert (A : assertBindUGAttr sh (fun _ => false) ["""parent[eleven,3].manager#USERDN"""] BindGAT = UInh (Some i)).
  { unfold assertBindUGAttr.
    replace (unquote (condenseWHSP """parent[eleven,3].manager#USERDN""")) with "parent[eleven,3].manager#USERDN" by (vm_compute; reflexivity).
    change (has_prefix "ldap:///" "parent[eleven,3].manager#USERDN") with false.
    change (has_prefix "parent[" "parent[eleven,3].manager#USERDN") with true. cbv iota. now rewrite E. }
  specialize (H A eq_refl).
  change "parent[eleven,3].manager#USERDN" with ("parent[" ++ "eleven,3" ++ "]." ++ "manager#USERDN") in E.
  rewrite parse_shape in E by reflexivity. cbv zeta in E. destruct (_ =? 0)%N in E; [discriminate|].
  change (parseATBTV "manager#USERDN" []) with (Some (MkABTV BindUAT (Some (pair_of "manager" (WType USERDN))))) in E.
  injection E as <-. discriminate H.
Qed.
(* exactly: the keyword is always userattr *)
Theorem C49_exact : forall sh s i, parseInheritance sh s = IOk (Some i) -> ab_kw (in_abtv i) = BindUAT.
Proof.
  intros sh s i. unfold parseInheritance. destruct (negb _); [discriminate|].
  destruct (idx _ _); [|discriminate]. destruct (String.get _ _); [|discriminate]. destruct (negb _); [discriminate|].
  destruct (_ =? 0)%N; [discriminate|]. destruct (parseATBTV _ []) as [a'|] eqn:E; [|discriminate].
  intros H. injection H as <-. cbn [in_abtv]. unfold parseATBTV in E. destruct (idx _ _); [|discriminate].
  destruct (String.eqb _ badAT); [discriminate|]. destruct (negb _); injection E as <-; reflexivity.
Qed.
Print Assumptions C49_groupattr_kept_refuted.
Print Assumptions C49_exact.
