(* Further theorems for C01, C15, C16, C17 and C23, and an independent reading
   of the letter-case comparison used by all of them. *)
From Coq Require Import String Ascii List PeanoNat NArith ZArith Bool Lia.
From Verif Require Import GoStr GoStrFacts Shifty MMisc MRights SRights PRights MKw SKw PKw
  MSec SSec MAttr SAttr PAttr SMore TKw.
Import ListNotations.
Open Scope string_scope.

(* C01: Len counts the granted rights. *)
Lemma len_spec v : (v < 1024)%N ->
  length (filter (fun i => N.testbit v i) bits16) = length (filter (bits_set v) all_rights).
Proof.
  intros Hv. apply Nat.eqb_eq.
  exact (upto_forall (fun v => Nat.eqb (length (filter (fun i => N.testbit v i) bits16))
    (length (filter (bits_set v) all_rights))) 1024 ltac:(vm_compute; reflexivity) v Hv).
Qed.
Theorem C01_len : forall sh, shifty_ok sh ->
  forall disp init h, calls_ok arg_named (CShift init :: h) ->
  perm_len sh (perm_run sh (newPermission sh disp init) h) =
  length (filter (granted false (CShift init :: h)) all_rights).
Proof.
  intros sh OK d init h H.
  change (perm_run sh (newPermission sh d init) h)
    with (perm_run sh (PSome d 0%N) (CShift init :: h)).
  destruct (named_run_lt sh OK (CShift init :: h) d 0%N) as (v & A & B); [reflexivity|exact H|].
  rewrite A. cbn [perm_len].
  rewrite (filter_ext_in (fun i => sh_positive sh 16 v (Z.of_N (2 ^ i))) (fun i => N.testbit v i)).
  2:{ intros i Hi. destruct (OK 16%N v ltac:(cbn; lia)) as (_ & P & _). apply P. cbn in Hi. lia. }
  rewrite len_spec by exact B. f_equal. apply filter_ext. intros r.
  destruct (run_bit sh OK (CShift init :: h) d 0%N r) as (v' & A' & _ & C);
    [reflexivity|apply calls_named_covered, H|].
  rewrite A' in A. inversion A; subst. unfold bits_set. now rewrite C.
Qed.
Print Assumptions C01_len.

(* ---- the letter-case comparison ---- *)
Lemma fk_ascii c r : ascii_byte c = true -> fold_key (String c r) = String (lower_byte c) (fold_key r).
Proof.
  intros H. unfold fold_key. rewrite three_skip, two_skip; [easy| |];
    destruct (Ascii.eqb_spec c xC5), (Ascii.eqb_spec c xE2); subst; try easy; discriminate H.
Qed.
Lemma fk_kelvin r : fold_key (kelvin ++ r) = String "k" (fold_key r).
Proof.
  unfold fold_key.
  change (three_to_one xE2 x84 xAA "k" (kelvin ++ r)) with (String "k" (three_to_one xE2 x84 xAA "k" r)).
  now rewrite two_skip.
Qed.
Lemma fk_long_s r : fold_key (long_s ++ r) = String "s" (fold_key r).
Proof.
  unfold fold_key, long_s. cbn [append]. change "197"%char with xC5. change "191"%char with xBF.
  rewrite !three_skip by reflexivity. reflexivity.
Qed.
Lemma three_first c r x : three_to_one xE2 x84 xAA "k" r = String c x -> c = "k"%char \/ exists r', r = String c r'.
Proof.
  destruct r as [|d r]; [discriminate|]. cbn [three_to_one]. destruct r as [|e [|f r]].
  - injection 1 as -> _. eauto.
  - injection 1 as -> _. eauto.
  - destruct (_ && _)%bool; injection 1 as -> _; eauto.
Qed.
Lemma fk_cases c r : ascii_byte c = true \/ (exists s, String c r = kelvin ++ s) \/
  (exists s, String c r = long_s ++ s) \/
  exists d s, ascii_byte d = false /\ fold_key (String c r) = String d s.
Proof.
  destruct (ascii_byte c) eqn:A; [now left|right].
  destruct (Ascii.eqb_spec c xE2) as [->|N2].
  - destruct r as [|d [|f r]].
    + right; right. exists xE2, "". easy.
    + right; right. exists xE2. unfold fold_key.
      change (three_to_one xE2 x84 xAA "k" (String xE2 (String d ""))) with (String xE2 (String d "")).
      rewrite two_skip by reflexivity. now eexists.
    + destruct (Ascii.eqb_spec d x84) as [->|Nd].
      * destruct (Ascii.eqb_spec f xAA) as [->|Nf]; [left; now exists r|].
        right; right. exists xE2. unfold fold_key. cbn [three_to_one].
        rewrite (proj2 (Ascii.eqb_neq f xAA) Nf), andb_false_r. rewrite two_skip by reflexivity. now eexists.
      * right; right. exists xE2. unfold fold_key. cbn [three_to_one].
        rewrite (proj2 (Ascii.eqb_neq d x84) Nd), andb_false_r. cbn [andb]. rewrite two_skip by reflexivity. now eexists.
  - apply Ascii.eqb_neq in N2. right.
    destruct (Ascii.eqb_spec c xC5) as [->|N5].
    + destruct r as [|d r].
      { right. exists xC5, "". easy. }
      destruct (Ascii.eqb_spec d xBF) as [->|Nb]; [left; now exists r|].
      right. exists xC5. unfold fold_key. rewrite three_skip by reflexivity.
      destruct (three_to_one xE2 x84 xAA "k" (String d r)) as [|e x] eqn:E.
      { cbn. now eexists. }
      cbn [two_to_one]. destruct (Ascii.eqb_spec e xBF) as [->|]; [|cbn [andb]; now eexists].
      exfalso. destruct (three_first _ _ _ E) as [K|[r' K]]; [discriminate K|]. injection K as -> _. easy.
    + apply Ascii.eqb_neq in N5. right. exists (lower_byte c). unfold fold_key.
      rewrite three_skip, two_skip by easy. eexists. split; [|reflexivity].
      revert A. destruct c as [[] [] [] [] [] [] [] []]; vm_compute; congruence.
Qed.
Lemma same_letter_lower c d : ascii_byte c = true ->
  (same_letter c d <-> ascii_byte d = true /\ lower_byte c = lower_byte d).
Proof.
  intros A. split.
  - intros [<-|[(n & B & -> & ->)|(n & B & -> & ->)]]; [easy| |];
    assert (In n (map N.of_nat (seq 65 26)))
      by (apply in_map_iff; exists (N.to_nat n); split; [lia|apply in_seq; lia]);
    cbn in H; repeat (destruct H as [<-|H]; [now vm_compute|]); contradiction.
  - intros [B E]. unfold same_letter.
    destruct (Ascii.eqb_spec c d) as [->|N]; [now left|right].
    unfold lower_byte in E. destruct (byte_between 65 90 c) eqn:U, (byte_between 65 90 d) eqn:V.
    + exfalso. apply N.
      revert c d A B E U V N. intros c d _ _ E U V _.
      destruct c as [[] [] [] [] [] [] [] []]; vm_compute in U; try discriminate U;
      destruct d as [[] [] [] [] [] [] [] []]; vm_compute in V; try discriminate V; vm_compute in E; congruence.
    + left. exists (N_of_ascii c). subst d. destruct c as [[] [] [] [] [] [] [] []]; vm_compute in U; try discriminate U;
      (split; [vm_compute; split; discriminate|now vm_compute]).
    + right. exists (N_of_ascii d). subst c. destruct d as [[] [] [] [] [] [] [] []]; vm_compute in V; try discriminate V;
      (split; [vm_compute; split; discriminate|now vm_compute]).
    + now subst.
Qed.
Lemma ascii_word_cons d w : ascii_word (String d w) = true <-> ascii_byte d = true /\ ascii_word w = true.
Proof. unfold ascii_word. cbn [list_ascii_of_string forallb]. apply andb_true_iff. Qed.
Lemma lower_char d x : ascii_byte d = true -> (lower_byte d = "k"%char -> x = "k"%char -> d = "k"%char \/ d = "K"%char)
  /\ (lower_byte d = "s"%char -> x = "s"%char -> d = "s"%char \/ d = "S"%char).
Proof.
  intros _. split; intros H _; destruct d as [[] [] [] [] [] [] [] []]; vm_compute in H; try discriminate H; auto.
Qed.
Lemma folds_empty w : ascii_word w = true -> (fold_key "" = fold_key w <-> folds "" w).
Proof.
  intros Hw. split.
  - destruct w as [|d w]; intros H; [constructor|].
    apply ascii_word_cons in Hw as [Hd _]. rewrite fk_ascii in H by exact Hd. discriminate H.
  - intros H. inversion H. reflexivity.
Qed.
(* Comparing with an ASCII word: every name, keyword and operator of the
   package is one, so this is what "in any letter case" means throughout. *)
Theorem C17_letter_case : forall s w, ascii_word w = true -> (eqfold s w = true <-> folds s w).
Proof.
  intros s w. rewrite eqfold_iff.
  remember (String.length s) as n eqn:Hn. assert (Hle : String.length s <= n) by lia. clear Hn.
  revert s w Hle. induction n as [|n IH]; intros s w Hle Hw; destruct s as [|c r]; cbn in Hle; try lia.
  1,2: apply folds_empty; exact Hw.
  destruct w as [|d w].
  { split; intros H.
    - destruct (fk_cases c r) as [A|[[t E]|[[t E]|(d & t & _ & E)]]].
      + now rewrite fk_ascii in H.
      + rewrite E, fk_kelvin in H. discriminate H.
      + rewrite E, fk_long_s in H. discriminate H.
      + rewrite E in H. discriminate H.
    - inversion H. }
  apply ascii_word_cons in Hw as [Hd Hw]. rewrite (fk_ascii d) by easy. split.
  - intros H. destruct (fk_cases c r) as [A|[[t E]|[[t E]|(e & t & A & E)]]].
    + rewrite fk_ascii in H by easy. injection H as H H'. constructor; [easy| |].
      * now apply same_letter_lower.
      * apply IH; [lia|easy|exact H'].
    + rewrite E, fk_kelvin in H. rewrite E. injection H as H H'. apply fo_kelvin.
      * symmetry in H. now apply (lower_char d "k" Hd).
      * apply IH; [|easy|exact H']. apply (f_equal String.length) in E. cbn in E. lia.
    + rewrite E, fk_long_s in H. rewrite E. injection H as H H'. apply fo_long_s.
      * symmetry in H. now apply (lower_char d "s" Hd).
      * apply IH; [|easy|exact H']. apply (f_equal String.length) in E. cbn in E. lia.
    + rewrite E in H. injection H as H _. exfalso. subst e. revert A. revert Hd.
      destruct d as [[] [] [] [] [] [] [] []]; vm_compute; congruence.
  - intros H. inversion H as [|? ? ? ? A S F|? t ? K F E|? t ? K F E]; subst.
    + rewrite fk_ascii by easy. apply same_letter_lower in S as [_ ->]; [|easy]. f_equal.
      now apply IH; [lia| |].
    + change (String "226" (String "132" (String "170" t))) with (kelvin ++ t).
      rewrite fk_kelvin. assert (L : String.length t <= n) by (cbn in Hle; lia).
      rewrite (proj2 (IH t w L Hw) F). destruct K; subst; reflexivity.
    + change (String "197" (String "191" t)) with (long_s ++ t).
      rewrite fk_long_s. assert (L : String.length t <= n) by (cbn in Hle; lia).
      rewrite (proj2 (IH t w L Hw) F). destruct K; subst; reflexivity.
Qed.
Print Assumptions C17_letter_case.
Example C17_letter_case_witness : ascii_word "ssf" = true /\ folds ("S" ++ long_s ++ "f") "ssf" /\
  eqfold (kelvin ++ "ey") "KEY" = true /\ eqfold "keys" "key" = false.
Proof.
  split; [reflexivity|split; [|split; reflexivity]].
  apply C17_letter_case; reflexivity.
Qed.

(* C17: operators given as numbers are taken modulo 256 ... *)
Theorem C17_numbers : forall kw z,
  keywordAllowsComparisonOperator kw (OInt z) = true <->
  exists o, (z mod 256 = Z.of_N (relop_const o))%Z /\
            keywordAllowsComparisonOperator kw (OCop (relop_const o)) = true.
Proof.
  intros kw z. assert (B := Z.mod_pos_bound z 256 eq_refl). split.
  - intros H. change (keywordAllowsComparisonOperator kw (OInt z))
      with (keywordAllowsComparisonOperator kw (OCop (Z.to_N (z mod 256)))) in H.
    assert (D : (exists o, Z.to_N (z mod 256) = relop_const o) \/ forall o, Z.to_N (z mod 256) <> relop_const o).
    { set (n := Z.to_N (z mod 256)) in *.
      destruct (N.eq_dec n 1) as [->|]; [left; now exists REq|].
      destruct (N.eq_dec n 2) as [->|]; [left; now exists RNe|].
      destruct (N.eq_dec n 3) as [->|]; [left; now exists RLt|].
      destruct (N.eq_dec n 4) as [->|]; [left; now exists RGt|].
      destruct (N.eq_dec n 5) as [->|]; [left; now exists RLe|].
      destruct (N.eq_dec n 6) as [->|]; [left; now exists RGe|].
      right. now intros []. }
    destruct D as [[o E]|N].
    + exists o. split; [lia|now rewrite <- E].
    + rewrite C17_unknown_operator in H by exact N. discriminate H.
  - intros (o & E & H).
    change (keywordAllowsComparisonOperator kw (OCop (Z.to_N (z mod 256))) = true).
    now rewrite E, N2Z.id.
Qed.
Print Assumptions C17_numbers.
Example C17_numbers_witness : keywordAllowsComparisonOperator (KStr "SSF") (OInt 262) = true /\
  keywordAllowsComparisonOperator (KStr "SSF") (OInt 22) = false.
Proof. split; reflexivity. Qed.

(* ... Valid holds exactly of the six operators ... *)
Theorem C17_valid_operator : forall n, cop_valid n = true <-> exists o, n = relop_const o.
Proof.
  intros n. unfold cop_valid, isValidCopNumeral. rewrite andb_true_iff, !Z.leb_le. split.
  - intros H. assert (C : (n = 1 \/ n = 2 \/ n = 3 \/ n = 4 \/ n = 5 \/ n = 6)%N) by lia.
    destruct C as [->|[->|[->|[->|[->| ->]]]]];
      [now exists REq|now exists RNe|now exists RLt|now exists RGt|now exists RLe|now exists RGe].
  - intros [o ->]. destruct o; cbn; lia.
Qed.
(* ... and Compare holds exactly of the operator itself, its number and its
   three texts in any letter case. *)
Theorem C17_compare : forall o,
  (forall o', cop_compare (relop_const o) (OCop (relop_const o')) = true <-> o' = o) /\
  (forall z, cop_compare (relop_const o) (OInt z) = true <-> z = Z.of_N (relop_const o)) /\
  (forall s, cop_compare (relop_const o) (OStr s) = true <-> names_relop s o) /\
  cop_compare (relop_const o) OOther = false.
Proof.
  intros o. split; [|split; [|split]].
  - intros o'. destruct o, o'; vm_compute; split; congruence.
  - intros z. cbn [cop_compare]. apply Z.eqb_eq.
  - intros s. unfold names_relop. destruct o; unfold cop_compare, strInSliceFold; cbn [existsb];
      rewrite !orb_true_iff, ?orb_false_r; cbv [relop_const cop_description cop_context cop_string N.eqb Pos.eqb Eq Ne Lt Gt Le Ge relop_symbol relop_short relop_long];
      intuition congruence.
  - reflexivity.
Qed.
Print Assumptions C17_compare.

(* C15: methods by number; any other number is the anonymous method. *)
Theorem C15_by_number : forall z, auth_match_int authMap z = authm_const (authm_of_number z).
Proof.
  intros z. unfold authMap. cbn [auth_match_int].
  repeat match goal with |- context [(?k =? z)%Z] => destruct (Z.eqb_spec k z); [subst; reflexivity|] end.
  unfold authm_of_number. destruct z as [|p|p]; try reflexivity.
  destruct p as [[[|[]|]|[|[]|]|]|[[|[]|]|[|[]|]|]|]; try reflexivity; lia.
Qed.
Print Assumptions C15_by_number.

(* C16: the exact names, and scopes by number. *)
Theorem C16_exact_names : forall c,
  scope_string (scope_const c) = scope_target_name c /\
  scope_standard (scope_const c) = scope_uri_name c.
Proof. now intros []. Qed.
Theorem C16_by_number : forall z, Scope (ScInt z) = scope_const (scope_of_number z).
Proof.
  intros z. cbn [Scope]. unfold intToScope, scope_of_number.
  destruct (Z.eqb_spec z 1); [now subst|]. destruct (Z.eqb_spec z 2); [now subst|].
  destruct (Z.eqb_spec z 3); [now subst|].
  destruct z as [|p|p]; try reflexivity. destruct p as [[|[]|]|[]|]; try reflexivity; lia.
Qed.
Print Assumptions C16_by_number.

(* C23: the first attribute or text decides the attribute, whatever follows,
   within one call and over later Set calls. *)
Lemma pair_first l : forall r0 r1,
  fst (pair_set (r0, r1) l) = match r0 with Some a => Some a | None => first_attr l end.
Proof.
  induction l as [|x l IH]; intros r0 r1; [now destruct r0|].
  change (pair_set (r0, r1) (x :: l)) with (pair_set (pair_set1 (r0, r1) x) l).
  destruct x, r0; cbn [pair_set1 first_attr]; rewrite IH; reflexivity.
Qed.
Theorem C23_first_attribute : forall kw args later,
  (kw <> 0)%N ->
  let r := fold_left abtv_set later (userOrGroupAttr kw args) in
  ab_kw r = kw /\
  exists p, ab_pair r = Some p /\ fst p = first_attr (args ++ concat later)%list.
Proof.
  intros kw args later Hk. cbv zeta.
  assert (G : forall later r p, ab_kw r = kw -> ab_pair r = Some p ->
    ab_kw (fold_left abtv_set later r) = kw /\
    exists p', ab_pair (fold_left abtv_set later r) = Some p' /\
      fst p' = match fst p with Some a => Some a | None => first_attr (concat later) end).
  { clear args later. induction later as [|l later IH]; intros r p Hr Hp.
    - split; [exact Hr|]. exists p. split; [exact Hp|]. now destruct (fst p).
    - cbn [fold_left concat]. destruct (IH (abtv_set r l) (pair_set p l)) as (A & p' & B & C).
      + exact Hr.
      + unfold abtv_set, abtv_isZero. cbn [ab_pair]. rewrite Hp, Hr.
        destruct (N.eqb_spec kw 0); [easy|reflexivity].
      + split; [exact A|]. exists p'. split; [exact B|]. rewrite C.
        destruct p as [r0 r1]. rewrite pair_first. cbn [fst]. destruct r0; [reflexivity|].
        clear. induction l as [|x l IH]; [reflexivity|]. destruct x; cbn [first_attr app]; congruence. }
  destruct (G later (userOrGroupAttr kw args) (pair_set pair_nil args) eq_refl eq_refl) as (A & p & B & C).
  split; [exact A|]. exists p. split; [exact B|]. rewrite C.
  unfold pair_nil. rewrite pair_first.
  clear. induction args as [|x l IH]; [reflexivity|]. destruct x; cbn [first_attr app]; congruence.
Qed.
Print Assumptions C23_first_attribute.
(* The value half: once the attribute is known the last text decides; values
   and bind types only fill an empty half. *)
Definition text_half (s : string) : second :=
  if (matchBT s =? 0)%N then SAV (AV s) else SBT (matchBT s).
Theorem C23_second_half : forall a r1 l,
  snd (pair_set (Some a, r1) l) =
  match last_text l with
  | Some s => text_half s
  | None => match r1 with
            | SNil => match first_value l with Some v => v | None => SNil end
            | _ => r1
            end
  end.
Proof.
  intros a r1 l. revert r1. induction l as [|x l IH]; intros r1; [now destruct r1|].
  change (pair_set (Some a, r1) (x :: l)) with (pair_set (pair_set1 (Some a, r1) x) l).
  destruct x; cbn [pair_set1 last_text first_value]; rewrite IH; destruct (last_text l); try reflexivity;
    try (destruct r1; reflexivity).
  unfold text_half. now destruct (matchBT s =? 0)%N.
Qed.
Print Assumptions C23_second_half.
Example C23_first_witness :
  ab_pair (fold_left abtv_set [[BAT (AT "owner")]; [BStr "LDAPURL"]] (UAT [BStr "manager"; BAV (AV "x")])) =
  Some (Some (Some "manager"), SBT 5).
Proof. reflexivity. Qed.
Example C01_len_witness :
  perm_len shifty_ref (perm_run shifty_ref (Allow shifty_ref [AStr "ALL"; AStr "proxy"]) [CUnshift [ARight 1]]) = 9%nat /\
  perm_len shifty_clear (Deny shifty_clear [AStr "read"; AStr "Search"; AStr "bogus"]) = 2%nat.
Proof. vm_compute. auto. Qed.

(* ---- the keyword of an attr#value pair ---- *)
Theorem C23_keyword : forall args later,
  abtv_keyword (fold_left abtv_set later (UAT args)) = BindUAT /\
  abtv_keyword (fold_left abtv_set later (GAT args)) = BindGAT.
Proof.
  assert (K : forall later r, ab_kw (fold_left abtv_set later r) = ab_kw r).
  { induction later as [|x later IH]; intros r; [reflexivity|]. cbn [fold_left]. now rewrite IH. }
  intros args later. unfold abtv_keyword. rewrite !K. split; reflexivity.
Qed.
Print Assumptions C23_keyword.
Example C23_keyword_witness : abtv_keyword (fold_left abtv_set [[BStr "x"]; []] (GAT [BStr "cn"])) = BindGAT.
Proof. reflexivity. Qed.
