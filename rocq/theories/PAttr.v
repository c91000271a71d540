(* Lemmas for C05-C08 and C22-C25. *)
From Coq Require Import String Ascii List PeanoNat NArith ZArith Bool Permutation Lia.
From Verif Require Import GoStr GoStrFacts Shifty MMisc MKw MAttr MLevels SAttr SKw PRights PKw PMisc.
Import ListNotations.
Open Scope string_scope.

Arguments lc : simpl never.
Arguments matchBT : simpl never.
Arguments bt_string : simpl never.
Arguments isIdentifier : simpl never.

Lemma three_skip a b e x c r : Ascii.eqb c a = false ->
  three_to_one a b e x (String c r) = String c (three_to_one a b e x r).
Proof. intros H. cbn [three_to_one]. destruct r as [|d [|f r]]; try easy. now rewrite H. Qed.
Lemma two_skip a b x c r : Ascii.eqb c a = false ->
  two_to_one a b x (String c r) = String c (two_to_one a b x r).
Proof. intros H. cbn [two_to_one]. destruct r as [|d r]; try easy. now rewrite H. Qed.
Lemma lc_ascii c r : Ascii.eqb c xE2 = false -> Ascii.eqb c xC4 = false -> lc (String c r) = String (lower_byte c) (lc r).
Proof. intros H H'. unfold lc. now rewrite three_skip, two_skip. Qed.

Lemma idx_split c s n : idx c s = Some n ->
  exists a b, s = a ++ String c b /\ no_byte c a = true /\ String.length a = n.
Proof. intros H. apply idx_some in H. eauto. Qed.

(* ---- identifiers ---- *)
Lemma all_bytes_chars f s : all_bytes f s = true <-> forall c, In c (chars s) -> f c = true.
Proof.
  induction s as [|c s IH]; cbn [all_bytes chars In]; [easy|].
  rewrite andb_true_iff, IH. split.
  - intros [H H'] d [<-|Hd]; auto.
  - intros H. split; auto.
Qed.
Lemma last_split s c : last_byte s = Some c <-> exists r, s = r ++ String c "".
Proof.
  split.
  - revert c. induction s as [|d s IH]; intros c H; [discriminate|]. destruct s as [|e s].
    + injection H as <-. now exists "".
    + destruct (IH c H) as [r E]. exists (String d r). cbn [append]. now rewrite E.
  - intros [r ->]. apply last_byte_app.
Qed.
Lemma letter_alnum c : letter_or_digit c = isAlnum c.
Proof. destruct c as [[] [] [] [] [] [] [] []]; vm_compute; reflexivity. Qed.
Lemma name_byte_eq c : name_byte c = ident_byte c.
Proof. destruct c as [[] [] [] [] [] [] [] []]; vm_compute; reflexivity. Qed.
Lemma letter_first c : ident_byte c = true -> is_letter c = letter c.
Proof.
  destruct c as [[] [] [] [] [] [] [] []]; intros H; vm_compute in H; try discriminate H; reflexivity.
Qed.
Lemma identifier_iff s : isIdentifier s = true <-> identifier s.
Proof.
  unfold isIdentifier, identifier. split.
  - destruct s as [|c s]; [discriminate|]. cbn [first_byte].
    destruct (last_byte (String c s)) as [l|] eqn:L; [|discriminate].
    intros H. apply andb_true_iff in H as [H A]. apply andb_true_iff in H as [F Al].
    split; [|split].
    + exists c, s. split; [easy|]. rewrite <- letter_first; [exact F|].
      cbn [all_bytes] in A. now apply andb_true_iff in A.
    + apply last_split in L as [r E]. exists r, l. split; [exact E|]. now rewrite letter_alnum.
    + intros d Hd. rewrite name_byte_eq. now apply (proj1 (all_bytes_chars _ _) A).
  - intros ((c & r & E & Hc) & (r' & l & E' & Hl) & Ha).
    assert (L : last_byte s = Some l) by (apply last_split; now exists r').
    rewrite L. subst s. cbn [first_byte].
    assert (A : all_bytes ident_byte (String c r) = true).
    { apply all_bytes_chars. intros d Hd. rewrite <- name_byte_eq. now apply Ha. }
    rewrite A, letter_first, Hc; [|cbn [all_bytes] in A; now apply andb_true_iff in A].
    rewrite letter_alnum in Hl. now rewrite Hl.
Qed.
Lemma AT_iff s : (AT s = Some s /\ attr_name s) \/ (AT s = None /\ ~ attr_name s).
Proof.
  unfold AT, attr_name. destruct (isIdentifier s || String.eqb s "*") eqn:E.
  - left. split; [easy|]. apply orb_true_iff in E as [E|E]; [left; now apply identifier_iff|right; now apply String.eqb_eq].
  - right. split; [easy|]. apply orb_false_iff in E as [E E'].
    intros [H| ->]; [apply identifier_iff in H; congruence|discriminate].
Qed.
Lemma AT_name s : attr_name s -> AT s = Some s.
Proof. destruct (AT_iff s) as [[H _]|[_ H]]; tauto. Qed.
Lemma attr_name_nonempty s : attr_name s -> s <> "".
Proof. intros [((c & r & -> & _) & _)| ->]; discriminate. Qed.
Lemma no_byte_chars c s : no_byte c s = true <-> ~ In c (chars s).
Proof.
  unfold no_byte. rewrite all_bytes_chars. split.
  - intros H Hc. specialize (H c Hc). now rewrite Ascii.eqb_refl in H.
  - intros H d Hd. apply negb_true_iff. destruct (Ascii.eqb_spec c d) as [->|]; [contradiction|easy].
Qed.
Lemma attr_name_no c s : attr_name s -> name_byte c = false -> c <> "*"%char -> no_byte c s = true.
Proof.
  intros [(_ & _ & H)| ->] Hc N; apply no_byte_chars.
  - intros Hi. apply H in Hi. congruence.
  - intros [E|[]]. congruence.
Qed.
Lemma attr_name_no_hash s : attr_name s -> no_byte "#" s = true.
Proof. intros H. now apply attr_name_no. Qed.
Lemma attr_name_not_bad s : attr_name s -> String.eqb s badAT = false.
Proof.
  intros H. apply String.eqb_neq. intros ->. destruct H as [((c & r & E & Hc) & _)|]; [|discriminate].
  injection E as <- _. discriminate.
Qed.

(* ---- attr#value ---- *)
Lemma sdrop_hash a v : sdrop (String.length a + 1) (a ++ String "#" v) = v.
Proof.
  replace (String.length a + 1)%nat with (String.length (a ++ "#")) by (rewrite length_app; reflexivity).
  replace (a ++ String "#" v) with ((a ++ "#") ++ v) by (rewrite app_assoc'; reflexivity).
  apply sdrop_app.
Qed.
Lemma parse_hash a v bkw : no_byte "#" a = true ->
  parseATBTV (a ++ String "#" v) bkw =
  match AT a with
  | None => None
  | Some _ =>
      Some (MkABTV (assertATBTVBindKeyword bkw)
              (Some (Some (Some a), if negb (matchBT v =? 0)%N then SBT (matchBT v) else SAV (AV v))))
  end.
Proof.
  intros H. unfold parseATBTV. rewrite idx_app by easy.
  rewrite stake_app, sdrop_hash.
  destruct (AT_iff a) as [[-> N]|[-> N]].
  - cbn [at_string]. rewrite attr_name_not_bad by easy. now destruct (negb (matchBT v =? 0)%N).
  - reflexivity.
Qed.
Lemma what_read w : what_ok w ->
  (if negb (matchBT (what_text w) =? 0)%N then SBT (matchBT (what_text w)) else SAV (AV (what_text w))) = what_second w.
Proof.
  destruct w as [n|v]; cbn [what_ok what_text what_second]; intros H.
  - assert (E : (n = 1 \/ n = 2 \/ n = 3 \/ n = 4 \/ n = 5)%N) by lia.
    repeat destruct E as [->|E]; subst; reflexivity.
  - destruct H as [H ->]. unfold AV. destruct v; [easy|]. reflexivity.
Qed.
Lemma pair_text a w : what_ok w -> pair_string (pair_of a w) = Some (a ++ "#" ++ what_text w).
Proof.
  destruct w as [n|v]; cbn [what_ok pair_of pair_string what_second what_text at_string]; intros H.
  - destruct (N.eqb_spec n 0); [lia|]. reflexivity.
  - destruct H as [H _]. destruct v; [easy|]. reflexivity.
Qed.

(* ---- levels ---- *)
Lemma lt10 n : (n < 10)%N -> In n all_levels.
Proof. intros H. unfold all_levels. cbn [In]. lia. Qed.
Ltac ten n H := assert (T := lt10 n H); unfold all_levels in T; cbn [In] in T;
  repeat destruct T as [<-|T]; try contradiction.
Ltac ten2 n H := let T := fresh "T" in assert (T := lt10 n H); unfold all_levels in T; cbn [In] in T;
  repeat destruct T as [<-|T]; try contradiction.

Lemma larg_num_ok x : larg_ok x -> (0 < larg_num x < 2048)%N /\ N.testbit (larg_num x) 0 = false /\
  forall n, (n < 10)%N -> N.testbit (larg_num x) (n + 1) = lmentions x n.
Proof.
  destruct x as [m|z|s|]; cbn [larg_ok larg_num lmentions].
  - intros [H H0]. split; [easy|]. split; easy.
  - intros H. assert (E : exists m, (m < 10)%N /\ z = Z.of_N m) by (exists (Z.to_N z); lia).
    destruct E as (m & Hm & ->). ten m Hm; (split; [split; reflexivity|split; [reflexivity|]]; intros n Hn; ten2 n Hn; reflexivity).
  - intros (m & Hm & ->). ten m Hm; (split; [split; reflexivity|split; [reflexivity|]]; intros n Hn; ten2 n Hn; reflexivity).
  - contradiction.
Qed.
Definition lsmall (v : N) : Prop := (v < 2048)%N /\ N.testbit v 0 = false.

Section Contract.
Variable sh : shifty.
Hypothesis OK : shifty_ok sh.

Lemma lt16 v : (v < 2048)%N -> (v < 2 ^ 16)%N.
Proof. intros H. change (2 ^ 16)%N with 65536%N. lia. Qed.
Lemma lshift_all xs v : lsmall v -> (forall x, In x xs -> larg_ok x) ->
  lsmall (lvl_shift sh v xs) /\
  forall n, (n < 10)%N -> N.testbit (lvl_shift sh v xs) (n + 1) =
            if existsb (fun x => lmentions x n) xs then true else N.testbit v (n + 1).
Proof.
  unfold lvl_shift. revert v. induction xs as [|x xs IH]; intros v Hv H; [split; easy|].
  cbn [fold_left existsb]. destruct (larg_num_ok x (H x (or_introl eq_refl))) as ([A1 A2] & A3 & A4).
  destruct Hv as [V1 V2].
  destruct (OK 16%N v (lt16 v V1)) as (C & _). destruct (C (larg_num x) A1 (lt16 _ A2)) as [E _].
  rewrite E. destruct (IH (N.lor v (larg_num x))) as [I1 I2].
  - split; [apply (lor_lt_pow2 11%N); easy|]. now rewrite N.lor_spec, V2, A3.
  - intros y Hy. apply H. now right.
  - split; [exact I1|]. intros n Hn. rewrite I2, N.lor_spec, A4 by easy.
    destruct (lmentions x n), (existsb _ xs), (N.testbit v (n + 1)); reflexivity.
Qed.
Lemma lunshift_all xs v : lsmall v -> (forall x, In x xs -> larg_ok x) ->
  lsmall (lvl_unshift sh v xs) /\
  forall n, (n < 10)%N -> N.testbit (lvl_unshift sh v xs) (n + 1) =
            if existsb (fun x => lmentions x n) xs then false else N.testbit v (n + 1).
Proof.
  unfold lvl_unshift. revert v. induction xs as [|x xs IH]; intros v Hv H; [split; easy|].
  cbn [fold_left existsb]. destruct (larg_num_ok x (H x (or_introl eq_refl))) as ([A1 A2] & A3 & A4).
  destruct Hv as [V1 V2].
  destruct (OK 16%N v (lt16 v V1)) as (C & _). destruct (C (larg_num x) A1 (lt16 _ A2)) as [_ E].
  rewrite E. destruct (IH (N.ldiff v (larg_num x))) as [I1 I2].
  - split; [assert (L := ldiff_le_l v (larg_num x)); lia|]. now rewrite N.ldiff_spec, V2.
  - intros y Hy. apply H. now right.
  - split; [exact I1|]. intros n Hn. rewrite I2, N.ldiff_spec, A4 by easy.
    destruct (lmentions x n), (existsb _ xs), (N.testbit v (n + 1)); reflexivity.
Qed.

Lemma lrun h : forall a v g, abtv_isZero a = false -> lsmall v ->
  (forall n, (n < 10)%N -> N.testbit v (n + 1) = g n) -> lcalls_ok h ->
  exists v', inh_run sh (Some (MkInh v a)) h = Some (MkInh v' a) /\ lsmall v' /\
    forall n, (n < 10)%N -> N.testbit v' (n + 1) = level_in (g n) h n.
Proof.
  induction h as [|c h IH]; intros a v g Ha Hv Hg Hh; [exists v; auto|].
  assert (Hc : forall x, In x (lcall_args c) -> larg_ok x) by (intros; apply (Hh c); [now left|easy]).
  assert (Hr : lcalls_ok h) by (intros c' x Hi; apply Hh; now right).
  change (inh_run sh (Some (MkInh v a)) (c :: h)) with (inh_run sh (inh_step sh (Some (MkInh v a)) c) h).
  cbn [level_in]. destruct c as [xs|xs]; cbn [inh_step lcall_args is_ishift] in *.
  - unfold inh_shift. cbn [in_abtv]. rewrite Ha. cbn [in_levels in_abtv].
    destruct (lshift_all xs v Hv Hc) as [A B].
    apply (IH a _ (fun n => if existsb (fun x => lmentions x n) xs then true else g n)); try easy.
    intros n Hn. rewrite B by easy. destruct (existsb _ xs); [easy|now apply Hg].
  - unfold inh_unshift. cbn [in_abtv]. rewrite Ha. cbn [in_levels in_abtv].
    destruct (lunshift_all xs v Hv Hc) as [A B].
    apply (IH a _ (fun n => if existsb (fun x => lmentions x n) xs then false else g n)); try easy.
    intros n Hn. rewrite B by easy. destruct (existsb _ xs); [easy|now apply Hg].
Qed.
Lemma larg_positive_num x n : (n < 10)%N ->
  x = LLevel (level_const n) \/ x = LInt (Z.of_N n) \/ x = LStr (digit n) -> larg_num x = (2 ^ (n + 1))%N.
Proof. intros Hn [->|[->| ->]]; [easy| |]; ten n Hn; reflexivity. Qed.
Lemma positive_bit a v x n : abtv_isZero a = false -> (v < 2048)%N -> (n < 10)%N ->
  x = LLevel (level_const n) \/ x = LInt (Z.of_N n) \/ x = LStr (digit n) ->
  inh_positive sh (Some (MkInh v a)) x = N.testbit v (n + 1).
Proof.
  intros Ha Hv Hn Hx. unfold inh_positive. cbn [in_abtv in_levels]. rewrite Ha, (larg_positive_num x n Hn Hx).
  apply (OK 16%N v (lt16 v Hv)). lia.
Qed.

Lemma levels_text v : lsmall v -> v <> 0%N ->
  levels_string sh v = join "," (map digit (filter (fun n => N.testbit v (n + 1)) all_levels)).
Proof.
  intros [Hv H0] Hn. unfold levels_string. replace (0 <? v)%N with true by (symmetry; apply N.ltb_lt; lia).
  f_equal.
  rewrite (filter_ext_in' _ (N.testbit v)).
  2:{ intros i Hi. apply (OK 16%N v (lt16 v Hv)). unfold bits12 in Hi. cbn [In] in Hi. lia. }
  assert (H11 : N.testbit v 11 = false).
  { destruct (N.eq_dec v 0) as [->|]; [easy|]. apply N.bits_above_log2. apply N.log2_lt_pow2; [lia|exact Hv]. }
  unfold bits12, all_levels. cbn [filter]. rewrite H0, H11.
  change (0 + 1)%N with 1%N. change (1 + 1)%N with 2%N. change (2 + 1)%N with 3%N. change (3 + 1)%N with 4%N.
  change (4 + 1)%N with 5%N. change (5 + 1)%N with 6%N. change (6 + 1)%N with 7%N. change (7 + 1)%N with 8%N.
  change (8 + 1)%N with 9%N. change (9 + 1)%N with 10%N.
  destruct (N.testbit v 1), (N.testbit v 2), (N.testbit v 3), (N.testbit v 4), (N.testbit v 5),
    (N.testbit v 6), (N.testbit v 7), (N.testbit v 8), (N.testbit v 9), (N.testbit v 10); reflexivity.
Qed.
Lemma lsmall_inj v v' : lsmall v -> lsmall v' ->
  (forall n, (n < 10)%N -> N.testbit v (n + 1) = N.testbit v' (n + 1)) -> v = v'.
Proof.
  intros [Hv H0] [Hv' H0'] H. apply N.bits_inj. intros i.
  destruct (N.eq_dec i 0) as [->|]; [congruence|].
  destruct (N.lt_ge_cases i 11) as [L|L].
  - replace i with ((i - 1) + 1)%N by lia. apply H. lia.
  - assert (Z : forall a, (a < 2048)%N -> N.testbit a i = false).
    { intros a Ha. destruct (N.eq_dec a 0) as [->|]; [apply N.bits_0|].
      apply N.bits_above_log2. apply N.lt_le_trans with 11%N; [|easy]. apply N.log2_lt_pow2; [lia|exact Ha]. }
    now rewrite !Z.
Qed.
Lemma lsmall_nonzero v : lsmall v -> v <> 0%N -> exists n, (n < 10)%N /\ N.testbit v (n + 1) = true.
Proof.
  intros Hv Hn. destruct (existsb (fun n => N.testbit v (n + 1)) all_levels) eqn:E.
  - apply existsb_exists in E as (n & Hi & E). exists n. split; [|easy]. unfold all_levels in Hi. cbn [In] in Hi. lia.
  - exfalso. apply Hn. apply lsmall_inj; [easy|split; easy|]. intros n Hl. rewrite N.bits_0.
    destruct (N.testbit v (n + 1)) eqn:T; [|easy].
    assert (existsb (fun n => N.testbit v (n + 1)) all_levels = true); [|congruence].
    apply existsb_exists. exists n. split; [now apply lt10|easy].
Qed.

(* the parser on text of the expected shape *)
Lemma digit_clean n : (n < 10)%N -> no_byte "]" (digit n) = true /\ no_byte "," (digit n) = true /\ no_byte " " (digit n) = true.
Proof. intros H. ten n H; repeat split. Qed.
Lemma get_app a c b : String.get (String.length a) (a ++ String c b) = Some c.
Proof. induction a as [|d a IH]; [easy|]. exact IH. Qed.

Lemma parse_shape p lv rest : has_prefix "parent[" (lc (p ++ lv ++ "]." ++ rest)) = true ->
  String.length p = 7%nat -> no_byte "]" lv = true ->
  parseInheritance sh (p ++ lv ++ "]." ++ rest) =
  let v := lvl_shift sh 0 (map LStr (split1 "," (remove_byte " " lv))) in
  if (v =? 0)%N then IErr
  else match parseATBTV rest [] with None => IErr | Some a => IOk (Some (MkInh v a)) end.
Proof.
  intros H Hp Hlv. unfold parseInheritance. rewrite H. cbn [negb].
  assert (D : sdrop 7 (p ++ lv ++ "]." ++ rest) = lv ++ "]." ++ rest) by (rewrite <- Hp; apply sdrop_app).
  rewrite D. change (lv ++ "]." ++ rest) with (lv ++ String "]" (String "." rest)).
  rewrite idx_app by easy.
  assert (G : String.get (String.length lv + 1) (lv ++ String "]" (String "." rest)) = Some "."%char).
  { replace (String.length lv + 1)%nat with (String.length (lv ++ "]")) by (rewrite length_app; reflexivity).
    replace (lv ++ String "]" (String "." rest)) with ((lv ++ "]") ++ String "." rest) by (rewrite app_assoc'; reflexivity).
    apply get_app. }
  rewrite G. rewrite stake_app.
  assert (D2 : sdrop (String.length lv + 2) (lv ++ String "]" (String "." rest)) = rest).
  { replace (String.length lv + 2)%nat with (String.length (lv ++ "].")) by (rewrite length_app; reflexivity).
    replace (lv ++ String "]" (String "." rest)) with ((lv ++ "].") ++ rest) by (rewrite app_assoc'; reflexivity).
    apply sdrop_app. }
  rewrite D2. reflexivity.
Qed.

Lemma lc_prefix7 s : has_prefix "parent[" (lc ("parent[" ++ s)) = true.
Proof. cbn [append]. rewrite !lc_ascii by reflexivity. reflexivity. Qed.

Lemma joined_digits ns : ns <> [] -> (forall n, In n ns -> (n < 10)%N) ->
  no_byte "]" (join "," (map digit ns)) = true /\
  split1 "," (remove_byte " " (join "," (map digit ns))) = map digit ns.
Proof.
  intros NE H. split.
  - apply no_byte_join; [easy|]. intros x Hx. apply in_map_iff in Hx as (n & <- & Hn). now apply digit_clean, H.
  - rewrite remove_none.
    + apply split1_join; [destruct ns; easy|]. intros x Hx. apply in_map_iff in Hx as (n & <- & Hn). now apply digit_clean, H.
    + apply no_byte_join; [easy|]. intros x Hx. apply in_map_iff in Hx as (n & <- & Hn). now apply digit_clean, H.
Qed.
Lemma shift_digits ns : ns <> [] -> (forall n, In n ns -> (n < 10)%N) ->
  let v := lvl_shift sh 0 (map LStr (map digit ns)) in
  lsmall v /\ v <> 0%N /\ forall n, (n < 10)%N -> N.testbit v (n + 1) = existsb (N.eqb n) ns.
Proof.
  intros NE H v.
  destruct (lshift_all (map LStr (map digit ns)) 0%N) as [A B].
  - split; easy.
  - intros x Hx. rewrite map_map in Hx. apply in_map_iff in Hx as (n & <- & Hn). exists n. split; [now apply H|easy].
  - fold v in A, B.
    assert (E : forall n, (n < 10)%N -> N.testbit v (n + 1) = existsb (N.eqb n) ns).
    { intros n Hn. rewrite B by easy. rewrite N.bits_0, map_map.
      assert (X : existsb (fun x => lmentions x n) (map (fun x => LStr (digit x)) ns) = existsb (N.eqb n) ns).
      { clear -H Hn. induction ns as [|m ns IH]; [easy|]. cbn [map existsb lmentions].
        rewrite IH by (intros; apply H; now right). f_equal.
        assert (Hm : (m < 10)%N) by (apply H; now left). ten m Hm; ten2 n Hn; reflexivity. }
      rewrite X. now destruct (existsb (N.eqb n) ns). }
    split; [exact A|]. split; [|exact E].
    intros Z. destruct ns as [|m ns]; [easy|].
    assert (Hm : (m < 10)%N) by (apply H; now left). specialize (E m Hm). rewrite Z, N.bits_0 in E.
    cbn [existsb] in E. rewrite N.eqb_refl in E. discriminate.
Qed.
End Contract.
