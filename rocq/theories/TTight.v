(* Further theorems for C01, C09, C14, C16, C17, C52, C57, C81, C87 and C93, found necessary by editing the model. *)
From Coq Require Import String Ascii List PeanoNat NArith ZArith Bool Lia Permutation.
From Verif Require Import GoStr GoStrFacts Shifty MMisc MAttr MKw MRights MSec MTime MLists MFilter MUri MRule MConv MTree MAci MView MHeap
  STime PTime SSec TSec PRights SLists SKw PKw PRule TKw TRule TTree TAci.
Import ListNotations.
Open Scope string_scope.

(* ---- the texts that are read as a lower case ASCII name ---- *)
(* A text spells a name if each letter of the name is written in lower or upper
   case, or as one of the two letters outside ASCII whose lower case is an ASCII
   letter: the Kelvin sign U+212A for k, the dotted capital I U+0130 for i. *)
Inductive spells : string -> string -> Prop :=
| sp_nil : spells "" ""
| sp_same : forall c s t, spells s t -> spells (String c s) (String c t)
| sp_upper : forall c s t, spells s t -> spells (String (upper_byte c) s) (String c t)
| sp_kelvin : forall s t, spells s t -> spells (String "226" (String "132" (String "170" s))) (String "k" t)
| sp_dotted : forall s t, spells s t -> spells (String "196" (String "176" s)) (String "i" t).
(* Where texts are compared without regard to letter case (strings.EqualFold) the
   two letters are the Kelvin sign for k and the long s U+017F for s. *)
Inductive folds : string -> string -> Prop :=
| fo_nil : folds "" ""
| fo_same : forall c s t, folds s t -> folds (String c s) (String c t)
| fo_upper : forall c s t, folds s t -> folds (String (upper_byte c) s) (String c t)
| fo_kelvin : forall s t, folds s t -> folds (String "226" (String "132" (String "170" s))) (String "k" t)
| fo_long : forall s t, folds s t -> folds (String "197" (String "191" s)) (String "s" t).
(* ASCII without capital letters *)
Definition lower_name (t : string) : bool := all_bytes (fun c => ascii_byte c && negb (byte_between 65 90 c)) t.

Lemma low_byte_cases c d : lower_byte c = d -> (ascii_byte d && negb (byte_between 65 90 d))%bool = true -> c = d \/ c = upper_byte d.
Proof.
  intros <- H. unfold lower_byte in *. destruct (byte_between 65 90 c) eqn:B; [right|now left].
  destruct c as [[] [] [] [] [] [] [] []]; try discriminate B; reflexivity.
Qed.
Lemma three_skip c s : Ascii.eqb c xE2 = false -> three_to_one xE2 x84 xAA "k" (String c s) = String c (three_to_one xE2 x84 xAA "k" s).
Proof. intros E. cbn [three_to_one]. destruct s as [|d [|f s]]; rewrite ?E; reflexivity. Qed.
Lemma three_hit s : three_to_one xE2 x84 xAA "k" (String "226" (String "132" (String "170" s))) = String "k" (three_to_one xE2 x84 xAA "k" s).
Proof. reflexivity. Qed.
Lemma three_cases c s : (c = "226"%char /\ exists r, s = String "132" (String "170" r)) \/
  three_to_one xE2 x84 xAA "k" (String c s) = String c (three_to_one xE2 x84 xAA "k" s).
Proof.
  destruct s as [|d [|f r]]; try (right; reflexivity). cbn [three_to_one].
  destruct (Ascii.eqb c xE2) eqn:A; [|right; reflexivity]. destruct (Ascii.eqb d x84) eqn:B; [|right; reflexivity].
  destruct (Ascii.eqb f xAA) eqn:C; [|right; reflexivity]. apply Ascii.eqb_eq in A, B, C. subst. left. split; [reflexivity|now exists r].
Qed.

Section Spelling.
Variables p q x : ascii.
Hypothesis P : (ascii_byte p || Ascii.eqb p xE2 || Ascii.eqb q xE2 || Ascii.eqb q "k" || negb (ascii_byte x))%bool = false.
Let key (s : string) : string := map_bytes lower_byte (two_to_one p q x (three_to_one xE2 x84 xAA "k" s)).
Inductive writes : string -> string -> Prop :=
| wr_nil : writes "" ""
| wr_same : forall c s t, writes s t -> writes (String c s) (String c t)
| wr_upper : forall c s t, writes s t -> writes (String (upper_byte c) s) (String c t)
| wr_kelvin : forall s t, writes s t -> writes (String "226" (String "132" (String "170" s))) (String "k" t)
| wr_pair : forall s t, writes s t -> writes (String p (String q s)) (String (lower_byte x) t).
Lemma p_facts : ascii_byte p = false /\ Ascii.eqb p xE2 = false /\ Ascii.eqb q xE2 = false /\ Ascii.eqb q "k" = false.
Proof. rewrite !orb_false_iff in P. tauto. Qed.
Lemma asc_not_p c : ascii_byte c = true -> Ascii.eqb c p = false /\ Ascii.eqb c xE2 = false.
Proof.
  intros A. split; apply Ascii.eqb_neq; intros ->; [|discriminate A]. rewrite (proj1 p_facts) in A. discriminate.
Qed.
Lemma upper_asc c : ascii_byte c = true -> ascii_byte (upper_byte c) = true.
Proof. destruct c as [[] [] [] [] [] [] [] []]; intros H; try discriminate H; reflexivity. Qed.
Lemma low_same c : (ascii_byte c && negb (byte_between 65 90 c))%bool = true -> lower_byte c = c /\ lower_byte (upper_byte c) = c.
Proof. destruct c as [[] [] [] [] [] [] [] []]; intros H; try discriminate H; vm_compute; repeat split. Qed.
Lemma two_skip c s : Ascii.eqb c p = false -> two_to_one p q x (String c s) = String c (two_to_one p q x s).
Proof. intros E. destruct s as [|d s]; [reflexivity|]. cbn [two_to_one]. rewrite E. reflexivity. Qed.
Lemma key_skip c s : ascii_byte c = true -> key (String c s) = String (lower_byte c) (key s).
Proof. intros A. destruct (asc_not_p c A) as [B C]. unfold key. rewrite three_skip, two_skip by assumption. reflexivity. Qed.
Lemma key_kelvin s : key (String "226" (String "132" (String "170" s))) = String "k" (key s).
Proof. unfold key. rewrite three_hit, two_skip by apply asc_not_p, eq_refl. reflexivity. Qed.
Lemma key_pair s : key (String p (String q s)) = String (lower_byte x) (key s).
Proof.
  destruct p_facts as (_ & A & B & _). unfold key. rewrite three_skip, three_skip by assumption.
  cbn [two_to_one]. now rewrite !Ascii.eqb_refl.
Qed.
Lemma writes_key s t : writes s t -> lower_name t = true -> key s = t.
Proof.
  induction 1 as [|c s t S IH|c s t S IH|s t S IH|s t S IH]; intros L; [reflexivity|..];
    unfold lower_name in *; cbn [all_bytes] in L; apply andb_true_iff in L as [L1 L2].
  - rewrite key_skip by (apply andb_true_iff in L1; tauto). now rewrite (proj1 (low_same c L1)), IH.
  - rewrite key_skip by (apply upper_asc; apply andb_true_iff in L1; tauto). now rewrite (proj2 (low_same c L1)), IH.
  - rewrite key_kelvin, IH by assumption. reflexivity.
  - rewrite key_pair, IH by assumption. reflexivity.
Qed.
Lemma key_writes s : lower_name (key s) = true -> writes s (key s).
Proof.
  remember (String.length s) as n eqn:Hn. assert (Hl : (String.length s <= n)%nat) by lia. clear Hn. revert s Hl.
  induction n as [|n IH]; intros s Hl L.
  - destruct s; [constructor|cbn in Hl; lia].
  - destruct s as [|c s]; [constructor|]. cbn [String.length] in Hl. destruct (three_cases c s) as [(-> & r & ->)|T].
    + rewrite key_kelvin in *. cbn [String.length] in Hl. apply wr_kelvin, IH; [lia|]. exact L.
    + assert (E : (c = p /\ exists r, s = String q r) \/ key (String c s) = String (lower_byte c) (key s)).
      { unfold key. rewrite T. destruct (three_to_one xE2 x84 xAA "k" s) as [|d r] eqn:Q; [right; reflexivity|].
        cbn [two_to_one]. destruct (Ascii.eqb c p) eqn:A; [|right; reflexivity]. destruct (Ascii.eqb d q) eqn:B; [|right; reflexivity].
        apply Ascii.eqb_eq in A, B. subst. left. split; [reflexivity|]. destruct s as [|e s]; [discriminate Q|].
        destruct (three_cases e s) as [(-> & r' & ->)|T'].
        - rewrite three_hit in Q. injection Q as Q _. destruct p_facts as (_ & _ & _ & K). rewrite <- Q in K. discriminate K.
        - rewrite T' in Q. injection Q as -> _. now exists s. }
      destruct E as [(-> & r & ->)|E].
      * rewrite key_pair in *. cbn [String.length] in Hl. apply wr_pair, IH; [lia|].
        unfold lower_name in *. cbn [all_bytes] in L. apply andb_true_iff in L. tauto.
      * rewrite E in *. unfold lower_name in L. cbn [all_bytes] in L. apply andb_true_iff in L as [L1 L2].
        assert (IHs : writes s (key s)) by (apply IH; [lia|exact L2]).
        destruct (low_byte_cases c _ eq_refl L1) as [X|X].
        -- rewrite <- X. now apply wr_same.
        -- rewrite X at 1. now apply wr_upper.
Qed.
End Spelling.
Lemma writes_spells s t : writes xC4 xB0 "i" s t <-> spells s t.
Proof.
  split.
  - induction 1; [apply sp_nil|now apply sp_same|now apply sp_upper|now apply sp_kelvin|now apply sp_dotted].
  - induction 1 as [| | | |s t S IH]; [apply wr_nil|now apply wr_same|now apply wr_upper|now apply wr_kelvin|exact (wr_pair xC4 xB0 "i" s t IH)].
Qed.
Lemma writes_folds s t : writes xC5 xBF "s" s t <-> folds s t.
Proof.
  split.
  - induction 1; [apply fo_nil|now apply fo_same|now apply fo_upper|now apply fo_kelvin|now apply fo_long].
  - induction 1 as [| | | |s t S IH]; [apply wr_nil|now apply wr_same|now apply wr_upper|now apply wr_kelvin|exact (wr_pair xC5 xBF "s" s t IH)].
Qed.
Lemma lc_spells_iff s t : lower_name t = true -> (lc s = t <-> spells s t).
Proof.
  intros L. rewrite <- writes_spells. split.
  - intros <-. exact (key_writes xC4 xB0 "i" eq_refl s L).
  - intros S. exact (writes_key xC4 xB0 "i" eq_refl s t S L).
Qed.
Lemma fold_key_low t : lower_name t = true -> fold_key t = t.
Proof.
  intros L. apply (writes_key xC5 xBF "s" eq_refl); [|exact L]. clear L. induction t; [apply wr_nil|now apply wr_same].
Qed.
Lemma eqfold_folds_iff s t : lower_name t = true -> (eqfold s t = true <-> folds s t).
Proof.
  intros L. rewrite <- writes_folds. unfold eqfold. rewrite (fold_key_low t L), String.eqb_eq. split.
  - intros <-. exact (key_writes xC5 xBF "s" eq_refl s L).
  - intros S. exact (writes_key xC5 xBF "s" eq_refl s t S L).
Qed.

(* C17: the texts that give a keyword, bind type or operator, spelled out *)
Theorem C17_spelling : forall s,
  (forall k, matchBKW s = bindkw_const k <-> folds s (bindkw_name k)) /\
  (forall k, matchTKW s = targetkw_const k <-> folds s (targetkw_name k)).
Proof.
  intros s. split; intros k.
  - rewrite <- eqfold_folds_iff by (now destruct k). exact (proj1 (C17_bind_keyword bkwMap (Permutation_refl _) s) k).
  - rewrite <- eqfold_folds_iff by (now destruct k). exact (proj1 (C17_target_keyword tkwMap (Permutation_refl _) s) k).
Qed.
Print Assumptions C17_spelling.
Example C17_spelling_witness :
  matchBKW (String "197" (String "191" "SF")) = bindkw_const StrengthFactor /\ folds (String "197" (String "191" "SF")) "ssf" /\
  matchBKW (String "196" (String "176" "p")) = 0%N.
Proof. repeat split; try reflexivity. apply fo_long, (fo_upper "s"), (fo_upper "f"), fo_nil. Qed.
(* C09: the texts that name a day *)
Theorem C09_spelling : forall s d, matchStrDoW s = day_const d <-> exists name, In name (day_spellings d) /\ spells s name.
Proof.
  intros s d. rewrite matchStr_iff. unfold names_day.
  assert (Lw : forall n, In n (day_spellings d) -> lower_name n = true).
  { intros n. destruct d; cbn [day_spellings In]; intros I; repeat (destruct I as [<-|I]; [reflexivity|]); destruct I. }
  split.
  - intros I. exists (lc s). split; [exact I|]. apply lc_spells_iff; [now apply Lw|reflexivity].
  - intros (n & I & S). apply lc_spells_iff in S; [now rewrite S|now apply Lw].
Qed.
(* C16: the texts that name a scope *)
Theorem C16_spelling : forall s c, strToScope s = scope_const c <-> exists name, In name (scope_names c) /\ spells s name.
Proof.
  intros s d. rewrite (proj1 (C16_read s) d). unfold names_scope.
  assert (Lw : forall n, In n (scope_names d) -> lower_name n = true).
  { intros n. destruct d; cbn [scope_names In]; intros I; repeat (destruct I as [<-|I]; [reflexivity|]); destruct I. }
  split.
  - intros I. exists (lc s). split; [exact I|]. apply lc_spells_iff; [now apply Lw|reflexivity].
  - intros (n & I & S). apply lc_spells_iff in S; [now rewrite S|now apply Lw].
Qed.
(* C14: the words for a security strength factor *)
Theorem C14_spelling : forall s,
  ((spells s "full" \/ spells s "max") -> stringToIntSSF s = 256%Z) /\ ((spells s "none" \/ spells s "off") -> stringToIntSSF s = 0%Z) /\
  (~ spells s "full" -> ~ spells s "max" -> ~ spells s "none" -> ~ spells s "off" -> stringToIntSSF s = fst (atoi s)).
Proof.
  intros s. unfold stringToIntSSF. cbn [strInSlice].
  rewrite <- !lc_spells_iff by reflexivity. repeat split.
  - intros [-> | ->]; reflexivity.
  - intros [-> | ->]; reflexivity.
  - intros A B C D. rewrite <- String.eqb_neq in A, B, C, D. now rewrite A, B, C, D.
Qed.
Print Assumptions C09_spelling.
Print Assumptions C16_spelling.
Print Assumptions C14_spelling.

(* C01: the texts that name a right are the spellings of its name, and no others. *)
Theorem C01_spelling : forall s,
  (forall n name, In (n, name) rightsMap -> (rightsNames (lc s) = Some n <-> spells s name)) /\
  (rightsNames (lc s) = None <-> forall n name, In (n, name) rightsMap -> ~ spells s name).
Proof.
  intros s.
  assert (U : forall n name, In (n, name) rightsMap -> rightsNames (lc s) = Some n <-> lc s = name).
  { intros n name I. unfold rightsNames, rightsMap in *. cbn [lookup_name].
    repeat match goal with |- context[String.eqb ?a ?b] => destruct (String.eqb_spec a b) as [<-|?] end;
    cbn [In] in I; repeat (destruct I as [I|I]; [injection I as <- <-; split; intros X; try reflexivity; try discriminate X; congruence|]); destruct I. }
  assert (Lw : forall n name, In (n, name) rightsMap -> lower_name name = true).
  { intros n name I. unfold rightsMap in I. cbn [In] in I. repeat (destruct I as [I|I]; [injection I as <- <-; reflexivity|]). destruct I. }
  split.
  - intros n name I. rewrite (U _ _ I). apply lc_spells_iff. exact (Lw _ _ I).
  - split.
    + intros N n name I S. apply (lc_spells_iff s name (Lw _ _ I)) in S. apply (U _ _ I) in S. rewrite N in S. discriminate.
    + intros H. destruct (rightsNames (lc s)) as [p|] eqn:E; [|reflexivity]. exfalso.
      assert (I : exists name, In (p, name) rightsMap).
      { clear H U Lw. revert E. unfold rightsNames. generalize rightsMap. induction l as [|[k v] l IH]; intros E; [discriminate E|].
        cbn [lookup_name] in E. destruct (String.eqb v (lc s)); [injection E as ->; exists v; now left|]. destruct (IH E) as [w J]. exists w. now right. }
      destruct I as [name I]. apply (H p name I), (lc_spells_iff s name (Lw _ _ I)), (U _ _ I). reflexivity.
Qed.
(* C01: a nil permission holds no right, and nothing that is neither a number, a
   right nor a right's name is ever held. *)
Theorem C01_nil : forall sh x, perm_positive sh PNil x = false /\
  (forall xs, perm_shift sh PNil xs = PNil /\ perm_unshift sh PNil xs = PNil) /\
  (forall p, perm_positive sh p MRights.AOther = false) /\
  (forall p s, (forall n name, In (n, name) rightsMap -> ~ spells s name) -> perm_positive sh p (MRights.AStr s) = false).
Proof.
  intros sh x. split; [reflexivity|]. split; [intros xs; split; reflexivity|]. split; [now intros [|d v]|].
  intros [|d v] s H; [reflexivity|]. apply (proj2 (C01_spelling s)) in H. cbn [perm_positive positive_bits]. now rewrite H.
Qed.
Print Assumptions C01_spelling.
Print Assumptions C01_nil.
Example C01_spelling_witness :
  spells ("WR" ++ String "196" (String "176" "tE")) "write" /\
  rightsNames (lc ("WR" ++ String "196" (String "176" "tE"))) = Some WriteAccess /\
  rightsNames (lc ("wr" ++ String "196" (String "177" "te"))) = None.
Proof.
  split; [|split; reflexivity]. cbn [append]. apply (sp_upper "w"), (sp_upper "r"), sp_dotted, sp_same, (sp_upper "e"), sp_nil.
Qed.

(* ---- C57: what SetQuoteStyle does to every rule whose value is a list ---- *)
Definition targetkws : list targetkw := [TgTarget; TgTo; TgFrom; TgScope; TgAttr; TgFilter; TgAttrFilters; TgCtrl; TgExtOp].
Definition bindkws : list bindkw := [UserDN; GroupDN; RoleDN].
(* the rule's keyword, in any letter case, is one whose values are lists of this kind *)
Definition target_fits (kw : string) (t : lkind) : bool := existsb (fun k => (eqfold kw (targetkw_name k) && fitting k t)%bool) targetkws.
Definition bind_fits (kw : string) : bool := existsb (fun k => eqfold kw (bindkw_name k)) bindkws.
Lemma tkw_eqb s k : (matchTKW s =? targetkw_const k)%N = eqfold s (targetkw_name k).
Proof.
  apply eq_true_iff_eq. rewrite N.eqb_eq. exact (proj1 (C17_target_keyword tkwMap (Permutation_refl _) s) k).
Qed.
Lemma bkw_eqb s k : (matchBKW s =? bindkw_const k)%N = eqfold s (bindkw_name k).
Proof.
  apply eq_true_iff_eq. rewrite N.eqb_eq. exact (proj1 (C17_bind_keyword bkwMap (Permutation_refl _) s) k).
Qed.
Definition sliced_after (fits : bool) (style : Z) (vals : list string) (before : bool) : bool :=
  if fits then ((2 <=? List.length vals)%nat && (style =? 0)%Z)%bool else before.
Lemma style_len style vals : list_style style vals = ((2 <=? List.length vals)%nat && (style =? 0)%Z)%bool.
Proof. unfold list_style. rewrite Nat.ltb_antisym. now destruct (2 <=? List.length vals)%nat. Qed.
Theorem C57_target_exact : forall c t sliced vals style, t <> LBindDN -> c_ex c = Some (XList t sliced vals) ->
  tr_set_quote_style style (Some c) =
    Some (MkCond (c_kw c) (c_op c) (Some (XList t (sliced_after (target_fits (c_kw c) t) style vals sliced) vals))
                 (negb (style =? 0)%Z) (c_paren c) (c_pad c)).
Proof.
  intros c t sliced vals style N X. cbn [tr_set_quote_style]. rewrite X. cbn [tr_keyword]. unfold MultivalSliceQuotes, with_quoted, with_ex, sliced_after, target_fits, targetkws.
  rewrite !style_len. cbn [c_kw c_op c_ex c_quoted c_paren c_pad existsb].
  change Target with (targetkw_const TgTarget). change TargetTo with (targetkw_const TgTo). change TargetFrom with (targetkw_const TgFrom).
  change TargetAttr with (targetkw_const TgAttr). change TargetExtOp with (targetkw_const TgExtOp). change TargetCtrl with (targetkw_const TgCtrl).
  rewrite !tkw_eqb. destruct t; [now destruct (N eq_refl)|..]; cbn [fitting];
    rewrite ?andb_true_r, ?andb_false_r, ?orb_false_r; cbn [orb]; rewrite ?orb_false_r, ?orb_assoc; try reflexivity.
  now rewrite (orb_comm (eqfold (c_kw c) (targetkw_name TgExtOp))).
Qed.
Theorem C57_bind_exact : forall c sliced vals style, c_ex c = Some (XList LBindDN sliced vals) ->
  br_set_quote_style style (Some c) =
    Some (MkCond (c_kw c) (c_op c) (Some (XList LBindDN (sliced_after (bind_fits (c_kw c)) style vals sliced) vals))
                 (negb (style =? 0)%Z) (c_paren c) (c_pad c)).
Proof.
  intros c sliced vals style X. cbn [br_set_quote_style]. rewrite X. cbn [br_keyword].
  unfold MultivalSliceQuotes, with_quoted, with_ex, sliced_after, bind_fits, bindkws.
  rewrite !style_len. cbn [c_kw c_op c_ex c_quoted c_paren c_pad existsb].
  change BindUDN with (bindkw_const UserDN). change BindGDN with (bindkw_const GroupDN). change BindRDN with (bindkw_const RoleDN).
  rewrite !bkw_eqb, orb_false_r, orb_assoc. reflexivity.
Qed.
(* any other value only has its double quotes switched on *)
Theorem C57_other_exact : forall c style,
  ((forall sliced vals, c_ex c <> Some (XList LBindDN sliced vals)) ->
   br_set_quote_style style (Some c) = Some (MkCond (c_kw c) (c_op c) (c_ex c) true (c_paren c) (c_pad c))) /\
  ((forall t sliced vals, t <> LBindDN -> c_ex c <> Some (XList t sliced vals)) ->
   tr_set_quote_style style (Some c) = Some (MkCond (c_kw c) (c_op c) (c_ex c) true (c_paren c) (c_pad c))).
Proof.
  intros c style. split; intros H; cbn [br_set_quote_style tr_set_quote_style]; destruct (c_ex c) as [[s|t b l|z l]|] eqn:X; unfold with_quoted; rewrite ?X; try reflexivity;
    destruct t; try reflexivity; try (now destruct (H b l)); exfalso; eapply H; try reflexivity; discriminate.
Qed.
Print Assumptions C57_target_exact.
Print Assumptions C57_bind_exact.
Print Assumptions C57_other_exact.
(* a list under a keyword it does not fit keeps its own style while the quotes
   around it follow the argument *)
Example C57_exact_witness :
  let c := MkCond "targetscope" (Some Eq) (Some (XList LTargetDN true ["ldap:///cn=a"; "ldap:///cn=b"])) true false true in
  target_fits "targetscope" LTargetDN = false /\ target_fits "TARGET_from" LTargetDN = true /\
  tr_set_quote_style 1 (Some c) = Some c /\
  option_map c_quoted (tr_set_quote_style 0 (Some c)) = Some false.
Proof. repeat split; reflexivity. Qed.

(* ---- C52: the keyword an LDAP URI reports ---- *)
(* A URI that holds a pair reports the pair's keyword if that is userattr or
   groupattr, one without a pair its name's keyword if that is userdn, groupdn or
   roledn; everything else reports none. *)
Theorem C52_keyword_exact : forall u k,
  uri_keyword u = Some k <->
  uri_valid u = true /\
  ((pair_isZero (ab_pair (u_avbt u)) = false /\ ab_kw (u_avbt u) = k /\ (k = bindkw_const UserAttr \/ k = bindkw_const GroupAttr)) \/
   (pair_isZero (ab_pair (u_avbt u)) = true /\ (exists d, u_dn u = Some d /\ dn_kw d = k) /\
    (k = bindkw_const UserDN \/ k = bindkw_const GroupDN \/ k = bindkw_const RoleDN))).
Proof.
  intros u k. unfold uri_keyword. destruct (uri_valid u); cbn [negb]; [|split; [discriminate|now intros [H _]]].
  destruct (pair_isZero (ab_pair (u_avbt u))); cbn [negb].
  - destruct (u_dn u) as [d|]; [|split; [discriminate|intros (_ & [(H & _)|(_ & (d & H & _) & _)]); discriminate]].
    change (bindkw_const UserDN) with BindUDN. change (bindkw_const GroupDN) with BindGDN. change (bindkw_const RoleDN) with BindRDN.
    destruct ((dn_kw d =? BindGDN) || (dn_kw d =? BindRDN) || (dn_kw d =? BindUDN))%N%bool eqn:B.
    + rewrite !orb_true_iff, !N.eqb_eq in B. split.
      * intros [= <-]. split; [reflexivity|]. right. split; [reflexivity|]. split; [now exists d|]. intuition.
      * intros (_ & [(H & _)|(_ & (d' & [= <-] & H) & _)]); [discriminate|now subst].
    + rewrite !orb_false_iff, !N.eqb_neq in B. split; [discriminate|].
      intros (_ & [(H & _)|(_ & (d' & [= <-] & H) & I)]); [discriminate|]. subst. intuition.
  - change (bindkw_const UserAttr) with BindUAT. change (bindkw_const GroupAttr) with BindGAT.
    destruct ((ab_kw (u_avbt u) =? BindUAT) || (ab_kw (u_avbt u) =? BindGAT))%N%bool eqn:B.
    + rewrite !orb_true_iff, !N.eqb_eq in B. split.
      * intros [= <-]. split; [reflexivity|]. left. intuition.
      * intros (_ & [(_ & H & _)|(H & _)]); [now subst|discriminate].
    + rewrite !orb_false_iff, !N.eqb_neq in B. split; [discriminate|].
      intros (_ & [(_ & H & I)|(H & _)]); [|discriminate]. subst. intuition.
Qed.
Print Assumptions C52_keyword_exact.

(* ---- C81: what an OID list never contains ---- *)
Theorem C81_oid_others : forall eqf l x, oid_Contains eqf l x = true ->
  exists s, s <> "" /\ s <> "<invalid_object_identifier>" /\ (x = MLists.OStr s \/ exists o, x = OOID o /\ oid_string o = s) /\
    exists m, In m l /\ eqf (omember_string m) s = true.
Proof.
  intros eqf l x H. unfold oid_Contains in H. destruct l as [|m l]; [discriminate|].
  assert (F : forall s, (if ((String.length s =? 0)%nat || String.eqb s badDotNot)%bool then false
        else existsb (fun y => eqf (omember_string y) s) (m :: l)) = true ->
    s <> "" /\ s <> badDotNot /\ exists y, In y (m :: l) /\ eqf (omember_string y) s = true).
  { clear. intros s H. destruct (String.length s =? 0)%nat eqn:A; [discriminate|]. destruct (String.eqb_spec s badDotNot) as [->|B]; [discriminate|].
    cbn [orb] in H. apply existsb_exists in H as (y & I & E). repeat split; [now intros ->|exact B|now exists y]. }
  destruct x as [s|o|k|]; try discriminate H; apply F in H as (A & B & C).
  - exists s. intuition.
  - exists (oid_string o). split; [exact A|]. split; [exact B|]. split; [right; now exists o|exact C].
Qed.
Print Assumptions C81_oid_others.

(* ---- C87: a new permission in a program holds what Allow or Deny of its arguments gives ---- *)
Theorem C87_new : forall W s x d xs, let s' := rexec W s (RPerm x d xs) in
  perm_of (rd (r_perms s') (r_pvar s' x)) = (if d then Allow (sh W) xs else Deny (sh W) xs) /\
  (forall y, y <> x -> r_pvar s' y = r_pvar s y) /\
  (forall l, (l < List.length (r_perms s))%nat -> nth_error (r_perms s') l = nth_error (r_perms s) l) /\
  rlist s' = map (rule_at s') (r_list s) /\ r_rvar s' = r_rvar s /\ r_cells s' = r_cells s.
Proof.
  intros W s x d xs. cbn [rexec r_perms r_pvar r_list r_rvar r_cells]. repeat split.
  - unfold upd. rewrite Nat.eqb_refl. unfold rd. rewrite nth_error_app2, Nat.sub_diag by lia. now destruct d.
  - intros y N. unfold upd. now rewrite (proj2 (Nat.eqb_neq y x) N).
  - intros l H. now rewrite nth_error_app1.
Qed.
Print Assumptions C87_new.

(* ---- C93: a URI prints the marker exactly if it is not valid ---- *)
Theorem C93_uri : forall u, uri_string u = "<invalid_ldap_uri>" <-> uri_valid u = false.
Proof.
  intros u. split.
  - intros E. destruct (uri_valid u) eqn:V; [|reflexivity]. assert (D : exists k t, u_dn u = Some (MkDN k (Some t))).
    { unfold uri_valid in V. destruct (u_dn u) as [[k [t|]]|]; try discriminate V. eauto. }
    destruct D as (k & t & D). unfold uri_string in E. rewrite V, D in E. cbn [negb dn_string] in E.
    destruct (negb (sf_isZero _)); [discriminate|]. destruct (negb (abtv_isZero _)); discriminate.
  - intros V. unfold uri_string. now rewrite V.
Qed.
Example C93_uri_witness : uri_string (URI [UScope 2]) = "<invalid_ldap_uri>" /\ uri_string (URI [UDn (UDN "cn=a")]) = "ldap:///cn=a??base?".
Proof. now split. Qed.
Print Assumptions C93_uri.
