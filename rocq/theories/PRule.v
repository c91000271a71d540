(* Lemmas on rules and lists of target rules (C18, C37, C46, C56, C57). *)
From Coq Require Import String Ascii List PeanoNat NArith ZArith Bool Lia Permutation.
From Verif Require Import GoStr GoStrFacts MMisc MLists MKw SKw PKw MRule.
Import ListNotations.
Open Scope string_scope.

Lemma NoDup_snoc' {A} (l : list A) x : NoDup l -> ~ In x l -> NoDup (l ++ [x])%list.
Proof. intros D N. apply NoDup_Add with (a := x) (l := l); [|now split]. rewrite <- (app_nil_r l) at 1. apply Add_app. Qed.
Lemma removelast_cases {A} (l : list A) : l = [] \/ exists x, l = (removelast l ++ [x])%list.
Proof.
  destruct l as [|a l]; [now left|right]. exists (List.last (a :: l) a). apply app_removelast_last. discriminate.
Qed.
Lemma NoDup_removelast {A B} (f : A -> B) (l : list A) : NoDup (map f l) -> NoDup (map f (removelast l)).
Proof.
  destruct (removelast_cases l) as [->|[x E]]; [easy|]. rewrite E at 1. rewrite map_app. cbn [map].
  intros D. apply NoDup_remove_1 in D. now rewrite app_nil_r in D.
Qed.
Lemma In_removelast {A} (l : list A) y : In y (removelast l) -> In y l.
Proof.
  destruct (removelast_cases l) as [->|[x E]]; [easy|]. intros H. rewrite E. apply in_app_iff. now left.
Qed.

(* keyword lookup *)
Lemma matchTKW_cases s : matchTKW s = 0%N \/ exists k, matchTKW s = targetkw_const k /\ eqfold s (targetkw_name k) = true.
Proof.
  destruct (targetkw_lookup _ (Permutation_refl _) s) as [A B]. unfold matchTKW.
  destruct (eqfold s "target") eqn:E1; [right; exists TgTarget; split; [now apply (A TgTarget)|easy]|].
  destruct (eqfold s "target_to") eqn:E2; [right; exists TgTo; split; [now apply (A TgTo)|easy]|].
  destruct (eqfold s "targetattr") eqn:E3; [right; exists TgAttr; split; [now apply (A TgAttr)|easy]|].
  destruct (eqfold s "targetcontrol") eqn:E4; [right; exists TgCtrl; split; [now apply (A TgCtrl)|easy]|].
  destruct (eqfold s "target_from") eqn:E5; [right; exists TgFrom; split; [now apply (A TgFrom)|easy]|].
  destruct (eqfold s "targetscope") eqn:E6; [right; exists TgScope; split; [now apply (A TgScope)|easy]|].
  destruct (eqfold s "targetfilter") eqn:E7; [right; exists TgFilter; split; [now apply (A TgFilter)|easy]|].
  destruct (eqfold s "targattrfilters") eqn:E8; [right; exists TgAttrFilters; split; [now apply (A TgAttrFilters)|easy]|].
  destruct (eqfold s "extop") eqn:E9; [right; exists TgExtOp; split; [now apply (A TgExtOp)|easy]|].
  left. apply B. now intros [].
Qed.
Lemma matchBKW_cases s : matchBKW s = 0%N \/ exists k, matchBKW s = bindkw_const k /\ eqfold s (bindkw_name k) = true.
Proof.
  destruct (bindkw_lookup _ (Permutation_refl _) s) as [A B]. unfold matchBKW.
  destruct (N.eq_dec (tbl_match bkwMap s) 0) as [E|E]; [now left|right].
  assert (X : exists k, eqfold s (bindkw_name k) = true).
  { assert (D : forall l, (exists k, In k l /\ eqfold s (bindkw_name k) = true) \/ (forall k, In k l -> eqfold s (bindkw_name k) = false)).
    { induction l as [|k l [[k' [I H]]|H]]; [now right|left; exists k'; split; [now right|easy]|].
      destruct (eqfold s (bindkw_name k)) eqn:Ek; [left; exists k; split; [now left|easy]|right].
      intros k' [<-|I]; [easy|now apply H]. }
    destruct (D all_bindkw) as [[k [_ H]]|H]; [now exists k|]. exfalso. apply E, B. intros k. apply H. destruct k; cbn; tauto. }
  destruct X as [k Hk]. exists k. split; [now apply A|easy].
Qed.
Lemma matchTKW_name k : matchTKW (targetkw_name k) = targetkw_const k.
Proof. now destruct k. Qed.
Lemma matchBKW_name k : matchBKW (bindkw_name k) = bindkw_const k.
Proof. now destruct k. Qed.
Lemma tkw_string_const k : tkw_string (targetkw_const k) = targetkw_name k.
Proof. now destruct k. Qed.
Lemma bkw_not_target k : matchBKW (targetkw_name k) = 0%N.
Proof. now destruct k. Qed.
Lemma op_in_relop n l : (forall m, In m l -> exists o, m = relop_const o) -> op_in n l = true -> exists o, n = relop_const o.
Proof.
  intros H E. unfold op_in in E. apply existsb_exists in E as (m & Hm & E). apply N.eqb_eq in E as ->. now apply H.
Qed.
Lemma ops_table_relop t k : (forall k' l, In (k', l) t -> forall m, In m l -> exists o, m = relop_const o) ->
  forall m, In m (ops_get t k) -> exists o, m = relop_const o.
Proof.
  induction t as [|[k' l] t IH]; intros H m Hm; [easy|]. cbn [ops_get] in Hm. destruct (k' =? k)%N.
  - exact (H k' l (or_introl eq_refl) m Hm).
  - apply IH; [|easy]. intros k2 l2 I. apply (H k2 l2). now right.
Qed.
Lemma permittedTarget_relop k' l : In (k', l) permittedTarget -> forall m, In m l -> exists o, m = relop_const o.
Proof.
  intros H m Hm. unfold permittedTarget in H. cbn [In] in H.
  repeat (destruct H as [H|H]; [injection H as _ <-; cbn [In] in Hm;
    repeat (destruct Hm as [<-|Hm]; [solve [now exists REq | now exists RNe]|]); easy|]). easy.
Qed.
Lemma permittedBind_relop k' l : In (k', l) permittedBind -> forall m, In m l -> exists o, m = relop_const o.
Proof.
  intros H m Hm. unfold permittedBind in H. cbn [In] in H.
  repeat (destruct H as [H|H]; [injection H as _ <-; cbn [In] in Hm;
    repeat (destruct Hm as [<-|Hm]; [solve [now exists REq | now exists RNe | now exists RLt | now exists RLe | now exists RGt | now exists RGe]|]); easy|]). easy.
Qed.
Lemma target_allows_relop k n : targetKeywordAllows (targetkw_const k) n = true ->
  exists o, n = relop_const o /\ targetkw_allows k o = true.
Proof.
  intros H. assert (X := H). apply op_in_relop in X.
  - destruct X as [o ->]. exists o. split; [easy|]. now rewrite <- allows_target.
  - apply ops_table_relop. exact permittedTarget_relop.
Qed.
Lemma bind_allows_relop k n : bindKeywordAllows (bindkw_const k) n = true ->
  exists o, n = relop_const o /\ bindkw_allows k o = true.
Proof.
  intros H. assert (X := H). apply op_in_relop in X.
  - destruct X as [o ->]. exists o. split; [easy|]. now rewrite <- allows_bind.
  - apply ops_table_relop. exact permittedBind_relop.
Qed.

(* ---- C18 ---- *)
(* the keyword text of a target rule is empty or what a TargetKeyword prints *)
Definition tkw_text (s : string) : Prop := s = "" \/ s = tkw_string 0 \/ exists k, s = targetkw_name k.
Lemma tkw_string_match s : tkw_text (tkw_string (matchTKW s)).
Proof.
  destruct (matchTKW_cases s) as [->|(k & -> & _)]; right; [now left|right]. exists k. apply tkw_string_const.
Qed.
Definition tr_ok (r : rule) : Prop := match r with None => True | Some c => tkw_text (c_kw c) end.
Lemma tr_step_ok r c : tr_ok r -> tr_ok (tr_step r c).
Proof.
  destruct c as [|kw|op|e|b|s]; cbn [tr_step]; intros H.
  - destruct r; [exact H|now left].
  - destruct kw, r; cbn; try exact H; try exact I; apply tkw_string_match.
  - unfold tr_set_operator. destruct (op_arg op =? 0)%N; [easy|]. destruct (_ && _)%bool; [easy|]. destruct r; [exact H|easy].
  - destruct r; [exact H|now left].
  - destruct r; [exact H|easy].
  - destruct r as [c|]; [|easy]. cbn [tr_set_quote_style]. destruct (c_ex c) as [[t|[] sl vs|st vs]|]; exact H.
Qed.
Lemma tr_run_ok r h : tr_ok r -> tr_ok (tr_run r h).
Proof. unfold tr_run. revert r. induction h as [|c h IH]; intros r H; [easy|]. cbn. apply IH. now apply tr_step_ok. Qed.

Lemma tr_valid_ok r : tr_ok r -> tr_valid r = true -> exists c k o, r = Some c /\ c_kw c = targetkw_name k /\
  c_op c = Some (relop_const o) /\ targetkw_allows k o = true.
Proof.
  destruct r as [c|]; [|easy]. cbn [tr_ok tr_valid]. intros K H. apply andb_true_iff in H as [H _].
  destruct (c_op c) as [n|] eqn:EO; [|easy].
  destruct K as [K|[K|[k K]]]; rewrite K in H.
  - discriminate H.
  - discriminate H.
  - exists c, k. cbn [keywordAllowsComparisonOperator] in H. rewrite bkw_not_target in H. cbn [N.eqb negb] in H.
    rewrite matchTKW_name in H. replace (negb (targetkw_const k =? 0)%N) with true in H by (now destruct k).
    destruct (target_allows_relop _ _ H) as (o & -> & Ho). now exists o.
Qed.

(* a bind rule whose keyword is set before, and not after, the operator *)
Definition keeps_keyword (c : bcall) : bool := match c with BKeyword _ => false | _ => true end.
Definition br_inv (kw : string) (k : bindkw) (r : rule) : Prop :=
  match r with None => False | Some c => c_kw c = kw /\
    match c_op c with None => True | Some n => exists o, n = relop_const o /\ bindkw_allows k o = true end end.
Lemma br_step_inv kw k r c : matchBKW kw = bindkw_const k -> keeps_keyword c = true -> br_inv kw k r -> br_inv kw k (br_step r c).
Proof.
  intros K KC H. destruct r as [x|]; [|easy]. destruct H as [A B]. destruct c as [|w|op|e|b|b|s]; cbn [br_step]; try discriminate KC.
  - now split.
  - unfold br_set_operator. destruct (_ && _)%bool eqn:E; [now split|]. destruct (op_arg op =? 0)%N eqn:Z; [now split|].
    split; [exact A|]. cbn [with_op c_op].
    destruct (op_arg op =? Eq)%N eqn:EQ.
    + apply N.eqb_eq in EQ as ->. exists REq. split; [easy|]. now destruct k.
    + cbn [negb andb] in E. apply negb_false_iff in E. cbn [br_keyword] in E. rewrite A, K in E.
      destruct op as [t|n|z|]; cbn [op_arg keywordAllowsComparisonOperator] in E, Z |- *; try discriminate Z.
      * now apply bind_allows_relop.
      * now apply bind_allows_relop.
  - now split.
  - now split.
  - now split.
  - cbn [br_set_quote_style]. destruct (c_ex x) as [[t|[] sl vs|st vs]|]; now split.
Qed.
Lemma br_run_inv kw k r h : matchBKW kw = bindkw_const k -> forallb keeps_keyword h = true -> br_inv kw k r -> br_inv kw k (br_run r h).
Proof.
  intros K. unfold br_run. revert r. induction h as [|c h IH]; intros r HK H; [easy|]. cbn in HK |- *.
  apply andb_true_iff in HK as [A B]. apply IH; [easy|]. now apply br_step_inv.
Qed.

(* ---- C37 ---- *)
Definition known_target (r : rule) : Prop := exists k, tr_keyword r = targetkw_const k.
Lemma kwname_const r k : tr_keyword r = targetkw_const k -> tr_kwname r = targetkw_name k.
Proof. unfold tr_kwname. intros ->. apply tkw_string_const. Qed.
Lemma kwname_unknown r : tr_keyword r = 0%N -> matchTKW (tr_kwname r) = 0%N.
Proof. unfold tr_kwname. now intros ->. Qed.
Lemma tr_keyword_cases r : tr_keyword r = 0%N \/ known_target r.
Proof.
  destruct r as [c|]; [|now left]. cbn [tr_keyword]. unfold known_target. cbn [tr_keyword].
  destruct (matchTKW_cases (c_kw c)) as [E|(k & E & _)]; [now left|right]. now exists k.
Qed.
Lemma known_nonzero r : known_target r -> exists c, r = Some c.
Proof. intros [k H]. destruct r as [c|]; [now exists c|]. destruct k; discriminate H. Qed.
Definition trs_inv (l : list rule) : Prop := (forall r, In r l -> known_target r) /\ NoDup (map tr_keyword l).
Lemma trs_contains_spec l r : (forall x, In x l -> known_target x) -> known_target r ->
  trs_contains l (tr_kwname r) = true <-> In (tr_keyword r) (map tr_keyword l).
Proof.
  intros HL [k K]. unfold trs_contains. rewrite existsb_exists, in_map_iff. rewrite (kwname_const r k K). split.
  - intros (x & Hx & E). exists x. split; [|easy]. destruct (HL x Hx) as [k' K']. rewrite (kwname_const x k' K') in E. rewrite K, K'.
    f_equal. destruct k, k'; try reflexivity; discriminate E.
  - intros (x & E & Hx). exists x. split; [easy|]. rewrite K in E. rewrite (kwname_const x k E). apply eqfold_refl.
Qed.
Lemma policy_spec l r : (forall x, In x l -> known_target x) ->
  trs_policy l r = true <-> known_target r /\ ~ In (tr_keyword r) (map tr_keyword l).
Proof.
  intros HL. destruct (tr_keyword_cases r) as [Z|K].
  - split.
    + unfold trs_policy. destruct r; [|easy]. rewrite (kwname_unknown _ Z). easy.
    + intros [[k K] _]. rewrite Z in K. destruct k; discriminate K.
  - destruct (known_nonzero r K) as [c ->]. unfold trs_policy. rewrite andb_true_iff, !negb_true_iff.
    rewrite <- (not_true_iff_false (trs_contains _ _)).
    rewrite (trs_contains_spec l (Some c) HL K). split; [tauto|]. intros [_ N]. split; [|easy].
    destruct K as [k K]. rewrite (kwname_const _ k K), matchTKW_name. now destruct k.
Qed.
Definition all_consts : list N := [1;2;3;4;5;6;7;8;9]%N.
Lemma inv_length l : trs_inv l -> (List.length l <= 9)%nat.
Proof.
  intros [K D]. rewrite <- (map_length tr_keyword). change 9%nat with (List.length all_consts).
  apply NoDup_incl_length; [easy|]. intros n Hn. apply in_map_iff in Hn as (r & <- & Hr). destruct (K r Hr) as [k ->].
  destruct k; cbn; tauto.
Qed.
Lemma push_inv_length l r : trs_inv l -> known_target r -> ~ In (tr_keyword r) (map tr_keyword l) -> (List.length l < 9)%nat.
Proof.
  intros H K N. assert (X : trs_inv (l ++ [r])%list).
  { destruct H as [A B]. split.
    - intros x Hx. apply in_app_iff in Hx as [Hx|[<-|[]]]; auto.
    - rewrite map_app. now apply NoDup_snoc'. }
  apply inv_length in X. rewrite app_length in X. cbn in X. lia.
Qed.
Lemma push1_exact l x : trs_inv l ->
  (forall r, x = TRule r -> known_target r -> ~ In (tr_keyword r) (map tr_keyword l) -> trs_push1 l x = (l ++ [r])%list) /\
  ((forall r, x = TRule r -> ~ known_target r \/ In (tr_keyword r) (map tr_keyword l)) -> trs_push1 l x = l).
Proof.
  intros H. assert (HL := proj1 H). split.
  - intros r -> K N. cbn [trs_push1]. unfold push1. rewrite (proj2 (policy_spec l r HL)) by easy.
    rewrite (proj2 (Nat.ltb_lt _ _) (push_inv_length l r H K N)). easy.
  - intros F. destruct x as [r|]; [|easy]. cbn [trs_push1]. unfold push1. destruct (trs_policy l r) eqn:P; [|now rewrite andb_false_r].
    apply (policy_spec l r HL) in P as [K N]. destruct (F r eq_refl); contradiction.
Qed.
Lemma push1_inv l x : trs_inv l -> trs_inv (trs_push1 l x).
Proof.
  intros H. destruct x as [r|]; [|easy]. cbn [trs_push1]. unfold push1. destruct (_ <? _)%nat; [|easy]. cbn [andb].
  destruct (trs_policy l r) eqn:P; [|easy]. apply (policy_spec l r (proj1 H)) in P as [K N]. destruct H as [A B]. split.
  - intros x Hx. apply in_app_iff in Hx as [Hx|[<-|[]]]; auto.
  - rewrite map_app. now apply NoDup_snoc'.
Qed.
Lemma push_many_inv {A B} (P : list A -> Prop) stop (step : list A -> B -> list A) xs : 
  (forall l x, In x xs -> P l -> P (step l x)) -> forall l, P l -> P (push_many stop step l xs).
Proof.
  induction xs as [|x xs IH]; intros H l L; [exact L|]. cbn [push_many]. assert (P (step l x)) by (apply H; [now left|exact L]).
  destruct (_ && _)%bool; [easy|]. apply IH; [|easy]. intros l' y Hy. apply H. now right.
Qed.
Lemma push_many_one {A B} stop (step : list A -> B -> list A) l x : push_many stop step l [x] = step l x.
Proof. cbn [push_many]. now destruct (_ && _)%bool. Qed.
Lemma push_inv stop l xs : trs_inv l -> trs_inv (trs_push stop l xs).
Proof. apply push_many_inv. intros l' x _. apply push1_inv. Qed.
Lemma pop_inv l : trs_inv l -> trs_inv (pop l).
Proof.
  intros [A B]. unfold pop. split; [|now apply NoDup_removelast]. intros r Hr. apply A. now apply In_removelast.
Qed.
Lemma trs_run_inv stop init h : trs_inv (trs_run stop init h).
Proof.
  unfold trs_run. assert (S : trs_inv (trs_push stop [] init)) by (apply push_inv; split; [easy|constructor]).
  revert S. generalize (trs_push stop [] init). induction h as [|c h IH]; intros l S; [easy|]. cbn. apply IH.
  destruct c; cbn [trs_step]; [now apply push_inv|now apply pop_inv].
Qed.

(* ---- C46 ---- *)
Definition kw_byte (c : ascii) : bool := is_lower c || Ascii.eqb c "_".
Definition op_byte (c : ascii) : bool := Ascii.eqb c "=" || Ascii.eqb c "!" || Ascii.eqb c "<" || Ascii.eqb c ">".
(* the longest prefix of bytes satisfying f is determined *)
Lemma span_unique f : forall a b x y, all_bytes f a = true -> all_bytes f b = true ->
  (forall c, first_byte x = Some c -> f c = false) -> (forall c, first_byte y = Some c -> f c = false) ->
  a ++ x = b ++ y -> a = b /\ x = y.
Proof.
  induction a as [|c a IH]; intros b x y Ha Hb Hx Hy E.
  - destruct b as [|d b]; [now split|]. cbn in E. subst x. cbn [all_bytes] in Hb. apply andb_true_iff in Hb as [Hd _].
    rewrite (Hx d eq_refl) in Hd. discriminate.
  - destruct b as [|d b].
    + cbn in E. subst y. cbn [all_bytes] in Ha. apply andb_true_iff in Ha as [Hd _]. rewrite (Hy c eq_refl) in Hd. discriminate.
    + cbn [append] in E. injection E as -> E. cbn [all_bytes] in Ha, Hb. apply andb_true_iff in Ha as [_ Ha]. apply andb_true_iff in Hb as [_ Hb].
      destruct (IH b x y Ha Hb Hx Hy E) as [-> ->]. now split.
Qed.
Lemma bind_kw_bytes k : all_bytes kw_byte (bindkw_name k) = true.
Proof. now destruct k. Qed.
Lemma target_kw_bytes k : all_bytes kw_byte (targetkw_name k) = true.
Proof. now destruct k. Qed.
Lemma op_bytes o : all_bytes op_byte (relop_symbol o) = true.
Proof. now destruct o. Qed.
Lemma cop_const o : cop_string (relop_const o) = relop_symbol o.
Proof. now destruct o. Qed.
Lemma symbol_inj o o' : relop_symbol o = relop_symbol o' -> o = o'.
Proof. now destruct o, o'. Qed.
Lemma op_first o : exists c r, relop_symbol o = String c r /\ kw_byte c = false /\ c <> " "%char.
Proof. destruct o; (eexists; eexists; split; [reflexivity|split; [reflexivity|discriminate]]). Qed.

Lemma append_snoc_inj a b p q : a ++ String p "" = b ++ String q "" -> a = b /\ p = q.
Proof.
  revert b. induction a as [|c a IH]; intros [|d b]; cbn [append]; intros H.
  - injection H as ->. now split.
  - injection H as -> H. destruct b; discriminate H.
  - injection H as -> H. destruct a; discriminate H.
  - injection H as -> H. destruct (IH _ H) as [-> ->]. now split.
Qed.

(* keyword, operator and value are recovered from an unparenthesised rule *)
Lemma body_inj kw kw' o o' p p' v v' : all_bytes kw_byte kw = true -> all_bytes kw_byte kw' = true ->
  kw ++ padding p ++ relop_symbol o ++ padding p ++ dq ++ v = kw' ++ padding p' ++ relop_symbol o' ++ padding p' ++ dq ++ v' ->
  kw = kw' /\ o = o' /\ p = p' /\ v = v'.
Proof.
  intros K K' E.
  assert (F : forall q u w, forall c, first_byte (padding q ++ relop_symbol u ++ w) = Some c -> kw_byte c = false).
  { intros q u w c H. destruct q; [injection H as <-; reflexivity|]. destruct (op_first u) as (d & r & E' & Hd & _).
    rewrite E' in H. cbn in H. injection H as <-. exact Hd. }
  destruct (span_unique kw_byte _ _ _ _ K K' (F p o _) (F p' o' _) E) as [-> E2]. split; [easy|].
  assert (p = p') as <-.
  { destruct (op_first o) as (d & r & Eo & _ & Nd), (op_first o') as (d' & r' & Eo' & _ & Nd').
    rewrite Eo, Eo' in E2. destruct p, p'; try reflexivity; cbn in E2; injection E2 as E2 _; congruence. }
  apply app_inj_l in E2.
  assert (G : forall q w, forall c, first_byte (padding q ++ dq ++ w) = Some c -> op_byte c = false).
  { intros q w c H. destruct q; injection H as <-; reflexivity. }
  destruct (span_unique op_byte _ _ _ _ (op_bytes o) (op_bytes o') (G p _) (G p _) E2) as [EO E3].
  apply symbol_inj in EO as ->. apply app_inj_l in E3. injection E3 as E3. now repeat split.
Qed.
(* a rule whose value starts with a double quote: the text determines everything *)
Lemma text_inj kw kw' o o' p p' b b' v v' :
  all_bytes kw_byte kw = true -> kw <> "" -> all_bytes kw_byte kw' = true -> kw' <> "" ->
  wrap_paren b p (kw ++ padding p ++ relop_symbol o ++ padding p ++ dq ++ v) =
  wrap_paren b' p' (kw' ++ padding p' ++ relop_symbol o' ++ padding p' ++ dq ++ v') ->
  kw = kw' /\ o = o' /\ p = p' /\ b = b' /\ v = v'.
Proof.
  intros K N K' N' E.
  assert (NP : forall w rest t, all_bytes kw_byte w = true -> w <> "" -> w ++ rest = String "(" t -> False).
  { intros [|c w] rest t H HN HE; [easy|]. cbn [append] in HE. injection HE as -> _. discriminate H. }
  unfold wrap_paren in E. destruct b, b'.
  - cbn [append] in E. injection E as E.
    assert (p = p') as <-.
    { destruct p, p'; try reflexivity; cbn [padding append] in E; exfalso.
      - destruct kw' as [|c w]; [easy|]. cbn [append] in E. injection E as E _. subst c. discriminate K'.
      - destruct kw as [|c w]; [easy|]. cbn [append] in E. injection E as E _. subst c. discriminate K. }
    apply app_inj_l in E. apply app_inj_r in E.
    destruct (body_inj _ _ _ _ _ _ _ _ K K' E) as (-> & -> & _ & ->). now repeat split.
  - exfalso. cbn [append] in E. symmetry in E. eapply NP in E; eauto.
  - exfalso. cbn [append] in E. eapply NP in E; eauto.
  - destruct (body_inj _ _ _ _ _ _ _ _ K K' E) as (-> & -> & -> & ->). now repeat split.
Qed.
Lemma prefix_dq t : has_prefix dq t = true -> exists v, t = dq ++ v.
Proof. intros H. apply has_prefix_spec in H. exact H. Qed.
(* lists of values without the bar character *)
Lemma join_bars_inj : forall l l', l <> [] -> l' <> [] -> (forall x, In x l -> no_byte "|" x = true) -> (forall x, In x l' -> no_byte "|" x = true) ->
  join " || " l = join " || " l' -> l = l'.
Proof.
  assert (P : forall x r x' r', no_byte "|" x = true -> no_byte "|" x' = true -> x ++ " || " ++ r = x' ++ " || " ++ r' -> x = x' /\ r = r').
  { intros x r x' r' H H' E.
    assert (E' : (x ++ " ") ++ String "|" ("| " ++ r) = (x' ++ " ") ++ String "|" ("| " ++ r')) by (rewrite !app_assoc'; exact E).
    assert (I := f_equal (idx "|") E'). rewrite !idx_app in I by (rewrite no_byte_app; now apply andb_true_iff). injection I as I.
    rewrite !length_app in I. destruct (app_inj_len _ _ _ _ E) as [-> E2]; [cbn in I; lia|]. split; [easy|]. now apply app_inj_l in E2. }
  assert (Q : forall x, no_byte "|" x = true -> forall y r, x = y ++ " || " ++ r -> False).
  { intros x H y r ->. rewrite !no_byte_app in H. apply andb_true_iff in H as [_ H]. discriminate H. }
  induction l as [|x l IH]; intros l' N N' H H' E; [easy|]. destruct l' as [|x' l']; [easy|].
  destruct l as [|y l], l' as [|y' l'].
  - cbn in E. now subst.
  - rewrite join_cons in E. cbn [join] in E. exfalso. eapply Q; [|exact E]. apply H. now left.
  - rewrite join_cons in E. cbn [join] in E. exfalso. eapply Q; [|symmetry; exact E]. apply H'. now left.
  - rewrite !join_cons in E. apply P in E as [-> E]; [|apply H; now left|apply H'; now left]. f_equal.
    apply IH; try discriminate; [intros z Hz; apply H; now right|intros z Hz; apply H'; now right|easy].
Qed.

Lemma quote_inj a b : quote a = quote b -> a = b.
Proof. unfold quote. intros H. apply app_inj_l in H. now apply app_inj_r in H. Qed.
Lemma map_quote_inj : forall l l', map quote l = map quote l' -> l = l'.
Proof.
  induction l as [|x l IH]; intros [|y l'] H; try easy. cbn [map] in H.
  assert (A : quote x = quote y) by congruence. assert (B : map quote l = map quote l') by congruence.
  now rewrite (quote_inj _ _ A), (IH _ B).
Qed.
Lemma no_bar_quote x : no_byte "|" x = true -> no_byte "|" (quote x) = true.
Proof. intros H. unfold quote. now rewrite !no_byte_app, H. Qed.
Lemma no_dq_join : forall l, (forall x, In x l -> no_byte """" x = true) -> no_byte """" (join " || " l) = true.
Proof. intros l H. apply no_byte_join; [reflexivity|exact H]. Qed.
Lemma mixed_styles l l' : l <> [] -> l' <> [] ->
  (forall x, In x l -> no_byte """" x = true /\ no_byte "|" x = true) ->
  (forall x, In x l' -> no_byte """" x = true /\ no_byte "|" x = true) ->
  join " || " (map quote l) = quote (join " || " l') -> l = l'.
Proof.
  intros N N' H H' E. destruct l as [|x [|y l]]; [easy| |].
  - cbn [map join] in E. apply quote_inj in E. destruct l' as [|x' [|y' l']]; [easy|now rewrite E|].
    exfalso. rewrite join_cons in E. destruct (H x (or_introl eq_refl)) as [_ B]. rewrite E, !no_byte_app in B.
    apply andb_true_iff in B as [_ B]. discriminate B.
  - exfalso. cbn [map] in E. rewrite join_cons in E. unfold quote at 1 3 in E. rewrite !app_assoc' in E. apply app_inj_l in E.
    destruct (H x (or_introl eq_refl)) as [B _]. assert (B' := no_dq_join l' (fun z Hz => proj1 (H' z Hz))).
    assert (I : idx """" (x ++ String """" (" || " ++ join " || " (map quote (y :: l)))) = idx """" (join " || " l' ++ String """" "")) by (exact (f_equal (idx """") E)).
    rewrite !idx_app in I by easy. injection I as I.
    destruct (app_inj_len _ _ _ _ E I) as [_ E2]. discriminate E2.
Qed.
