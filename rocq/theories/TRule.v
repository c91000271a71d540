(* C18, C37, C46, C56, C57: rules and lists of target rules. *)
From Coq Require Import String Ascii List PeanoNat NArith ZArith Bool Lia.
From Verif Require Import GoStr GoStrFacts MMisc MLists MKw SKw PKw MRule PRule.
Import ListNotations.
Open Scope string_scope.

(* ---- C18 ---- *)
(* Target rules: whatever was called, a rule that reports itself valid has one of
   the nine target keywords and an operator that keyword admits (SKw.v). *)
Theorem C18_target : forall h, tr_valid (tr_run None h) = true ->
  exists c k o, tr_run None h = Some c /\ c_kw c = targetkw_name k /\ c_op c = Some (relop_const o) /\
    targetkw_allows k o = true /\ c_ex c <> None.
Proof.
  intros h H. destruct (tr_valid_ok _ (tr_run_ok None h I) H) as (c & k & o & E & A & B & C).
  exists c, k, o. repeat split; trivial. intros X. rewrite E in H. cbn [tr_valid] in H. unfold cond_valid in H. rewrite X in H.
  rewrite !andb_false_r in H. discriminate.
Qed.
(* the constructor too *)
Theorem C18_TR : forall pad kw op ex, tr_valid (TR pad kw op ex) = true ->
  exists c k o, TR pad kw op ex = Some c /\ c_kw c = targetkw_name k /\ c_op c = Some (relop_const o) /\
    targetkw_allows k o = true /\ c_ex c <> None.
Proof.
  intros pad kw op ex H.
  assert (K : tr_ok (TR pad kw op ex)).
  { assert (X := tr_run_ok None [TInit; TKeyword kw; TOperator op; TExpression ex] I). cbn in X. unfold TR. unfold tr_ok in *. destruct (tr_set_expression _ _); exact X. }
  destruct (tr_valid_ok _ K H) as (c & k & o & E & A & B & C).
  exists c, k, o. repeat split; trivial. intros X. rewrite E in H. cbn [tr_valid] in H. unfold cond_valid in H. rewrite X in H.
  rewrite !andb_false_r in H. discriminate.
Qed.
(* Bind rules: false.  Valid does not look at the keyword, so an unknown one passes;
   and the keyword can be changed after the operator was checked against the old one. *)
Theorem C18_bind_refuted :
  ~ (forall h, br_valid (br_run None h) = true ->
       exists c k o, br_run None h = Some c /\ eqfold (c_kw c) (bindkw_name k) = true /\
         c_op c = Some (relop_const o) /\ bindkw_allows k o = true) /\
  (let h := [BInit; BKeyword "nosuchkeyword"; BOperator (OCop Eq); BExpression (Some (XText "x"))] in
   br_valid (br_run None h) = true /\ br_keyword (br_run None h) = 0%N) /\
  (let h := [BInit; BKeyword "ssf"; BOperator (OCop Ge); BExpression (Some (XText "x")); BKeyword "userdn"] in
   br_valid (br_run None h) = true /\ br_keyword (br_run None h) = BindUDN /\ br_string (br_run None h) = "userdn >= x").
Proof.
  split; [|repeat split; reflexivity]. intros H.
  destruct (H [BInit; BKeyword "nosuchkeyword"; BOperator (OCop Eq); BExpression (Some (XText "x"))] eq_refl)
    as (c & k & o & E & A & _). injection E as <-. destruct k; discriminate A.
Qed.
(* Missing from C18 for bind rules: histories that change the keyword after an operator
   was set, and keywords that are not one of the eleven.  Apart from those it holds:
   with a known keyword set before any operator and not touched again, whatever else
   is called. *)
Theorem C18_bind_partial : forall h0 c0 kw k h, eqfold kw (bindkw_name k) = true ->
  br_run None h0 = Some c0 -> c_op c0 = None ->
  forallb keeps_keyword h = true ->
  br_valid (br_run None (h0 ++ BKeyword kw :: h)%list) = true ->
  exists c o, br_run None (h0 ++ BKeyword kw :: h)%list = Some c /\ c_kw c = kw /\
    c_op c = Some (relop_const o) /\ bindkw_allows k o = true /\ c_ex c <> None.
Proof.
  intros h0 c0 kw k h K S' O HK V.
  assert (M : matchBKW kw = bindkw_const k).
  { destruct (bindkw_lookup _ (Permutation.Permutation_refl _) kw) as [A _]. now apply A. }
  unfold br_run in *. rewrite fold_left_app in *. rewrite S' in *. cbn [fold_left br_step br_set_keyword] in *.
  assert (X := br_run_inv kw k (Some (with_kw c0 kw)) h M HK). cbn [br_inv with_kw c_kw c_op] in X. rewrite O in X. specialize (X (conj eq_refl I)). unfold br_run in X.
  destruct (fold_left br_step h _) as [c|] eqn:E; [|contradiction]. destruct X as [A B].
  cbn [br_valid] in V. unfold cond_valid in V. exists c. destruct (c_op c) as [n|]; [|rewrite andb_false_r in V; discriminate].
  destruct B as (o & -> & Ho). exists o. repeat split; trivial. intros X. rewrite X, andb_false_r in V. discriminate.
Qed.
(* the constructor *)
Theorem C18_BR_partial : forall pad kw k op ex, eqfold kw (bindkw_name k) = true ->
  br_valid (BR pad kw op ex) = true ->
  exists c o, BR pad kw op ex = Some c /\ c_kw c = kw /\ c_op c = Some (relop_const o) /\
    bindkw_allows k o = true /\ c_ex c <> None.
Proof.
  intros pad kw k op ex K V. unfold BR in *.
  assert (H := C18_bind_partial [BInit] cond_init kw k [BOperator op; BExpression ex] K eq_refl eq_refl eq_refl).
  unfold br_run in H. cbn [app fold_left br_step] in H.
  destruct (br_set_expression ex _) as [c|]; [|discriminate V].
  destruct (H V) as (c' & o & E & A & B & C & D). injection E as <-.
  exists (with_pad (with_quoted c true) pad), o. now repeat split.
Qed.
Print Assumptions C18_target.
Print Assumptions C18_TR.
Print Assumptions C18_bind_refuted.
Print Assumptions C18_bind_partial.
Print Assumptions C18_BR_partial.
(* targetfilter admits != but not <; the refused operator leaves the earlier one *)
Example C18_witness :
  tr_string (tr_run None [TInit; TKeyword (KStr "TARGETFILTER"); TOperator (OStr "!="); TOperator (OCop Lt); TExpression (Some (XText "(cn=x)"))])
    = "( targetfilter != " ++ dq ++ "(cn=x)" ++ dq ++ " )" /\
  tr_valid (tr_run None [TInit; TKeyword (KStr "TARGETFILTER"); TOperator (OStr "!="); TExpression (Some (XText "(cn=x)"))]) = true /\
  tr_valid (TR true (KTarget TargetScope) (OCop Ne) (Some (XText "base"))) = false /\
  tr_valid (TR true (KTarget TargetScope) (OCop Eq) (Some (XText "base"))) = true /\
  br_valid (BR true "ssf" (OStr ">=") (Some (XText "128"))) = true /\
  br_valid (BR true "userdn" (OStr ">=") (Some (XText "128"))) = false /\
  br_valid (br_run None ([BInit] ++ BKeyword "ssf" :: [BOperator (OCop Ge); BExpression (Some (XText "x")); BParen true])%list) = true.
Proof. repeat split; reflexivity. Qed.

(* ---- C37 ---- *)
(* after any history: known keywords, all different, hence at most nine *)
Theorem C37_unique : forall stop init h,
  NoDup (map tr_keyword (trs_run stop init h)) /\
  (forall r, In r (trs_run stop init h) -> exists k, tr_keyword r = targetkw_const k) /\
  (List.length (trs_run stop init h) <= 9)%nat.
Proof.
  intros stop init h. assert (H := trs_run_inv stop init h). split; [apply H|]. split; [exact (proj1 H)|now apply inv_length].
Qed.
(* a push appends exactly when the rule has a known keyword none of the members has;
   in particular the capacity of nine never turns a rule away *)
Theorem C37_push_accepts : forall stop init h r k, tr_keyword r = targetkw_const k ->
  (forall m, In m (trs_run stop init h) -> tr_keyword m <> tr_keyword r) ->
  trs_run stop init (h ++ [TRPush [TRule r]])%list = (trs_run stop init h ++ [r])%list.
Proof.
  intros stop init h r k K N. unfold trs_run at 1. rewrite fold_left_app. fold (trs_run stop init h). cbn [fold_left trs_step].
  unfold trs_push. rewrite push_many_one.
  destruct (push1_exact (trs_run stop init h) (TRule r) (trs_run_inv stop init h)) as [A _]. apply A; [easy|now exists k|].
  intros X. apply in_map_iff in X as (m & E & Hm). now apply (N m).
Qed.
Theorem C37_push_refuses : forall stop init h r,
  (forall k, tr_keyword r <> targetkw_const k) \/ (exists m, In m (trs_run stop init h) /\ tr_keyword m = tr_keyword r) ->
  trs_run stop init (h ++ [TRPush [TRule r]])%list = trs_run stop init h.
Proof.
  intros stop init h r H. unfold trs_run at 1. rewrite fold_left_app. fold (trs_run stop init h). cbn [fold_left trs_step].
  unfold trs_push. rewrite push_many_one.
  destruct (push1_exact (trs_run stop init h) (TRule r) (trs_run_inv stop init h)) as [_ B]. apply B. intros r' [= <-].
  destruct H as [H|(m & Hm & E)]; [left|right].
  - intros [k K]. exact (H k K).
  - rewrite <- E. now apply in_map.
Qed.
Print Assumptions C37_unique.
Print Assumptions C37_push_accepts.
Print Assumptions C37_push_refuses.
Definition ex_tr (k : targetkw) (v : string) : rule := TR true (KTarget (targetkw_const k)) (OCop Eq) (Some (XText v)).
Example C37_witness :
  trs_run false [TRule (ex_tr TgScope "base"); TOther; TRule (ex_tr TgScope "subtree")]
    [TRPush [TRule (ex_tr TgFilter "(a=b)"); TRule None; TRule (TR true (KStr "nope") (OCop Eq) (Some (XText "x")))]; TRPop; TRPush [TRule (ex_tr TgExtOp "1.3.6")]]
  = [ex_tr TgScope "base"; ex_tr TgExtOp "1.3.6"].
Proof. reflexivity. Qed.

(* ---- C56 ---- *)
(* False: the push policy looks only at the keyword. *)
Theorem C56_only_valid_refuted :
  ~ (forall stop init h r, In r (trs_run stop init h) -> tr_valid r = true) /\
  (let r := tr_run None [TInit; TKeyword (KTarget TargetFilter)] in
   trs_run false [TRule r] [] = [r] /\ tr_valid r = false).
Proof.
  split; [|split; reflexivity]. intros H.
  specialize (H false [TRule (tr_run None [TInit; TKeyword (KTarget TargetFilter)])] [] _ (or_introl eq_refl)). discriminate H.
Qed.
(* what holds: a list made by pushing valid rules contains only valid rules *)
Definition trarg_valid (x : trarg) : bool := match x with TRule r => tr_valid r | TOther => true end.
Definition trcall_valid (c : trscall) : bool := match c with TRPush xs => forallb trarg_valid xs | TRPop => true end.
Theorem C56_partial : forall stop init h, forallb trarg_valid init = true -> forallb trcall_valid h = true ->
  forall r, In r (trs_run stop init h) -> tr_valid r = true.
Proof.
  assert (P : forall stop xs l, forallb trarg_valid xs = true -> (forall r, In r l -> tr_valid r = true) ->
              forall r, In r (trs_push stop l xs) -> tr_valid r = true).
  { intros stop xs l V. rewrite forallb_forall in V.
    apply (push_many_inv (fun l => forall r, In r l -> tr_valid r = true)). clear l. intros l x Hx L r Hr.
    destruct x as [y|]; [|now apply L].
    cbn [trs_push1] in Hr. unfold push1 in Hr. destruct (_ && _)%bool in Hr; [|now apply L].
    apply in_app_iff in Hr as [Hr|[<-|[]]]; [now apply L|exact (V _ Hx)]. }
  intros stop init h VI VH. unfold trs_run.
  assert (S : forall r, In r (trs_push stop [] init) -> tr_valid r = true) by (apply P; [easy|now intros r []]).
  revert S. generalize (trs_push stop [] init). induction h as [|c h IH]; intros l S; [exact S|]. cbn [forallb fold_left] in *.
  apply andb_true_iff in VH as [Vc VH]. apply IH; [easy|]. destruct c as [xs|]; cbn [trs_step].
  - now apply P.
  - intros r Hr. apply S. now apply In_removelast.
Qed.
(* exactly: the members are rules that were given, as they were given, so a list holds an
   invalid rule exactly when one was taken (C37_push_accepts says when that is) *)
Theorem C56_members_exact : forall stop init h r, In r (trs_run stop init h) ->
  In (TRule r) init \/ exists xs, In (TRPush xs) h /\ In (TRule r) xs.
Proof.
  intros stop init h r. set (Q := fun g l => forall r, In r l -> In (TRule r) g).
  assert (P : forall g xs l, Q g l -> incl xs g -> Q g (trs_push stop l xs)).
  { intros g xs l L I. unfold trs_push. apply (push_many_inv (Q g)); [|exact L]. clear l L. intros l x Hx L s Hs. destruct x as [y|]; [|now apply L].
    cbn [trs_push1] in Hs. unfold push1 in Hs. destruct (_ && _)%bool in Hs; [|now apply L].
    apply in_app_iff in Hs as [Hs|[<-|[]]]; [now apply L|now apply I]. }
  set (pushed := fun h => flat_map (fun c => match c with TRPush xs => xs | TRPop => [] end) h).
  assert (A : forall h g l, Q g l -> incl (pushed h) g -> Q g (fold_left (trs_step stop) h l)).
  { induction h0 as [|c h0 IH]; intros g l L I; [exact L|]. cbn [fold_left]. apply IH.
    - destruct c as [xs|]; cbn [trs_step].
      + apply P; [exact L|]. intros x X. apply I. unfold pushed. cbn [flat_map]. apply in_app_iff. now left.
      + intros s Hs. apply L. now apply In_removelast.
    - intros x X. apply I. unfold pushed. cbn [flat_map]. apply in_app_iff. now right. }
  intros H. assert (T : In (TRule r) (init ++ pushed h)%list).
  { apply (A h (init ++ pushed h)%list (trs_push stop [] init)); [|intros x X; apply in_app_iff; now right|exact H].
    apply P; [intros s []|intros x X; apply in_app_iff; now left]. }
  apply in_app_iff in T as [T|T]; [now left|]. right. apply in_flat_map in T as (c & C & X). destruct c as [xs|]; [now exists xs|destruct X].
Qed.
Print Assumptions C56_members_exact.
Print Assumptions C56_only_valid_refuted.
Print Assumptions C56_partial.
Example C56_witness : forallb trarg_valid [TRule (ex_tr TgScope "base")] = true /\
  forallb trcall_valid [TRPush [TRule (ex_tr TgFilter "(a=b)"); TOther]; TRPop] = true.
Proof. split; reflexivity. Qed.

(* ---- C46 ---- *)
(* Two bind rules with known keywords and operators, whose values are printed with a
   leading double quote: equal texts have the same keyword, operator, value text,
   parentheses and padding. *)
Theorem C46_bind : forall c c' k k' o o',
  c_kw c = bindkw_name k -> c_kw c' = bindkw_name k' ->
  c_op c = Some (relop_const o) -> c_op c' = Some (relop_const o') ->
  has_prefix dq (val_text c) = true -> has_prefix dq (val_text c') = true ->
  br_string (Some c) = br_string (Some c') ->
  k = k' /\ o = o' /\ val_text c = val_text c' /\ c_paren c = c_paren c' /\ c_pad c = c_pad c'.
Proof.
  intros c c' k k' o o' K K' O O' V V' E. apply prefix_dq in V as [v V], V' as [v' V'].
  cbn [br_string] in E. unfold cond_string in E. rewrite K, K', O, O', V, V' in E. cbn [op_text] in E. rewrite !cop_const in E.
  apply text_inj in E; try apply bind_kw_bytes; try (destruct k; discriminate); try (destruct k'; discriminate).
  destruct E as (A & B & C & D & F). rewrite V, V', F. repeat split; trivial. destruct k, k'; try reflexivity; discriminate A.
Qed.
(* The same for target rules, which are always printed in parentheses. *)
Theorem C46_target : forall c c' k k' o o',
  c_kw c = targetkw_name k -> c_kw c' = targetkw_name k' ->
  c_op c = Some (relop_const o) -> c_op c' = Some (relop_const o') ->
  has_prefix dq (val_text c) = true -> has_prefix dq (val_text c') = true ->
  tr_string (Some c) = tr_string (Some c') ->
  k = k' /\ o = o' /\ val_text c = val_text c' /\ c_pad c = c_pad c'.
Proof.
  intros c c' k k' o o' K K' O O' V V' E. apply prefix_dq in V as [v V], V' as [v' V'].
  cbn [tr_string] in E. unfold cond_string in E. cbn [with_paren c_kw c_op c_pad c_paren] in E.
  change (val_text (with_paren c true)) with (val_text c) in E. change (val_text (with_paren c' true)) with (val_text c') in E.
  rewrite K, K', O, O', V, V' in E. cbn [op_text] in E. rewrite !cop_const in E.
  apply text_inj in E; try apply target_kw_bytes; try (destruct k; discriminate); try (destruct k'; discriminate).
  destruct E as (A & B & C & D & F). rewrite V, V', F. repeat split; trivial. destruct k, k'; try reflexivity; discriminate A.
Qed.
(* The value text determines the value: a quoted text its content, ... *)
Theorem C46_quoted_value : forall c c' s s', c_quoted c = true -> c_quoted c' = true ->
  c_ex c = Some (XText s) -> c_ex c' = Some (XText s') -> val_text c = val_text c' -> s = s'.
Proof.
  intros c c' s s' Q Q' X X' E. unfold val_text in E. rewrite Q, Q', X, X' in E. now apply quote_inj.
Qed.
(* ... and a list, in either quotation style, its values, if none of them contains a
   double quote or a bar. *)
Theorem C46_list_values : forall c c' t t' b b' l l',
  c_ex c = Some (XList t b l) -> c_ex c' = Some (XList t' b' l') ->
  c_quoted c = negb b -> c_quoted c' = negb b' -> l <> [] -> l' <> [] ->
  (forall x, In x l -> no_byte """" x = true /\ no_byte "|" x = true) ->
  (forall x, In x l' -> no_byte """" x = true /\ no_byte "|" x = true) ->
  val_text c = val_text c' -> l = l'.
Proof.
  intros c c' t t' b b' l l' X X' Q Q' N N' H H' E. unfold val_text in E. rewrite X, X', Q, Q' in E. cbn [expr_text] in E. unfold list_text in E.
  destruct b, b'; cbn [negb] in E.
  - apply map_quote_inj, join_bars_inj; [now destruct l|now destruct l'| | |exact E].
    + intros x Hx. apply in_map_iff in Hx as (y & <- & Hy). now apply no_bar_quote, H.
    + intros x Hx. apply in_map_iff in Hx as (y & <- & Hy). now apply no_bar_quote, H'.
  - now apply mixed_styles.
  - symmetry. now apply mixed_styles.
  - apply quote_inj in E. apply join_bars_inj; trivial; intros x Hx; [now apply H|now apply H'].
Qed.
(* without the quotes it fails: two different rules with the same text *)
Theorem C46_unquoted_refuted :
  let c v o := MkCond "ssf" (Some (relop_const o)) (Some (XText v)) false false false in
  br_string (Some (c "=5" RLt)) = br_string (Some (c "5" RLe)) /\ c "=5" RLt <> c "5" RLe.
Proof. split; [reflexivity|discriminate]. Qed.
Print Assumptions C46_bind.
Print Assumptions C46_target.
Print Assumptions C46_quoted_value.
Print Assumptions C46_list_values.
Print Assumptions C46_unquoted_refuted.
(* rules made by the constructors satisfy the hypotheses *)
Theorem C46_constructed : forall pad kw op ex, (forall c, BR pad kw op ex = Some c -> has_prefix dq (val_text c) = true) /\
  (forall k c, TR pad k op ex = Some c -> has_prefix dq (val_text c) = true).
Proof.
  intros pad kw op ex. split.
  - intros c H. unfold BR in H. destruct (br_set_expression _ _) as [x|]; [|discriminate]. injection H as <-.
    unfold val_text. cbn [with_pad with_quoted c_quoted]. apply has_prefix_spec. eexists. reflexivity.
  - intros k c H. unfold TR in H. destruct (tr_set_expression _ _) as [x|]; [|discriminate]. injection H as <-.
    unfold val_text. cbn [with_pad with_quoted with_paren c_quoted]. apply has_prefix_spec. eexists. reflexivity.
Qed.
Print Assumptions C46_constructed.
Example C46_witness :
  br_string (BR true "userdn" (OStr "!=") (Some (XText "ldap:///anyone"))) = "userdn != " ++ dq ++ "ldap:///anyone" ++ dq /\
  br_string (br_nopadding true (br_paren true (BR true "ssf" (OStr "ge") (Some (XText "128"))))) = "(ssf>=" ++ dq ++ "128" ++ dq ++ ")".
Proof. split; reflexivity. Qed.

(* ---- C57 ---- *)
(* After any sequence of style changes on a rule with two or more values, the text
   shows the same values in the style chosen last. *)
Definition dn_bind_kw (k : bindkw) : bool := match k with UserDN | GroupDN | RoleDN => true | _ => false end.
Definition fitting (k : targetkw) (t : lkind) : bool :=
  match k, t with
  | TgTarget, LTargetDN | TgTo, LTargetDN | TgFrom, LTargetDN | TgAttr, LAttrs | TgExtOp, LOids | TgCtrl, LOids => true
  | _, _ => false
  end.
Definition styled (style : Z) (vals : list string) : string :=
  if (style =? 0)%Z then join " || " (map quote vals) else quote (join " || " vals).
Theorem C57_bind : forall k b c vals styles last,
  dn_bind_kw k = true -> c_kw c = bindkw_name k -> c_ex c = Some (XList LBindDN b vals) -> (2 <= List.length vals)%nat ->
  exists c', br_run (Some c) (map BQuoteStyle (styles ++ [last])%list) = Some c' /\
    val_text c' = styled last vals /\
    c_kw c' = c_kw c /\ c_op c' = c_op c /\ c_paren c' = c_paren c /\ c_pad c' = c_pad c.
Proof.
  intros k b c vals styles last D K X L. unfold br_run.
  assert (S : forall styles c b, c_kw c = bindkw_name k -> c_ex c = Some (XList LBindDN b vals) ->
     exists c' b', fold_left br_step (map BQuoteStyle styles) (Some c) = Some c' /\ c_ex c' = Some (XList LBindDN b' vals) /\
       c_kw c' = c_kw c /\ c_op c' = c_op c /\ c_paren c' = c_paren c /\ c_pad c' = c_pad c).
  { clear c b K X. intros sl. induction sl as [|s sl IH]; intros c b K X; [now exists c, b|]. cbn [map fold_left br_step br_set_quote_style]. rewrite X.
    destruct (IH (with_quoted (with_ex c (Some (XList LBindDN (if ((br_keyword (Some c) =? BindUDN)%N || (br_keyword (Some c) =? BindGDN)%N || (br_keyword (Some c) =? BindRDN)%N)%bool
       then list_style s vals else b) vals))) (negb (s =? MultivalSliceQuotes)%Z)) _ K eq_refl) as (c' & b' & A & B & C). now exists c', b'. }
  rewrite map_app, fold_left_app. destruct (S styles c b K X) as (c1 & b1 & -> & X1 & K1 & R). cbn [map fold_left br_step br_set_quote_style].
  rewrite X1. eexists. split; [reflexivity|]. split; [|exact (conj K1 R)].
  assert (KK : br_keyword (Some c1) = bindkw_const k) by (cbn [br_keyword]; rewrite K1, K; now destruct k).
  rewrite KK. replace (_ || _)%bool with true by (now destruct k).
  unfold val_text, styled, list_style, expr_text, list_text, MultivalSliceQuotes. cbn [with_quoted with_ex c_quoted c_ex].
  rewrite (proj2 (Nat.ltb_ge _ _) L). now destruct (last =? 0)%Z.
Qed.
Theorem C57_target : forall k t b c vals styles last,
  fitting k t = true -> c_kw c = targetkw_name k -> c_ex c = Some (XList t b vals) -> (2 <= List.length vals)%nat ->
  exists c', tr_run (Some c) (map TQuoteStyle (styles ++ [last])%list) = Some c' /\
    val_text c' = styled last vals /\
    c_kw c' = c_kw c /\ c_op c' = c_op c /\ c_paren c' = c_paren c /\ c_pad c' = c_pad c.
Proof.
  intros k t b c vals styles last D K X L. unfold tr_run.
  assert (S1 : forall s c b, c_kw c = targetkw_name k -> c_ex c = Some (XList t b vals) ->
     tr_step (Some c) (TQuoteStyle s) = Some (with_quoted (with_ex c (Some (XList t (list_style s vals) vals))) (negb (s =? MultivalSliceQuotes)%Z))).
  { clear c b K X. intros s c b K X. cbn [tr_step tr_set_quote_style]. rewrite X.
    assert (KK : tr_keyword (Some c) = targetkw_const k) by (cbn [tr_keyword]; rewrite K; now destruct k). rewrite KK.
    destruct t, k; try discriminate D; reflexivity. }
  assert (S : forall styles c b, c_kw c = targetkw_name k -> c_ex c = Some (XList t b vals) ->
     exists c' b', fold_left tr_step (map TQuoteStyle styles) (Some c) = Some c' /\ c_ex c' = Some (XList t b' vals) /\
       c_kw c' = c_kw c /\ c_op c' = c_op c /\ c_paren c' = c_paren c /\ c_pad c' = c_pad c).
  { clear c b K X. intros sl. induction sl as [|s sl IH]; intros c b K X; [now exists c, b|]. cbn [map fold_left]. rewrite (S1 s c b K X).
    destruct (IH (with_quoted (with_ex c (Some (XList t (list_style s vals) vals))) (negb (s =? MultivalSliceQuotes)%Z)) _ K eq_refl) as (c' & b' & A & B & C). now exists c', b'. }
  rewrite map_app, fold_left_app. destruct (S styles c b K X) as (c1 & b1 & -> & X1 & K1 & R). cbn [map fold_left].
  rewrite (S1 last c1 b1) by (now rewrite ?K1). eexists. split; [reflexivity|]. split; [|exact (conj K1 R)].
  unfold val_text, styled, list_style, expr_text, list_text, MultivalSliceQuotes. cbn [with_quoted with_ex c_quoted c_ex].
  rewrite (proj2 (Nat.ltb_ge _ _) L). now destruct (last =? 0)%Z.
Qed.
(* a value that is not one of the lists is always put back in double quotes *)
Theorem C57_single_text : forall c s style, c_ex c = Some (XText s) ->
  (exists c', br_set_quote_style style (Some c) = Some c' /\ val_text c' = quote s) /\
  (exists c', tr_set_quote_style style (Some c) = Some c' /\ val_text c' = quote s).
Proof.
  intros c s style X. cbn [br_set_quote_style tr_set_quote_style]. rewrite X. split; eexists; (split; [reflexivity|]);
  unfold val_text; cbn [with_quoted c_quoted c_ex]; now rewrite X.
Qed.
(* but a list with one member loses its quotes altogether under the slice style *)
Theorem C57_one_member_refuted :
  let r := BR true "userdn" (OCop Eq) (Some (XList LBindDN false ["ldap:///cn=a"])) in
  br_string r = "userdn = " ++ quote "ldap:///cn=a" /\
  br_string (br_set_quote_style MultivalSliceQuotes r) = "userdn = ldap:///cn=a".
Proof. split; reflexivity. Qed.
Print Assumptions C57_bind.
Print Assumptions C57_target.
Print Assumptions C57_single_text.
Print Assumptions C57_one_member_refuted.
Example C57_witness :
  tr_string (tr_run (TR true (KTarget TargetAttr) (OCop Ne) (Some (XList LAttrs false ["cn"; "sn"]))) (map TQuoteStyle [7; 0]%Z))
  = "( targetattr != " ++ quote "cn" ++ " || " ++ quote "sn" ++ " )" /\
  tr_string (tr_run (TR true (KTarget TargetAttr) (OCop Ne) (Some (XList LAttrs false ["cn"; "sn"]))) (map TQuoteStyle [0; 1]%Z))
  = "( targetattr != " ++ quote "cn || sn" ++ " )".
Proof. split; reflexivity. Qed.
