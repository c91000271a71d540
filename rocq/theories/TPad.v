(* C125: what the variables RulePadding and StackPadding decide. *)
From Coq Require Import String Ascii List PeanoNat NArith ZArith Bool Lia.
From Verif Require Import GoStr GoStrFacts MMisc MLists MKw MRule MTree MPad SPad PRule.
Import ListNotations.
Open Scope string_scope.

(* what an event does to instance n once it exists *)
Definition on_obj (n : nat) (e : pev) (o : obj) : obj :=
  match e with
  | ENoPadding i b => if Nat.eqb i n then obj_nopadding b o else o
  | EParen i b => if Nat.eqb i n then obj_paren b o else o
  | _ => o
  end.
Lemma update_nth f : forall l i n, nth_error (update i f l) n =
  option_map (fun o => if Nat.eqb i n then f o else o) (nth_error l n).
Proof.
  induction l as [|o l IH]; intros [|i] [|n]; try reflexivity.
  - cbn [update nth_error Nat.eqb]. now destruct (nth_error l n).
  - cbn [update nth_error Nat.eqb]. apply IH.
Qed.
Lemma add_nth s x n o : nth_error (p_objs s) n = Some o -> nth_error (p_objs (add s x)) n = Some o.
Proof. intros H. cbn [add p_objs]. rewrite nth_error_app1; [exact H|]. apply nth_error_Some. congruence. Qed.
Lemma step_nth stop s e n o : nth_error (p_objs s) n = Some o -> nth_error (p_objs (pstep stop s e)) n = Some (on_obj n e o).
Proof.
  intros H. destruct e; cbn [pstep on_obj]; try (now apply add_nth); try exact H.
  - destruct (nth_error (p_objs s) i) as [[]|]; try exact H. now apply add_nth.
  - cbn [p_objs]. rewrite update_nth, H. reflexivity.
  - cbn [p_objs]. rewrite update_nth, H. reflexivity.
Qed.
Lemma later_nth stop : forall h s n o, nth_error (p_objs s) n = Some o ->
  nth_error (p_objs (fold_left (pstep stop) h s)) n = Some (fold_left (fun o e => on_obj n e o) h o).
Proof. induction h as [|e h IH]; intros s n o H; [exact H|]. cbn [fold_left]. apply IH. now apply step_nth. Qed.
Lemma made_nth stop h1 e h2 x : (forall s, s = prun stop h1 -> pstep stop s e = add s x) ->
  nth_error (p_objs (prun stop (h1 ++ e :: h2))) (next stop h1) = Some (fold_left (fun o e => on_obj (next stop h1) e o) h2 x).
Proof.
  intros H. unfold prun at 1. rewrite fold_left_app. cbn [fold_left]. apply later_nth.
  change (fold_left (pstep stop) h1 pst0) with (prun stop h1). rewrite (H _ eq_refl). cbn [add p_objs].
  unfold next. rewrite nth_error_app2 by lia. rewrite Nat.sub_diag. reflexivity.
Qed.
(* the variables *)
Lemma last_app f : forall h e, last_of f (h ++ [e])%list = match f e with Some b => Some b | None => last_of f h end.
Proof.
  induction h as [|x h IH]; intros e; cbn [app last_of].
  - destruct (f e); reflexivity.
  - rewrite IH. destruct (f e); reflexivity.
Qed.
Lemma vars stop : forall h, p_rule (prun stop h) = rule_padding h /\ p_stack (prun stop h) = stack_padding h.
Proof.
  intros h. induction h as [|e h IH] using rev_ind; [easy|].
  unfold prun in *. rewrite fold_left_app. cbn [fold_left]. unfold rule_padding, stack_padding in *. rewrite !last_app.
  destruct IH as [A B]. destruct e; cbn [pstep add p_rule p_stack or_else]; try (split; assumption).
  - split; [reflexivity|exact B].
  - split; [exact A|reflexivity].
  - destruct (nth_error _ i) as [[]|]; split; assumption.
Qed.
(* the calls after the creation *)
Lemma then_cons n e h made : padding_then n (e :: h) made =
  padding_then n h (match e with ENoPadding i b => if Nat.eqb i n then negb b else made | _ => made end).
Proof.
  unfold padding_then. cbn [last_of]. destruct (last_of _ h); [reflexivity|]. destruct e; try reflexivity. destruct (Nat.eqb i n); reflexivity.
Qed.
Definition parens_from (n : nat) (h : list pev) (b0 : bool) : bool :=
  or_else (last_of (fun e => match e with EParen i b => if Nat.eqb i n then Some b else None | _ => None end) h) b0.
Lemma parens_cons n e h b0 : parens_from n (e :: h) b0 =
  parens_from n h (match e with EParen i b => if Nat.eqb i n then b else b0 | _ => b0 end).
Proof.
  unfold parens_from. cbn [last_of]. destruct (last_of _ h); [reflexivity|]. destruct e; try reflexivity. destruct (Nat.eqb i n); reflexivity.
Qed.
Lemma later_br n : forall h c, fold_left (fun o e => on_obj n e o) h (ObBR (Some c)) =
  ObBR (Some (with_paren (with_pad c (padding_then n h (c_pad c))) (parens_from n h (c_paren c)))).
Proof.
  induction h as [|e h IH]; intros c; [destruct c; reflexivity|]. cbn [fold_left]. rewrite then_cons, parens_cons.
  destruct e; cbn [on_obj]; try (rewrite IH; reflexivity);
    destruct (Nat.eqb i n); cbn [obj_nopadding obj_paren br_nopadding br_paren on_cond]; rewrite IH; destruct c; reflexivity.
Qed.
Lemma later_tr n : forall h c, fold_left (fun o e => on_obj n e o) h (ObTR (Some c)) = ObTR (Some (with_pad c (padding_then n h (c_pad c)))).
Proof.
  induction h as [|e h IH]; intros c; [destruct c; reflexivity|]. cbn [fold_left]. rewrite then_cons.
  destruct e; cbn [on_obj]; try (rewrite IH; reflexivity);
    destruct (Nat.eqb i n); cbn [obj_nopadding obj_paren tr_nopadding on_cond]; rewrite IH; destruct c; reflexivity.
Qed.
Lemma later_stk n w f k : forall h p d, fold_left (fun o e => on_obj n e o) h (ObStk (Stk w p f d k)) =
  ObStk (Stk w (parens_from n h p) f (padding_then n h d) k).
Proof.
  induction h as [|e h IH]; intros p d; [reflexivity|]. cbn [fold_left]. rewrite then_cons, parens_cons.
  destruct e; cbn [on_obj]; try (rewrite IH; reflexivity);
    destruct (Nat.eqb i n); cbn [obj_nopadding obj_paren brs_nopadding brs_paren]; rewrite IH; reflexivity.
Qed.
Lemma later_vals n p v : forall h, fold_left (fun o e => on_obj n e o) h (ObVals p v) = ObVals p v.
Proof.
  induction h as [|e h IH]; [reflexivity|]. cbn [fold_left].
  destruct e; cbn [on_obj]; try exact IH; destruct (Nat.eqb i n); cbn [obj_nopadding obj_paren]; exact IH.
Qed.
Lemma later_trs n l : forall h p, fold_left (fun o e => on_obj n e o) h (ObTRs p l) = ObTRs (padding_then n h p) l.
Proof.
  induction h as [|e h IH]; intros p; [reflexivity|]. cbn [fold_left]. rewrite then_cons.
  destruct e; cbn [on_obj]; try (rewrite IH; reflexivity); destruct (Nat.eqb i n); cbn [obj_nopadding obj_paren]; rewrite IH; reflexivity.
Qed.

(* what BR and TR make *)
Definition value_text (ex : option expr) : string := match ex with Some e => expr_text e | None => "" end.
Lemma BR_parts kw op : exists o, (op_arg op = Eq -> o = Some Eq) /\
  forall ex p, BR p kw op ex = Some (MkCond kw o ex true false p).
Proof.
  unfold BR, br_set_keyword, br_init, br_set_operator.
  destruct (_ && _)%bool eqn:A; [|destruct (op_arg op =? 0)%N eqn:B].
  - exists None. split; [|reflexivity]. intros E. rewrite E in A. discriminate A.
  - exists None. split; [|reflexivity]. intros E. rewrite E in B. discriminate B.
  - exists (Some (op_arg op)). split; [now intros ->|reflexivity].
Qed.
Lemma TR_parts kw op ex : exists k o, (forall n, kw = KTarget n -> k = tkw_string (matchTKW (tkw_string n))) /\ (op_arg op = Eq -> o = Some Eq) /\
  forall p, TR p kw op ex = Some (MkCond k o ex true true p).
Proof.
  unfold TR.
  assert (K : exists k, (forall n, kw = KTarget n -> k = tkw_string (matchTKW (tkw_string n))) /\
              tr_set_keyword kw (tr_init None) = Some (MkCond k None None false false true)).
  { destruct kw; cbn [tr_set_keyword tr_init br_init on_cond]; eexists; (split; [|reflexivity]); intros m E; inversion E; reflexivity. }
  destruct K as (k & K & ->). exists k. unfold tr_set_operator.
  destruct (op_arg op =? 0)%N eqn:B; [|destruct (_ && _)%bool eqn:A].
  - exists None. split; [exact K|]. split; [|reflexivity]. intros E. rewrite E in B. discriminate B.
  - exists None. split; [exact K|]. split; [|reflexivity]. intros E. rewrite E in A. discriminate A.
  - exists (Some (op_arg op)). split; [exact K|]. split; [now intros ->|reflexivity].
Qed.

Section C125.
Variable stop topnot : bool.
Variable notsep : string.
Notation shows := (shows stop topnot notsep).
Notation next := (next stop).

(* A bind rule has blanks around its operator, and inside its parentheses, exactly when
   the last NoPadding on it was given false, or, without one, when RulePadding was true
   at the moment it was made.  Keyword, operator and value depend on neither. *)
Theorem C125_bind : forall kw op ex, exists o, (op_arg op = Eq -> o = "=") /\
  forall h1 h2, let n := next h1 in let b := padding_then n h2 (rule_padding h1) in
  shows (h1 ++ EBR kw op ex :: h2) n (in_parens (parens_then n h2) b (line b kw o (quote (value_text ex)))).
Proof.
  intros kw op ex. destruct (BR_parts kw op) as (o & O & E). exists (op_text o). split.
  - intros H. rewrite (O H). reflexivity.
  - intros h1 h2. cbv zeta. eexists. split.
    + apply made_nth. intros s ->. cbn [pstep]. rewrite E, (proj1 (vars stop h1)). reflexivity.
    + rewrite later_br. reflexivity.
Qed.
(* The same for target rules, which are always in parentheses. *)
Theorem C125_target : forall kw op ex, exists k o,
  (forall t, kw = KTarget t -> k = tkw_string (matchTKW (tkw_string t))) /\ (op_arg op = Eq -> o = "=") /\
  forall h1 h2, let n := next h1 in let b := padding_then n h2 (rule_padding h1) in
  shows (h1 ++ ETR kw op ex :: h2) n (in_parens true b (line b k o (quote (value_text ex)))).
Proof.
  intros kw op ex. destruct (TR_parts kw op ex) as (k & o & K & O & E). exists k, (op_text o). split; [exact K|]. split.
  - intros H. rewrite (O H). reflexivity.
  - intros h1 h2. cbv zeta. eexists. split.
    + apply made_nth. intros s ->. cbn [pstep]. rewrite E, (proj1 (vars stop h1)). reflexivity.
    + rewrite later_tr. reflexivity.
Qed.
(* A stack of bind rules: StackPadding at the moment it was made decides about the blanks
   inside its parentheses, until NoPadding does. *)
Theorem C125_stack : forall w xs, exists pre body, (w <> WNot -> pre = "") /\
  forall h1 h2, let n := next h1 in let b := padding_then n h2 (stack_padding h1) in
  shows (h1 ++ EStk w xs :: h2) n (pre ++ in_parens (parens_then n h2) b body).
Proof.
  intros w xs. exists (if topnot then match w with WNot => "NOT " | _ => "" end else "").
  exists (join (separator notsep w false) (nonempty (map (fun k => with_not k (tstr notsep k)) (push_many stop brs_push1 [] xs)))). split.
  - intros H. destruct topnot, w; try reflexivity. now destruct H.
  - intros h1 h2. cbv zeta. eexists. split.
    + apply made_nth. intros s ->. cbn [pstep]. unfold brs_new, brs_push. rewrite (proj2 (vars stop h1)). reflexivity.
    + rewrite later_stk. cbn [obj_text]. unfold brs_string, with_not. destruct topnot; [|reflexivity]. destruct w; reflexivity.
Qed.
(* A list of values: StackPadding at the moment it was made decides, for good. *)
Theorem C125_values : forall vals h1 h2,
  shows (h1 ++ EVals vals :: h2) (next h1) (join (if stack_padding h1 then " || " else "||") vals).
Proof.
  intros vals h1 h2. eexists. split.
  - apply made_nth. intros s ->. cbn [pstep]. rewrite (proj2 (vars stop h1)). reflexivity.
  - rewrite later_vals. cbn [obj_text]. unfold vals_text. destruct (stack_padding h1); reflexivity.
Qed.
(* A bind rule made from such a list: the blanks in its value are those of the list, the
   blanks around its operator its own. *)
Theorem C125_rule_of_values : forall vals kw op, exists o, (op_arg op = Eq -> o = "=") /\
  forall h1 h2 h3, let n := next (h1 ++ EVals vals :: h2) in let b := padding_then n h3 (rule_padding (h1 ++ EVals vals :: h2)) in
  shows ((h1 ++ EVals vals :: h2) ++ EBROf (next h1) kw op :: h3) n
    (in_parens (parens_then n h3) b (line b kw o (quote (join (if stack_padding h1 then " || " else "||") vals)))).
Proof.
  intros vals kw op.
  destruct (BR_parts kw op) as (o & O & E). exists (op_text o). split.
  - intros H. rewrite (O H). reflexivity.
  - intros h1 h2 h3. cbv zeta.
    assert (L : nth_error (p_objs (prun stop (h1 ++ EVals vals :: h2))) (next h1) = Some (ObVals (stack_padding h1) vals)).
    { erewrite made_nth; [now rewrite later_vals|]. intros s ->. cbn [pstep]. rewrite (proj2 (vars stop h1)). reflexivity. }
    eexists. split.
    + apply made_nth. intros s ->. cbn [pstep]. rewrite L, E, (proj1 (vars stop _)). reflexivity.
    + rewrite later_br. unfold parens_then, line, in_parens. cbn [obj_text br_string]. unfold cond_string, val_text.
      cbn [with_paren with_pad c_kw c_op c_ex c_quoted c_paren c_pad expr_text]. unfold vals_text, wrap_paren.
      change (parens_from ?n h3 false) with (parens_then n h3). destruct (stack_padding h1); reflexivity.
Qed.
(* A list of target rules: neither variable decides; NoPadding does. *)
Theorem C125_target_list : forall xs h1 h2, let n := next h1 in
  shows (h1 ++ ETRs xs :: h2) n (join (blank_if (padding_then n h2 false)) (map tr_string (trs_push stop [] xs))).
Proof.
  intros xs h1 h2. cbv zeta. eexists. split.
  - apply made_nth. intros s ->. reflexivity.
  - rewrite later_trs. reflexivity.
Qed.
(* Assigning the variables leaves every instance as it was. *)
Theorem C125_assignment : forall h e n t, (exists b, e = ERulePadding b \/ e = EStackPadding b) ->
  shows (h ++ [e]) n t <-> shows h n t.
Proof.
  intros h e n t (b & [-> | ->]); unfold SPad.shows, prun; rewrite fold_left_app; cbn [fold_left pstep p_objs]; reflexivity.
Qed.
End C125.

(* "Applied to ALL stacks" is false: a list of target rules made while StackPadding is
   true has no blanks between the rules. *)
Theorem C125_all_stacks_refuted : ~ follows_stack_padding.
Proof.
  intros H.
  set (r := fun k => TRule (TR true (KTarget k) (OCop Eq) (Some (XText "x")))).
  destruct (H false false " " [] [r TargetScope; r TargetFilter] _ eq_refl) as (sep & (o & O & T) & I).
  - cbv. lia.
  - assert (S : sep = "").
    { vm_compute in O. injection O as <-. vm_compute in T. destruct sep as [|c sep]; [reflexivity|exfalso].
      apply (f_equal String.length) in T. cbn [String.length append] in T. rewrite ?length_app in T. cbn in T. lia. }
    apply I in S. discriminate S.
Qed.
(* The values can be told from the text, with blanks or without, if none contains a bar. *)
Theorem C125_values_told : forall (pad : bool) l l', l <> [] -> l' <> [] ->
  (forall x, In x l -> no_byte "|" x = true) -> (forall x, In x l' -> no_byte "|" x = true) ->
  join (if pad then " || " else "||") l = join (if pad then " || " else "||") l' -> l = l'.
Proof.
  intros [|]; [exact join_bars_inj|].
  assert (P : forall x r x' r', no_byte "|" x = true -> no_byte "|" x' = true -> x ++ "||" ++ r = x' ++ "||" ++ r' -> x = x' /\ r = r').
  { intros x r x' r' H H' E. assert (I := f_equal (idx "|") E). cbn [append] in I. rewrite !idx_app in I by assumption. injection I as I.
    destruct (app_inj_len _ _ _ _ E I) as [-> E2]. split; [easy|]. now apply app_inj_l in E2. }
  assert (Q : forall x, no_byte "|" x = true -> forall y r, x = y ++ "||" ++ r -> False).
  { intros x H y r ->. rewrite !no_byte_app in H. apply andb_true_iff in H as [_ H]. discriminate H. }
  induction l as [|x l IH]; intros l' N N' H H' E; [easy|]. destruct l' as [|x' l']; [easy|].
  destruct l as [|y l], l' as [|y' l'].
  - cbn in E. now subst.
  - rewrite join_cons in E. cbn [join] in E. exfalso. eapply Q; [|exact E]. apply H. now left.
  - rewrite join_cons in E. cbn [join] in E. exfalso. eapply Q; [|symmetry; exact E]. apply H'. now left.
  - rewrite !join_cons in E. apply P in E as [-> E]; [|apply H; now left|apply H'; now left]. f_equal.
    apply IH; try discriminate; [intros z Hz; apply H; now right|intros z Hz; apply H'; now right|easy].
Qed.
Print Assumptions C125_bind.
Print Assumptions C125_target.
Print Assumptions C125_stack.
Print Assumptions C125_values.
Print Assumptions C125_rule_of_values.
Print Assumptions C125_target_list.
Print Assumptions C125_assignment.
Print Assumptions C125_all_stacks_refuted.
Print Assumptions C125_values_told.

(* a program that uses everything *)
Example C125_witness :
  let h := [EVals ["ldap:///cn=a"; "ldap:///cn=b"]; EStackPadding false; ERulePadding false;
            EBROf 0 "userdn" (OCop Eq); EVals ["x"; "y"]; ERulePadding true; EBROf 2 "groupdn" (OCop Ne);
            ETR (KTarget TargetScope) (OCop Eq) (Some (XText "base")); EStk WOr [PRule (BR true "ssf" (OCop Ge) (Some (XText "5")))];
            EParen 5 true; ENoPadding 4 true; EStackPadding true; ETRs []] in
  map (obj_text false " ") (p_objs (prun false h)) =
  ["ldap:///cn=a || ldap:///cn=b"; "userdn=" ++ quote "ldap:///cn=a || ldap:///cn=b"; "x||y"; "groupdn != " ++ quote "x||y";
   "(targetscope=" ++ quote "base" ++ ")"; "(ssf >= " ++ quote "5" ++ ")"; ""].
Proof. reflexivity. Qed.
