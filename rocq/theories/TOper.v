(* C120: the operator a rule tells. *)
From Coq Require Import String Ascii List PeanoNat NArith ZArith Bool Lia Permutation.
From Verif Require Import GoStr GoStrFacts MMisc MLists MKw SKw PKw MRights MRule PRule MConv MTree MAci MView
  TKw TTree TAci MOper SOper.
Import ListNotations.
Open Scope string_scope.

(* ---- what SetOperator does, in terms of the documented operators ---- *)
Lemma given_arg op o : given op o -> op_arg op = relop_const o.
Proof.
  destruct op as [s|n|z|]; cbn [given op_arg]; try contradiction; [|easy].
  intros H. now apply (cop_match_spec _ (Permutation_refl _) s).
Qed.
Lemma relop_of n : {o | n = relop_const o} + {forall o, n <> relop_const o}.
Proof.
  destruct (N.eq_dec n 1) as [->|A]; [left; now exists REq|]. destruct (N.eq_dec n 2) as [->|B]; [left; now exists RNe|].
  destruct (N.eq_dec n 3) as [->|C]; [left; now exists RLt|]. destruct (N.eq_dec n 4) as [->|D]; [left; now exists RGt|].
  destruct (N.eq_dec n 5) as [->|E]; [left; now exists RLe|]. destruct (N.eq_dec n 6) as [->|F]; [left; now exists RGe|].
  right. intros []; assumption.
Qed.
Lemma arg_given op o : op_arg op = relop_const o -> given op o.
Proof.
  destruct op as [s|n|z|]; cbn [given op_arg]; [|easy|destruct o; discriminate..].
  intros H. now apply (cop_match_spec _ (Permutation_refl _) s).
Qed.
Lemma matchCOP_known s : matchCOP s = 0%N \/ exists o, matchCOP s = relop_const o.
Proof.
  destruct (cop_match_spec _ (Permutation_refl _) s) as [A B].
  assert (X : (forall o, ~ names_relop s o) \/ exists o, names_relop s o).
  { unfold names_relop.
    assert (Y : forall o, {eqfold s (relop_symbol o) = true \/ eqfold s (relop_short o) = true \/ eqfold s (relop_long o) = true}
      + {~ (eqfold s (relop_symbol o) = true \/ eqfold s (relop_short o) = true \/ eqfold s (relop_long o) = true)}).
    { intros o. destruct (eqfold s (relop_symbol o)); [left; tauto|]. destruct (eqfold s (relop_short o)); [left; tauto|].
      destruct (eqfold s (relop_long o)); [left; tauto|right]. intros [H|[H|H]]; discriminate. }
    destruct (Y REq) as [H|H1]; [right; now exists REq|]. destruct (Y RNe) as [H|H2]; [right; now exists RNe|].
    destruct (Y RLt) as [H|H3]; [right; now exists RLt|]. destruct (Y RGt) as [H|H4]; [right; now exists RGt|].
    destruct (Y RLe) as [H|H5]; [right; now exists RLe|]. destruct (Y RGe) as [H|H6]; [right; now exists RGe|].
    left. now intros []. }
  destruct X as [X|[o X]]; [left; now apply B|right; exists o; now apply A].
Qed.
Lemma allows_given kw op o : given op o ->
  keywordAllowsComparisonOperator kw op = keywordAllowsComparisonOperator kw (OCop (relop_const o)).
Proof.
  intros G. apply given_arg in G as E. destruct op as [s|n|z|]; cbn [op_arg] in E; try (destruct o; discriminate E).
  - unfold keywordAllowsComparisonOperator. now rewrite E.
  - now rewrite E.
Qed.
Lemma allows_bind_text s o : keywordAllowsComparisonOperator (KBind (matchBKW s)) (OCop (relop_const o)) = true <->
  exists k, eqfold s (bindkw_name k) = true /\ bindkw_allows k o = true.
Proof.
  destruct (matchBKW_cases s) as [E|(k & E & F)].
  - rewrite E. split; [|]. { destruct o; discriminate. }
    intros (k & H & _). apply (bindkw_lookup _ (Permutation_refl _) s) in H. unfold matchBKW in E. rewrite E in H. destruct k; discriminate H.
  - rewrite E, (proj1 C17_allowed). split; [intros H; now exists k|]. intros (k' & H & H').
    apply (bindkw_lookup _ (Permutation_refl _) s) in H. unfold matchBKW in E. rewrite E in H. destruct k, k'; try discriminate H; exact H'.
Qed.
Lemma allows_target_text s o : keywordAllowsComparisonOperator (KTarget (matchTKW s)) (OCop (relop_const o)) = true <->
  exists k, eqfold s (targetkw_name k) = true /\ targetkw_allows k o = true.
Proof.
  destruct (matchTKW_cases s) as [E|(k & E & F)].
  - rewrite E. split; [|]. { destruct o; discriminate. }
    intros (k & H & _). apply (targetkw_lookup _ (Permutation_refl _) s) in H. unfold matchTKW in E. rewrite E in H. destruct k; discriminate H.
  - rewrite E, (proj1 (proj2 C17_allowed)). split; [intros H; now exists k|]. intros (k' & H & H').
    apply (targetkw_lookup _ (Permutation_refl _) s) in H. unfold matchTKW in E. rewrite E in H. destruct k, k'; try discriminate H; exact H'.
Qed.
Lemma unknown_refused kw op : op_arg op <> 0%N -> (forall o, op_arg op <> relop_const o) -> keywordAllowsComparisonOperator kw op = false.
Proof.
  intros Z H. destruct op as [s|n|z|]; cbn [op_arg] in *.
  - destruct (matchCOP_known s) as [E|[o E]]; [now destruct Z|now destruct (H o)].
  - now apply C17_unknown_operator.
  - now destruct Z.
  - now destruct Z.
Qed.
Lemma set_bind_taken r op o : takes_bind r op o ->
  exists c, o_rule r = Some c /\ obr_set_operator op r = MkO (Some (with_op c (relop_const o))) true.
Proof.
  intros [G (c & E & K)]. exists c. split; [exact E|]. unfold obr_set_operator. rewrite (given_arg _ _ G), E.
  assert (X : (negb (relop_const o =? Eq)%N && negb (keywordAllowsComparisonOperator (KBind (br_keyword (Some c))) op))%bool = false).
  { destruct K as [->|K]; [reflexivity|]. rewrite (allows_given _ _ _ G). cbn [br_keyword]. apply allows_bind_text in K. rewrite K. apply andb_false_r. }
  rewrite X. replace (relop_const o =? 0)%N with false by now destruct o. reflexivity.
Qed.
Lemma set_bind_refused r op : (forall o, ~ takes_bind r op o) -> obr_set_operator op r = r.
Proof.
  intros H. unfold obr_set_operator. destruct (relop_of (op_arg op)) as [[o E]|N'].
  - apply arg_given in E as G. rewrite E. destruct (o_rule r) as [c|] eqn:Er.
    + destruct (negb (relop_const o =? Eq)%N && _)%bool eqn:X; [easy|]. exfalso. apply (H o). split; [exact G|]. exists c. split; [exact Er|].
      apply andb_false_iff in X as [X|X].
      * left. now destruct o.
      * right. rewrite (allows_given _ _ _ G) in X. cbn [br_keyword] in X. apply allows_bind_text. now apply negb_false_iff in X.
    + now repeat match goal with |- context [if ?b then _ else _] => destruct b end.
  - destruct (op_arg op =? 0)%N eqn:Z; [now destruct (negb _ && _)%bool|]. apply N.eqb_neq in Z.
    rewrite (unknown_refused _ _ Z N'). assert (X : (op_arg op =? Eq)%N = false) by (apply N.eqb_neq; exact (N' REq)). now rewrite X.
Qed.
Lemma set_target_taken r op o : takes_target r op o ->
  exists c, o_rule r = Some c /\ otr_set_operator op r = MkO (Some (with_op c (relop_const o))) true.
Proof.
  intros [G (c & E & K)]. exists c. split; [exact E|]. unfold otr_set_operator. rewrite (given_arg _ _ G), E.
  assert (X : (negb (relop_const o =? Eq)%N && negb (keywordAllowsComparisonOperator (KTarget (tr_keyword (Some c))) op))%bool = false).
  { destruct K as [->|K]; [reflexivity|]. rewrite (allows_given _ _ _ G). cbn [tr_keyword]. apply allows_target_text in K. rewrite K. apply andb_false_r. }
  rewrite X. replace (relop_const o =? 0)%N with false by now destruct o. reflexivity.
Qed.
Lemma set_target_refused r op : (forall o, ~ takes_target r op o) -> otr_set_operator op r = r.
Proof.
  intros H. unfold otr_set_operator. destruct (relop_of (op_arg op)) as [[o E]|N'].
  - apply arg_given in E as G. rewrite E. destruct (o_rule r) as [c|] eqn:Er.
    + destruct (negb (relop_const o =? Eq)%N && _)%bool eqn:X; [now destruct (relop_const o =? 0)%N|]. exfalso. apply (H o). split; [exact G|]. exists c. split; [exact Er|].
      apply andb_false_iff in X as [X|X].
      * left. now destruct o.
      * right. rewrite (allows_given _ _ _ G) in X. cbn [tr_keyword] in X. apply allows_target_text. now apply negb_false_iff in X.
    + now repeat match goal with |- context [if ?b then _ else _] => destruct b end.
  - destruct (op_arg op =? 0)%N eqn:Z; [easy|]. apply N.eqb_neq in Z.
    rewrite (unknown_refused _ _ Z N'). assert (X : (op_arg op =? Eq)%N = false) by (apply N.eqb_neq; exact (N' REq)). now rewrite X.
Qed.
(* calls other than SetOperator keep the operator and its type *)
Lemma br_step_keeps_op r c : (forall op, c <> BOperator op) ->
  match r, br_step r c with Some a, Some b => c_op b = c_op a | None, Some b => c_op b = None | None, None => True | Some _, None => False end.
Proof.
  intros H. destruct c as [|kw|op|e|b|b|s]; destruct r as [a|]; cbn; trivial; [now destruct (H op)|now destruct (H op)|].
  destruct (c_ex a) as [[]|]; try reflexivity. now destruct k.
Qed.
Lemma tr_step_keeps_op r c : (forall op, c <> TOperator op) ->
  match r, tr_step r c with Some a, Some b => c_op b = c_op a | None, Some b => c_op b = None | None, None => True | Some _, None => False end.
Proof.
  intros H. destruct c as [|kw|op|e|b|s]; destruct r as [a|]; cbn; trivial; try (now destruct (H op)).
  - now destruct kw.
  - now destruct kw.
  - destruct (c_ex a) as [[]|]; try reflexivity. now destruct k.
Qed.
Lemma or_keeps_bind r c : (forall op, c <> BOperator op) -> or_operator (obr_step r c) = or_operator r /\ o_own (obr_step r c) = o_own r.
Proof.
  intros H. assert (E : obr_step r c = MkO (br_step (o_rule r) c) (o_own r)). { destruct c; trivial. now destruct (H op). }
  rewrite E. split; [|reflexivity]. unfold or_operator. cbn [o_own o_rule]. destruct (o_own r); [|easy].
  assert (K := br_step_keeps_op (o_rule r) c H). destruct (o_rule r), (br_step _ c); try contradiction; now rewrite ?K.
Qed.
Lemma or_keeps_target r c : (forall op, c <> TOperator op) -> or_operator (otr_step r c) = or_operator r /\ o_own (otr_step r c) = o_own r.
Proof.
  intros H. assert (E : otr_step r c = MkO (tr_step (o_rule r) c) (o_own r)). { destruct c; trivial. now destruct (H op). }
  rewrite E. split; [|reflexivity]. unfold or_operator. cbn [o_own o_rule]. destruct (o_own r); [|easy].
  assert (K := tr_step_keeps_op (o_rule r) c H). destruct (o_rule r), (tr_step _ c); try contradiction; now rewrite ?K.
Qed.
Lemma bcall_op c : {op | c = BOperator op} + {forall op, c <> BOperator op}.
Proof. destruct c; try (right; intros; discriminate). left. now exists op. Qed.
Lemma tcall_op c : {op | c = TOperator op} + {forall op, c <> TOperator op}.
Proof. destruct c; try (right; intros; discriminate). left. now exists op. Qed.
Lemma quiet_bind_keeps h : forall r, quiet_bind r h -> or_operator (obr_run r h) = or_operator r /\ o_own (obr_run r h) = o_own r.
Proof.
  induction h as [|c h IH]; intros r Q; [easy|]. cbn [obr_run fold_left].
  assert (Q' : quiet_bind (obr_step r c) h). { intros h1 op h2 o E. apply (Q (c :: h1) op h2 o). now rewrite E. }
  destruct (IH _ Q') as [A B]. unfold obr_run in *. rewrite A, B. destruct (bcall_op c) as [[op ->]|N']; [|now apply or_keeps_bind].
  cbn [obr_step]. now rewrite set_bind_refused by (intros o; exact (Q [] op h o eq_refl)).
Qed.
Lemma quiet_target_keeps h : forall r, quiet_target r h -> or_operator (otr_run r h) = or_operator r /\ o_own (otr_run r h) = o_own r.
Proof.
  induction h as [|c h IH]; intros r Q; [easy|]. cbn [otr_run fold_left].
  assert (Q' : quiet_target (otr_step r c) h). { intros h1 op h2 o E. apply (Q (c :: h1) op h2 o). now rewrite E. }
  destruct (IH _ Q') as [A B]. unfold otr_run in *. rewrite A, B. destruct (tcall_op c) as [[op ->]|N']; [|now apply or_keeps_target].
  cbn [otr_step]. now rewrite set_target_refused by (intros o; exact (Q [] op h o eq_refl)).
Qed.

(* ---- C120 ---- *)
(* Whatever the rule is and wherever it came from, after a history of calls Operator
   tells the last operator that was taken; with none taken it tells what it told before. *)
Theorem C120_exact : 
  (forall r h, quiet_bind r h -> or_operator (obr_run r h) = or_operator r) /\
  (forall r h1 op o h2, takes_bind (obr_run r h1) op o -> quiet_bind (obr_run r (h1 ++ [BOperator op])) h2 ->
     or_operator (obr_run r (h1 ++ BOperator op :: h2)) = relop_const o) /\
  (forall r h, quiet_target r h -> or_operator (otr_run r h) = or_operator r) /\
  (forall r h1 op o h2, takes_target (otr_run r h1) op o -> quiet_target (otr_run r (h1 ++ [TOperator op])) h2 ->
     or_operator (otr_run r (h1 ++ TOperator op :: h2)) = relop_const o).
Proof.
  split; [intros r h Q; now apply quiet_bind_keeps|]. split.
  { intros r h1 op o h2 K Q. apply quiet_bind_keeps in Q as [Q _]. unfold obr_run in *. rewrite fold_left_app in *. cbn [fold_left] in *. rewrite Q.
    destruct (set_bind_taken _ _ _ K) as (c & _ & E). cbn [obr_step]. now rewrite E. }
  split; [intros r h Q; now apply quiet_target_keeps|].
  intros r h1 op o h2 K Q. apply quiet_target_keeps in Q as [Q _]. unfold otr_run in *. rewrite fold_left_app in *. cbn [fold_left] in *. rewrite Q.
  destruct (set_target_taken _ _ _ K) as (c & _ & E). cbn [otr_step]. now rewrite E.
Qed.

(* A rule whose operator, if any, was set through this package: what is told is what is printed. *)
Definition agrees (r : orule) : Prop :=
  (or_operator r = 0%N /\ (forall c, o_rule r = Some c -> c_op c = None)) \/
  (exists o, prints_op r o /\ or_operator r = relop_const o).
Definition ownp (r : orule) : Prop :=
  forall c, o_rule r = Some c -> c_op c = None \/ (o_own r = true /\ exists o, c_op c = Some (relop_const o)).
Lemma ownp_agrees r : ownp r -> agrees r.
Proof.
  unfold ownp, agrees, prints_op, or_operator. intros H. destruct (o_rule r) as [c|] eqn:E.
  - destruct (H c eq_refl) as [N'|[-> [o S']]].
    + left. rewrite N'. split; [now destruct (o_own r)|]. intros c' [= <-]. exact N'.
    + right. exists o. rewrite S'. split; [|easy]. now exists c.
  - left. split; [now destruct (o_own r)|discriminate].
Qed.
Lemma decide_takes_bind r op : {o | takes_bind r op o} + {forall o, ~ takes_bind r op o}.
Proof.
  destruct (relop_of (op_arg op)) as [[o E]|N'].
  - apply arg_given in E as G. destruct (o_rule r) as [c|] eqn:Er; [|right; intros o' [_ (c & F & _)]; congruence].
    destruct ((relop_const o =? Eq)%N || keywordAllowsComparisonOperator (KBind (matchBKW (c_kw c))) (OCop (relop_const o)))%bool eqn:X.
    + left. exists o. split; [exact G|]. exists c. split; [exact Er|]. apply orb_true_iff in X as [X|X]; [left; now destruct o|right; now apply allows_bind_text].
    + right. intros o' [G' (c' & F & K)]. rewrite Er in F. injection F as <-. apply given_arg in G'. rewrite E in G'.
      assert (o' = o) as -> by (destruct o, o'; try discriminate G'; easy). apply orb_false_iff in X as [X Y].
      destruct K as [->|K]; [discriminate X|]. apply allows_bind_text in K. congruence.
  - right. intros o [G _]. apply given_arg in G. now apply (N' o).
Qed.
Lemma decide_takes_target r op : {o | takes_target r op o} + {forall o, ~ takes_target r op o}.
Proof.
  destruct (relop_of (op_arg op)) as [[o E]|N'].
  - apply arg_given in E as G. destruct (o_rule r) as [c|] eqn:Er; [|right; intros o' [_ (c & F & _)]; congruence].
    destruct ((relop_const o =? Eq)%N || keywordAllowsComparisonOperator (KTarget (matchTKW (c_kw c))) (OCop (relop_const o)))%bool eqn:X.
    + left. exists o. split; [exact G|]. exists c. split; [exact Er|]. apply orb_true_iff in X as [X|X]; [left; now destruct o|right; now apply allows_target_text].
    + right. intros o' [G' (c' & F & K)]. rewrite Er in F. injection F as <-. apply given_arg in G'. rewrite E in G'.
      assert (o' = o) as -> by (destruct o, o'; try discriminate G'; easy). apply orb_false_iff in X as [X Y].
      destruct K as [->|K]; [discriminate X|]. apply allows_target_text in K. congruence.
  - right. intros o [G _]. apply given_arg in G. now apply (N' o).
Qed.
Lemma ownp_bind_step r c : ownp r -> ownp (obr_step r c).
Proof.
  intros H. destruct (bcall_op c) as [[op ->]|N'].
  - cbn [obr_step]. destruct (decide_takes_bind r op) as [[o K]|K].
    + destruct (set_bind_taken _ _ _ K) as (c0 & _ & ->). intros c' [= <-]. right. split; [reflexivity|]. now exists o.
    + now rewrite set_bind_refused.
  - assert (E : obr_step r c = MkO (br_step (o_rule r) c) (o_own r)). { destruct c; trivial. now destruct (N' op). }
    rewrite E. intros b Hb. cbn [o_rule o_own] in *. assert (K := br_step_keeps_op (o_rule r) c N'). destruct (o_rule r) as [a|] eqn:Er; rewrite Hb in K; [rewrite K; now apply H|left; exact K].
Qed.
Lemma ownp_target_step r c : ownp r -> ownp (otr_step r c).
Proof.
  intros H. destruct (tcall_op c) as [[op ->]|N'].
  - cbn [otr_step]. destruct (decide_takes_target r op) as [[o K]|K].
    + destruct (set_target_taken _ _ _ K) as (c0 & _ & ->). intros c' [= <-]. right. split; [reflexivity|]. now exists o.
    + now rewrite set_target_refused.
  - assert (E : otr_step r c = MkO (tr_step (o_rule r) c) (o_own r)). { destruct c; trivial. now destruct (N' op). }
    rewrite E. intros b Hb. cbn [o_rule o_own] in *. assert (K := tr_step_keeps_op (o_rule r) c N'). destruct (o_rule r) as [a|] eqn:Er; rewrite Hb in K; [rewrite K; now apply H|left; exact K].
Qed.
Lemma ownp_bind_run h : forall r, ownp r -> ownp (obr_run r h).
Proof. induction h as [|c h IH]; intros r H; [exact H|]. apply IH. now apply ownp_bind_step. Qed.
Lemma ownp_target_run h : forall r, ownp r -> ownp (otr_run r h).
Proof. induction h as [|c h IH]; intros r H; [exact H|]. apply IH. now apply ownp_target_step. Qed.
Lemma ownp_BR pad kw op ex : ownp (oBR pad kw op ex).
Proof.
  assert (X : ownp (obr_run o_zero [BInit; BKeyword kw; BOperator op; BExpression ex])) by (apply ownp_bind_run; discriminate).
  unfold oBR. destruct (obr_run _ _) as [[c|] w]; cbn [o_rule o_own on_cond]; [|discriminate].
  intros c' [= <-]. exact (X c eq_refl).
Qed.
Lemma ownp_TR pad kw op ex : ownp (oTR pad kw op ex).
Proof.
  assert (X : ownp (otr_run o_zero [TInit; TKeyword kw; TOperator op; TExpression ex])) by (apply ownp_target_run; discriminate).
  unfold oTR. destruct (otr_run _ _) as [[c|] w]; cbn [o_rule o_own on_cond]; [|discriminate].
  intros c' [= <-]. exact (X c eq_refl).
Qed.
(* rules made by the constructors or from a variable, then changed by any calls: Operator
   is zero when no operator is printed, else the constant of the one printed *)
Theorem C120_built : forall h h' pad kw kw' op ex, 
  agrees (obr_run o_zero h) /\ agrees (obr_run (oBR pad kw op ex) h) /\
  agrees (otr_run o_zero h') /\ agrees (otr_run (oTR pad kw' op ex) h').
Proof.
  intros. split; [|split; [|split]]; apply ownp_agrees.
  - apply ownp_bind_run. discriminate.
  - apply ownp_bind_run, ownp_BR.
  - apply ownp_target_run. discriminate.
  - apply ownp_target_run, ownp_TR.
Qed.
(* the rules of MRule.v are these rules with the type left out, and for rules so made
   the Valid method is the one described there *)
Lemma obr_run_rule h : forall r, o_rule (obr_run r h) = br_run (o_rule r) h.
Proof.
  induction h as [|c h IH]; intros r; [easy|]. cbn [obr_run fold_left br_run]. unfold obr_run, br_run in IH. rewrite IH. f_equal.
  destruct c; trivial. cbn [obr_step br_step]. unfold obr_set_operator, br_set_operator.
  repeat match goal with |- context [if ?b then _ else _] => destruct b end; trivial. now destruct (o_rule r) eqn:E; cbn; rewrite ?E.
Qed.
Lemma otr_run_rule h : forall r, o_rule (otr_run r h) = tr_run (o_rule r) h.
Proof.
  induction h as [|c h IH]; intros r; [easy|]. cbn [otr_run fold_left tr_run]. unfold otr_run, tr_run in IH. rewrite IH. f_equal.
  destruct c; trivial. cbn [otr_step tr_step]. unfold otr_set_operator, tr_set_operator.
  repeat match goal with |- context [if ?b then _ else _] => destruct b end; trivial. now destruct (o_rule r) eqn:E; cbn; rewrite ?E.
Qed.
Lemma ownp_valid r : ownp r -> otr_valid r = tr_valid (o_rule r).
Proof.
  intros H. unfold otr_valid, tr_valid. destruct (o_rule r) as [c|] eqn:E; [|easy].
  destruct (H c E) as [N'|[-> _]]; [|now destruct (c_op c)]. now rewrite N'.
Qed.
Theorem C120_fields : 
  (forall r h, o_rule (obr_run r h) = br_run (o_rule r) h) /\ (forall r h, o_rule (otr_run r h) = tr_run (o_rule r) h) /\
  (forall pad kw op ex, o_rule (oBR pad kw op ex) = BR pad kw op ex) /\ (forall pad kw op ex, o_rule (oTR pad kw op ex) = TR pad kw op ex) /\
  (forall h, otr_valid (otr_run o_zero h) = tr_valid (tr_run None h)) /\
  (forall pad kw op ex h, otr_valid (otr_run (oTR pad kw op ex) h) = tr_valid (tr_run (TR pad kw op ex) h)).
Proof.
  split; [intros; apply obr_run_rule|]. split; [intros; apply otr_run_rule|].
  split; [intros; unfold oBR; cbn [o_rule]; now rewrite obr_run_rule|]. split; [intros; unfold oTR; cbn [o_rule]; now rewrite otr_run_rule|]. split.
  - intros h. rewrite ownp_valid by (apply ownp_target_run; discriminate). now rewrite otr_run_rule.
  - intros pad kw op ex h. rewrite ownp_valid by apply ownp_target_run, ownp_TR. rewrite otr_run_rule. f_equal. f_equal.
    unfold oTR. cbn [o_rule]. rewrite otr_run_rule. reflexivity.
Qed.

(* ---- C18 for bind rules: what Valid does tell, exactly ---- *)
(* the operator of a rule made by calls is one that was taken at some call, with the
   keyword the rule had at that moment, and none was taken since *)
Lemma op_origin_bind h : forall c n, br_run None h = Some c -> c_op c = Some n ->
  exists h1 op o h2, h = (h1 ++ BOperator op :: h2)%list /\ takes_bind (obr_run o_zero h1) op o /\ n = relop_const o /\
    quiet_bind (obr_run o_zero (h1 ++ [BOperator op])) h2.
Proof.
  induction h as [|x h IH] using rev_ind; intros c n E N'; [discriminate E|].
  unfold br_run in E. rewrite fold_left_app in E. cbn [fold_left] in E. fold (br_run None h) in E.
  assert (R : o_rule (obr_run o_zero h) = br_run None h) by apply (obr_run_rule h o_zero).
  assert (S' : forall h1 op h2, h = (h1 ++ BOperator op :: h2)%list -> quiet_bind (obr_run o_zero (h1 ++ [BOperator op])) h2 ->
    (forall op' o, x = BOperator op' -> ~ takes_bind (obr_run o_zero h) op' o) -> quiet_bind (obr_run o_zero (h1 ++ [BOperator op])) (h2 ++ [x])).
  { intros h1 op h2 Eh Q X a op' b o Ea. destruct b as [|y b] using rev_ind.
    - apply app_inj_tail in Ea as [<- ->]. replace (obr_run (obr_run o_zero (h1 ++ [BOperator op])) h2) with (obr_run o_zero h); [now apply X|].
      rewrite Eh. unfold obr_run. now rewrite !fold_left_app.
    - clear IHb. replace (a ++ BOperator op' :: b ++ [y])%list with ((a ++ BOperator op' :: b) ++ [y])%list in Ea by now rewrite <- app_assoc.
      apply app_inj_tail in Ea as [Ea _]. apply (Q a op' b o Ea). }
  destruct (bcall_op x) as [[op ->]|X].
  - cbn [br_step] in E. destruct (decide_takes_bind (obr_run o_zero h) op) as [[o K]|K].
    + exists h, op, o, []. split; [reflexivity|]. split; [exact K|]. split; [|intros a op' b o' Ea; destruct a; discriminate Ea].
      destruct (set_bind_taken _ _ _ K) as (c0 & E0 & F). assert (Y : o_rule (obr_set_operator op (obr_run o_zero h)) = br_set_operator op (br_run None h)).
      { rewrite <- R. exact (obr_run_rule [BOperator op] (obr_run o_zero h)). }
      rewrite F, E in Y. cbn [o_rule] in Y. injection Y as <-. cbn in N'. now injection N' as <-.
    + assert (Y : o_rule (obr_set_operator op (obr_run o_zero h)) = br_set_operator op (br_run None h)).
      { rewrite <- R. exact (obr_run_rule [BOperator op] (obr_run o_zero h)). }
      rewrite set_bind_refused in Y by exact K. rewrite R, E in Y.
      destruct (IH c n Y N') as (h1 & op' & o & h2 & Eh & T & En & Q). exists h1, op', o, (h2 ++ [BOperator op])%list.
      split; [rewrite Eh, <- app_assoc; reflexivity|]. split; [exact T|]. split; [exact En|]. apply S'; trivial. intros op2 o2 [= <-]. apply K.
  - assert (Kp := br_step_keeps_op (br_run None h) x X). destruct (br_run None h) as [c0|] eqn:E0; rewrite E in Kp; [|congruence].
    destruct (IH c0 n eq_refl) as (h1 & op' & o & h2 & Eh & T & En & Q); [congruence|]. exists h1, op', o, (h2 ++ [x])%list.
    split; [rewrite Eh, <- app_assoc; reflexivity|]. split; [exact T|]. split; [exact En|]. apply S'; trivial. intros op2 o2 ->. now destruct (X op2).
Qed.
Theorem C18_bind_exact : forall h, br_valid (br_run None h) = true <->
  exists c h1 op o h2, br_run None h = Some c /\ c_kw c <> "" /\ c_ex c <> None /\
    h = (h1 ++ BOperator op :: h2)%list /\ takes_bind (obr_run o_zero h1) op o /\
    quiet_bind (obr_run o_zero (h1 ++ [BOperator op])) h2 /\ c_op c = Some (relop_const o).
Proof.
  intros h. split.
  - intros V. destruct (br_run None h) as [c|] eqn:E; [|discriminate V]. cbn [br_valid] in V. unfold cond_valid in V.
    apply andb_true_iff in V as [V X]. apply andb_true_iff in V as [K O]. destruct (c_op c) as [n|] eqn:En; [|discriminate O].
    destruct (op_origin_bind h c n E En) as (h1 & op & o & h2 & A & B & C & D). exists c, h1, op, o, h2. split; [reflexivity|].
    split; [intros Z; rewrite Z in K; discriminate K|]. split; [intros Z; rewrite Z in X; discriminate X|]. subst n. now repeat (split; [assumption|]).
  - intros (c & h1 & op & o & h2 & E & K & X & _ & _ & _ & O). rewrite E. cbn [br_valid]. unfold cond_valid. rewrite O.
    destruct (c_kw c); [now destruct K|]. destruct (c_ex c); [|now destruct X]. now destruct o.
Qed.
Print Assumptions C18_bind_exact.
(* valid with a keyword that no longer admits the operator *)
Example C18_bind_exact_witness :
  let h1 := [BInit; BKeyword "ssf"] in let h2 := [BExpression (Some (XText "x")); BKeyword "userdn"; BOperator (OStr "<")] in
  let h := (h1 ++ BOperator (OCop Ge) :: h2)%list in
  br_valid (br_run None h) = true /\ takes_bind (obr_run o_zero h1) (OCop Ge) RGe /\ br_string (br_run None h) = "userdn >= x".
Proof.
  cbv zeta. split; [reflexivity|]. split; [|reflexivity]. split; [reflexivity|]. eexists. split; [reflexivity|]. right. now exists StrengthFactor.
Qed.

(* ---- parsed rules ---- *)
(* Every rule that comes out of the parser tells no operator, and keeps telling none
   until an operator is taken; every such target rule reports itself invalid as long. *)
Lemma from_parser_own W r : from_parser W r -> o_own r = false.
Proof. now intros (x & -> & _). Qed.
Lemma foreign_invalid r : o_own r = false -> otr_valid r = false.
Proof.
  intros E. unfold otr_valid. destruct (o_rule r) as [c|]; [|easy]. rewrite E. unfold or_oparg. now destruct (c_op c).
Qed.
Lemma takes_own_bind r op o : takes_bind r op o -> o_own (obr_step r (BOperator op)) = true.
Proof. intros K. destruct (set_bind_taken _ _ _ K) as (c & _ & E). cbn [obr_step]. now rewrite E. Qed.
Theorem C120_parsed : forall W r, from_parser W r ->
  or_operator r = 0%N /\
  (forall h, quiet_bind r h -> or_operator (obr_run r h) = 0%N) /\
  (forall h, quiet_target r h -> or_operator (otr_run r h) = 0%N /\ otr_valid (otr_run r h) = false) /\
  (forall h1 op o h2, takes_target (otr_run r h1) op o ->
     otr_valid (otr_run r (h1 ++ TOperator op :: h2)) = tr_valid (tr_run (o_rule r) (h1 ++ TOperator op :: h2))).
Proof.
  intros W r F. apply from_parser_own in F.
  assert (Z : or_operator r = 0%N) by (unfold or_operator; now rewrite F).
  split; [exact Z|]. split; [intros h Q; destruct (quiet_bind_keeps _ _ Q) as [-> _]; exact Z|]. split.
  - intros h Q. destruct (quiet_target_keeps _ _ Q) as [A B]. rewrite A. split; [exact Z|]. apply foreign_invalid. now rewrite B.
  - intros h1 op o h2 K. rewrite <- otr_run_rule. apply ownp_valid. unfold otr_run. rewrite fold_left_app. cbn [fold_left].
    apply ownp_target_run. destruct (set_target_taken _ _ _ K) as (c & _ & E). cbn [otr_step]. unfold otr_run in E. rewrite E.
    intros c' [= <-]. right. split; [reflexivity|]. now exists o.
Qed.
(* So the property is false: a rule that prints an operator tells none, and a target rule
   that was parsed without error reports itself invalid. *)
Theorem C120_refuted :
  ~ (forall W r o, from_parser W r -> prints_op r o -> or_operator r = relop_const o) /\
  ~ (forall W raw x, parseTargetRule W raw = Gives x -> tr_valid x = true -> otr_valid (o_parsed x) = true) /\
  (exists x, parseTargetRule W0 "t" = Gives x /\ otr_string (o_parsed x) = "( targetscope = " ++ quote "subtree" ++ " )" /\
     tr_valid x = true /\ or_operator (o_parsed x) = 0%N /\ otr_valid (o_parsed x) = false) /\
  (exists x, parseBindRule W0 "b" = Gives x /\ prints_op (o_parsed x) REq /\ obr_valid (o_parsed x) = true /\ or_operator (o_parsed x) = 0%N).
Proof.
  split; [|split; [|split]].
  - intros H. assert (E : parseBindRule W0 "b" = Gives rA) by reflexivity.
    assert (X := H W0 (o_parsed rA) REq (ex_intro _ rA (conj eq_refl (or_introl (ex_intro _ "b" E))))). cbn [or_operator o_own o_parsed] in X.
    assert (Y : prints_op (o_parsed rA) REq) by (eexists; split; reflexivity). specialize (X Y). discriminate X.
  - intros H. specialize (H W0 "t" _ eq_refl). assert (T : tr_valid (match parseTargetRule W0 "t" with Gives r => r | _ => None end) = true) by (vm_compute; reflexivity).
    specialize (H T). vm_compute in H. discriminate H.
  - eexists. split; [reflexivity|]. split; [vm_compute; reflexivity|]. split; [vm_compute; reflexivity|]. split; vm_compute; reflexivity.
  - exists rA. split; [reflexivity|]. split; [eexists; split; reflexivity|]. split; vm_compute; reflexivity.
Qed.
(* a parsed rule set right by an accepted SetOperator, after a refused one *)
Example C120_witness :
  let r := o_parsed (match parseTargetRule W0 "t" with Gives r => r | _ => None end) in
  from_parser W0 r /\ quiet_target r [TOperator (OStr "ne"); TNoPadding true] /\
  takes_target (otr_run r [TOperator (OStr "ne"); TNoPadding true]) (OStr "EQUAL TO") REq /\
  otr_valid (otr_run r [TOperator (OStr "ne"); TNoPadding true]) = false /\
  otr_valid (otr_run r [TOperator (OStr "ne"); TNoPadding true; TOperator (OStr "EQUAL TO")]) = true /\
  or_operator (otr_run r [TOperator (OStr "ne"); TNoPadding true; TOperator (OStr "EQUAL TO")]) = 1%N /\
  or_operator (obr_run (oBR true "SSF" (OStr "ge") (Some (XText "128"))) [BOperator (OCop 9); BKeyword "userdn"; BOperator (OStr "<")]) = 6%N.
Proof.
  set (r := o_parsed (match parseTargetRule W0 "t" with Gives r => r | _ => None end)).
  assert (E : exists c, o_rule r = Some c /\ c_kw c = "targetscope") by (eexists; split; [vm_compute; reflexivity|reflexivity]).
  destruct E as (c & E & K).
  cbv zeta. split; [eexists; split; [reflexivity|]; right; left; exists "t"; vm_compute; reflexivity|]. split.
  { intros h1 op h2 o H [G T]. destruct h1 as [|x [|y [|z h1]]]; cbn in H; try discriminate H.
    injection H as <- _. cbn [given] in G. unfold obr_run in T. cbn [otr_run fold_left] in T. destruct T as (c' & E' & T). rewrite E in E'. injection E' as <-.
    assert (o = RNe) as ->. { destruct G as [G|[G|G]]; destruct o; try discriminate G; reflexivity. }
    destruct T as [T|(k & T & A)]; [discriminate T|]. rewrite K in T. destruct k; try discriminate T. discriminate A. }
  split. { split; [cbn [given]; unfold names_relop; right; right; reflexivity|]. eexists. split; [vm_compute; reflexivity|]. now left. }
  split; [vm_compute; reflexivity|]. split; [vm_compute; reflexivity|]. split; vm_compute; reflexivity.
Qed.
(* the other ways to get a rule by parsing *)
Example C120_sources_witness :
  (exists t c, parseBindRules W0 (fun _ => Some (PStk "and" false [PCond rA; PStk "not" true [PCond rB]])) "x" = Gives (Some t) /\
     holds t c /\ c_kw c = "ssf" /\ from_parser W0 (o_parsed (Some c)) /\
     or_operator (obr_run (o_parsed (Some c)) [BOperator (OStr "<")]) = 3%N) /\
  (exists l x y, parseTargetRules W0 "x" = Gives l /\ l = [x; y] /\ from_parser W0 (o_parsed y)) /\
  (exists i x, parseInstruction W0 "x" = Gives (Some i) /\ In x (i_trs i) /\ from_parser W0 (o_parsed x)).
Proof.
  split; [|split].
  - set (brs := fun _ : string => Some (PStk "and" false [PCond rA; PStk "not" true [PCond rB]])).
    pose (T := match parseBindRules W0 brs "x" with Gives (Some t) => t | _ => Leaf cond_init end).
    assert (E : parseBindRules W0 brs "x" = Gives (Some T)) by (vm_compute; reflexivity).
    pose (c := match T with Stk _ _ _ _ [_; Stk _ _ _ _ [Leaf c]] => c | _ => cond_init end).
    assert (K : c_kw c = "ssf") by (vm_compute; reflexivity).
    assert (O : or_operator (obr_run (o_parsed (Some c)) [BOperator (OStr "<")]) = 3%N) by (vm_compute; reflexivity).
    assert (H : holds T c).
    { assert (S2 : match T with Stk _ _ _ _ [_; b] => match b with Stk _ _ _ _ k => k | _ => [] end | _ => [] end = [Leaf c]) by (vm_compute; reflexivity).
      clearbody c. clear - S2. destruct T as [|w p f d [|a [|b [|]]]]; try discriminate S2.
      eapply h_kid; [right; left; reflexivity|]. destruct b as [|w' p' f' d' k]; [discriminate S2|]. subst k. eapply h_kid; [left; reflexivity|]. constructor. }
    exists T, c.
    split; [exact E|]. split; [exact H|]. split; [exact K|]. split; [|exact O]. exists (Some c). split; [reflexivity|].
    right; right; right; right. exists brs, "x", T, c. split; [exact E|]. now split.
  - assert (E : exists x y, parseTargetRules W0 "x" = Gives [x; y]) by (do 2 eexists; vm_compute; reflexivity). destruct E as (x & y & E).
    exists [x; y], x, y. split; [exact E|]. split; [reflexivity|]. exists y. split; [reflexivity|]. right; right; left. exists "x", [x; y]. split; [exact E|]. right; now left.
  - assert (E : exists i x l, parseInstruction W0 "x" = Gives (Some i) /\ i_trs i = x :: l) by (do 3 eexists; split; vm_compute; reflexivity).
    destruct E as (i & x & l & E & F). exists i, x. assert (I : In x (i_trs i)) by (rewrite F; now left). split; [exact E|]. split; [exact I|].
    exists x. split; [reflexivity|]. right; right; right; left. exists "x", i. now split.
Qed.
Print Assumptions C120_exact.
Print Assumptions C120_built.
Print Assumptions C120_fields.
Print Assumptions C120_parsed.
Print Assumptions C120_refuted.
