(* Theorems for C17 (keyword and operator lookup). *)
From Coq Require Import String Ascii List NArith ZArith Bool Permutation.
From Verif Require Import GoStr MMisc MKw SKw PKw.
Import ListNotations.
Open Scope string_scope.

(* For every iteration order of the table, a text gives a keyword exactly when
   it is that keyword's name up to letter case, and gives none (0) exactly when
   it is no keyword's name. *)
Theorem C17_bind_keyword : forall t, Permutation t bkwMap -> forall s,
  (forall k, tbl_match t s = bindkw_const k <-> eqfold s (bindkw_name k) = true) /\
  (tbl_match t s = 0%N <-> forall k, eqfold s (bindkw_name k) = false).
Proof. exact bindkw_lookup. Qed.
Theorem C17_target_keyword : forall t, Permutation t tkwMap -> forall s,
  (forall k, tbl_match t s = targetkw_const k <-> eqfold s (targetkw_name k) = true) /\
  (tbl_match t s = 0%N <-> forall k, eqfold s (targetkw_name k) = false).
Proof. exact targetkw_lookup. Qed.
Theorem C17_bind_type : forall t, Permutation t btMap -> forall s,
  (forall k, tbl_match t s = bindtype_const k <-> eqfold s (bindtype_name k) = true) /\
  (tbl_match t s = 0%N <-> forall k, eqfold s (bindtype_name k) = false).
Proof. exact bindtype_lookup. Qed.
Theorem C17_operator : forall t, Permutation t copTable -> forall s,
  (forall o, cop_match t s = relop_const o <-> names_relop s o) /\
  (cop_match t s = 0%N <-> forall o, ~ names_relop s o).
Proof. exact cop_match_spec. Qed.

(* what is printed is the name, so it reads back to the same constant *)
Theorem C17_print : 
  (forall k, bkw_string (bindkw_const k) = bindkw_name k) /\
  (forall k, tkw_string (targetkw_const k) = targetkw_name k) /\
  (forall k, bt_string (bindtype_const k) = bindtype_name k) /\
  (forall o, cop_string (relop_const o) = relop_symbol o /\
             cop_context (relop_const o) = relop_short o /\
             cop_description (relop_const o) = relop_long o).
Proof. repeat split; destruct k || destruct o; reflexivity. Qed.
Theorem C17_read_back :
  (forall t k, Permutation t bkwMap -> tbl_match t (bkw_string (bindkw_const k)) = bindkw_const k) /\
  (forall t k, Permutation t tkwMap -> tbl_match t (tkw_string (targetkw_const k)) = targetkw_const k) /\
  (forall t k, Permutation t btMap -> tbl_match t (bt_string (bindtype_const k)) = bindtype_const k) /\
  (forall t o, Permutation t copTable ->
     cop_match t (cop_string (relop_const o)) = relop_const o /\
     cop_match t (cop_context (relop_const o)) = relop_const o /\
     cop_match t (cop_description (relop_const o)) = relop_const o).
Proof.
  destruct C17_print as (A & B & C & D).
  split; [|split; [|split]].
  - intros t k P. rewrite A. apply (C17_bind_keyword t P), eqfold_refl.
  - intros t k P. rewrite B. apply (C17_target_keyword t P), eqfold_refl.
  - intros t k P. rewrite C. apply (C17_bind_type t P), eqfold_refl.
  - intros t o P. destruct (D o) as (-> & -> & ->). unfold names_relop in *.
    repeat split; apply (C17_operator t P); unfold names_relop; rewrite eqfold_refl; tauto.
Qed.

(* the whole permission table, and its use through names, constants and numbers *)
Theorem C17_allowed : 
  (forall k o, keywordAllowsComparisonOperator (KBind (bindkw_const k)) (OCop (relop_const o)) = bindkw_allows k o) /\
  (forall k o, keywordAllowsComparisonOperator (KTarget (targetkw_const k)) (OCop (relop_const o)) = targetkw_allows k o) /\
  (forall s t k o, eqfold s (bindkw_name k) = true -> names_relop t o ->
     keywordAllowsComparisonOperator (KStr s) (OStr t) = bindkw_allows k o) /\
  (forall s t k o, eqfold s (targetkw_name k) = true -> names_relop t o ->
     keywordAllowsComparisonOperator (KStr s) (OStr t) = targetkw_allows k o).
Proof.
  split; [exact allows_bind|]. split; [exact allows_target|]. split.
  - intros s t k o Hs Ht. unfold keywordAllowsComparisonOperator, matchCOP, matchBKW.
    apply (proj2 (proj1 (bindkw_lookup _ (Permutation_refl _) s) k)) in Hs.
    apply (proj2 (proj1 (cop_match_spec _ (Permutation_refl _) t) o)) in Ht. rewrite Hs, Ht.
    replace (negb (bindkw_const k =? 0)%N) with true by (destruct k; reflexivity). apply allows_bind.
  - intros s t k o Hs Ht. unfold keywordAllowsComparisonOperator, matchCOP, matchBKW, matchTKW.
    assert (Hs' := Hs). apply eqfold_iff in Hs'.
    apply (proj2 (proj1 (targetkw_lookup _ (Permutation_refl _) s) k)) in Hs.
    apply (proj2 (proj1 (cop_match_spec _ (Permutation_refl _) t) o)) in Ht. rewrite Hs, Ht.
    assert (tbl_match bkwMap s = 0%N) as ->.
    { apply (bindkw_lookup _ (Permutation_refl _) s). intros b.
      destruct (eqfold s (bindkw_name b)) eqn:E; [|easy]. apply eqfold_iff in E.
      rewrite E in Hs'. exfalso. destruct b, k; discriminate Hs'. }
    replace (negb (targetkw_const k =? 0)%N) with true by (destruct k; reflexivity). apply allows_target.
Qed.
(* operators outside the six constants are allowed for nothing *)
Theorem C17_unknown_operator : forall kw n, (forall o, n <> relop_const o) ->
  keywordAllowsComparisonOperator kw (OCop n) = false.
Proof.
  intros kw n H.
  assert (E : forall l, incl l [1;2;3;4;5;6]%N -> op_in n l = false).
  { intros l Hl. unfold op_in. destruct (existsb (N.eqb n) l) eqn:E; [|easy].
    apply existsb_exists in E as (m & Hi & E). apply N.eqb_eq in E as <-. apply Hl in Hi.
    cbn [In] in Hi. exfalso.
    destruct Hi as [E|[E|[E|[E|[E|[E|[]]]]]]]; symmetry in E;
      [now apply (H REq)|now apply (H RNe)|now apply (H RLt)|now apply (H RGt)|now apply (H RLe)|now apply (H RGe)]. }
  assert (B : forall k, bindKeywordAllows k n = false).
  { intros k. apply E. unfold permittedBind. cbn [ops_get].
    repeat match goal with |- context [if ?b then _ else _] => destruct b end;
      intros x Hx; cbn [In] in *; tauto. }
  assert (T : forall k, targetKeywordAllows k n = false).
  { intros k. apply E. unfold permittedTarget. cbn [ops_get].
    repeat match goal with |- context [if ?b then _ else _] => destruct b end;
      intros x Hx; cbn [In] in *; tauto. }
  unfold keywordAllowsComparisonOperator. destruct kw; auto.
  rewrite B, T. now repeat match goal with |- context [if ?b then _ else _] => destruct b end.
Qed.
Print Assumptions C17_bind_keyword.
Print Assumptions C17_target_keyword.
Print Assumptions C17_bind_type.
Print Assumptions C17_operator.
Print Assumptions C17_print.
Print Assumptions C17_read_back.
Print Assumptions C17_allowed.
Print Assumptions C17_unknown_operator.

(* a reversed table is another iteration order, and mixed case is found *)
Example C17_witness :
  Permutation (rev bkwMap) bkwMap /\ rev bkwMap <> bkwMap /\
  tbl_match (rev bkwMap) "AuthMethod" = 10%N /\ tbl_match (rev bkwMap) "authmethods" = 0%N /\
  cop_match (rev copTable) "less than" = 3%N /\ names_relop "less than" RLt.
Proof.
  split; [apply Permutation_sym, Permutation_rev|]. split; [discriminate|].
  repeat split; try reflexivity. right. right. reflexivity.
Qed.
