(* C105, exactly: two marks decide how the values print, one kept in the list, one in the
   rule. *)
From Coq Require Import String Ascii List PeanoNat NArith ZArith Bool Lia.
From Verif Require Import GoStr GoStrFacts MMisc MAttr MKw MLists MRule MMeth MHeap MShare SShare TShare.
Import ListNotations.
Open Scope string_scope.

Definition is_dq (c : ascii) : bool := Ascii.eqb c """".
Fixpoint dqs (s : string) : nat := match s with EmptyString => O | String c r => if is_dq c then S (dqs r) else dqs r end.
Lemma dqs_app a b : dqs (a ++ b) = (dqs a + dqs b)%nat.
Proof. induction a as [|c a IH]; [reflexivity|]. cbn [append dqs]. destruct (is_dq c); rewrite IH; lia. Qed.
Lemma dqs_none s : no_byte """" s = true -> dqs s = O.
Proof.
  induction s as [|c s IH]; [reflexivity|]. rewrite no_byte_cons. intros H. apply andb_true_iff in H as [C H]. cbn [dqs]. unfold is_dq.
  apply negb_true_iff in C. rewrite Ascii.eqb_sym in C. rewrite C. now apply IH.
Qed.
Lemma dqs_quote s : dqs (quote s) = S (S (dqs s)).
Proof. unfold quote. rewrite !dqs_app. change (dqs dq) with 1%nat. lia. Qed.
Lemma dqs_join l : (forall v, In v l -> no_byte """" v = true) -> dqs (join " || " l) = O.
Proof.
  induction l as [|v l IH]; intros H; [reflexivity|]. destruct l as [|w l]; [apply dqs_none, H; now left|].
  rewrite join_cons, !dqs_app, (dqs_none v) by (apply H; now left). rewrite IH by (intros x X; apply H; now right). reflexivity.
Qed.
Lemma dqs_join_quoted l : (forall v, In v l -> no_byte """" v = true) -> dqs (join " || " (map quote l)) = (2 * List.length l)%nat.
Proof.
  induction l as [|v l IH]; intros H; [reflexivity|]. destruct l as [|w l].
  - cbn [map join List.length]. rewrite dqs_quote, (dqs_none v) by (apply H; now left). reflexivity.
  - cbn [map] in *. rewrite join_cons, !dqs_app, dqs_quote, (dqs_none v) by (apply H; now left).
    rewrite IH by (intros x X; apply H; now right). cbn [List.length]. change (dqs " || ") with 0%nat. lia.
Qed.
(* In every state of every program a rule that holds a list prints the list's values, each
   in quotation marks if the list's mark is set, and all of that in quotation marks if the
   rule's mark is set.  So the values, if there are any and they contain no quotation
   marks themselves, are well quoted exactly when one of the two marks is set. *)
Theorem C105_exact : forall en d pad p r l k c, let s := s_run en d pad s_start p in
  holds s r = Some l -> nth_error (s_lists s) l = Some k -> rule_of s r = Some c ->
  (let inside := join " || " (if l_sliced k then map quote (con_texts (l_con k)) else con_texts (l_con k)) in
   val_text c = if c_quoted c then quote inside else inside) /\
  (con_texts (l_con k) <> [] -> (forall v, In v (con_texts (l_con k)) -> no_byte """" v = true) ->
   (well_quoted (val_text c) (con_texts (l_con k)) <-> c_quoted c <> l_sliced k)).
Proof.
  intros en d pad p r l k c s H K C. unfold holds in H. unfold rule_of in C. destruct (s_rvar s r) as [n|]; [|discriminate].
  destruct (nth_error (s_rules s) n) as [rc|]; [|discriminate]. unfold rule_now in C. destruct (rc_ex rc) as [|l'|e]; try discriminate. injection H as ->.
  injection C as <-. cbn [rex_value]. rewrite K.
  assert (V : val_text (with_ex (rc_cond rc) (Some (cell_expr k))) =
    if c_quoted (rc_cond rc) then quote (list_text (l_sliced k) (con_texts (l_con k))) else list_text (l_sliced k) (con_texts (l_con k))) by reflexivity.
  split; [rewrite V; unfold list_text; reflexivity|]. intros N Q. rewrite V. unfold well_quoted, list_text.
  change (c_quoted (with_ex (rc_cond rc) (Some (cell_expr k)))) with (c_quoted (rc_cond rc)). set (vals := con_texts (l_con k)) in *.
  assert (D0 := dqs_join vals Q). assert (D1 := dqs_join_quoted vals Q). assert (L : (1 <= List.length vals)%nat) by (destruct vals; [easy|cbn; lia]).
  destruct (c_quoted (rc_cond rc)), (l_sliced k); (split; [intros [E|E]|intros E]); try discriminate; try congruence; try (now left); try (now right);
    apply (f_equal dqs) in E; rewrite ?dqs_quote, ?D0, ?D1 in E; lia.
Qed.
Example C105_exact_witness :
  let s := s_run e0 d0 true s_start [SList 0 (two "cn=a" "cn=b"); SMake 0 0 Eq; SCall 0 (RBind (BQuoteStyle 0))] in
  holds s 0 = Some 0%nat /\ match rule_of s 0, nth_error (s_lists s) 0 with Some c, Some k => c_quoted c = false /\ l_sliced k = true | _, _ => False end.
Proof. vm_compute. repeat split. Qed.
Print Assumptions C105_exact.
