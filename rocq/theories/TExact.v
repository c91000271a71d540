(* Theorems for C99-C101: the exact text of an instruction, what a rule's setters
   change, and what the values of a URI or filter constructor are used for. *)
From Coq Require Import String Ascii List PeanoNat NArith ZArith Bool Lia Permutation.
From Verif Require Import GoStr GoStrFacts MMisc MLists MKw MSec MAttr MFilter MUri MRule MConv MTree MAci
  SKw SAttr SLists SFilter PKw PLists PAttr PFilter PRule TKw TRule TFilter TAci SRead.
Import ListNotations.
Open Scope string_scope.

(* ---- C99 ---- *)
(* an instruction is the text of its target rules, without anything between them,
   then version, label and permission bind rules *)
Theorem C99_text : forall W label trs pbrs,
  ins_string W (Some (MkIns label trs pbrs)) =
  join "" (map tr_string trs) ++ "(version 3.0; acl " ++ in_quotes label ++ "; " ++ join " " (map (pbr_string W) pbrs) ++ ")".
Proof. intros W label trs pbrs. cbn [ins_string i_trs i_label i_pbrs]. unfold in_quotes, dq, version, pbrs_string, trs_string. cbn [append]. rewrite !app_assoc'. reflexivity. Qed.
Theorem C99_zero : forall W, ins_string W None = "<invalid_aci>" /\ ins_valid None = false /\ forall a, ins_valid (Some a) = true.
Proof. intros W. repeat split. Qed.
(* Parse gives a new instruction, whatever the receiver held, or leaves the receiver *)
Theorem C99_parse : forall W i s,
  (forall i', parseInstruction W s = Gives i' -> ins_step W i (ICParse s) = Some i') /\
  (parseInstruction W s = Fails -> ins_step W i (ICParse s) = Some i) /\
  (parseInstruction W s = Panics -> ins_step W i (ICParse s) = None).
Proof. intros W i s. cbn [ins_step]. destruct (parseInstruction W s); repeat split; intros; congruence. Qed.
Theorem C99_parse_fails : forall W i s, w_ins W (condenseWHSP s) = None -> ins_step W i (ICParse s) = Some i.
Proof. intros W i s H. apply C99_parse. unfold parseInstruction. now rewrite H. Qed.
(* the label is the first text that is not empty *)
Fixpoint first_text (xs : list iarg) : string :=
  match xs with
  | [] => ""
  | IStr s :: r => if String.eqb s "" then first_text r else s
  | _ :: r => first_text r
  end.
Theorem C99_label : forall W xs a, i_label (instr_set W a xs) = if String.eqb (i_label a) "" then first_text xs else i_label a.
Proof.
  intros W xs. unfold instr_set. induction xs as [|x xs IH]; intros a; cbn [fold_left first_text].
  - destruct (String.eqb_spec (i_label a) ""); [assumption|reflexivity].
  - rewrite IH. destruct x as [s|l|r|r|l|]; cbn [assertInstruction i_label]; try reflexivity.
    unfold setLabel. destruct (String.eqb_spec (i_label a) "") as [E|E].
    + rewrite E. cbn [String.length Nat.eqb]. rewrite andb_true_r. destruct s as [|c s]; cbn [String.length Nat.ltb Nat.leb String.eqb]; [now rewrite E|reflexivity].
    + replace (String.length (i_label a) =? 0)%nat with false by (symmetry; now apply len0f). rewrite andb_false_r.
      now destruct (String.eqb_spec (i_label a) "").
Qed.
Theorem C99_label_set : forall W i xs, exists a, ins_set W i xs = Some a /\
  i_label a = match i with Some b => if String.eqb (i_label b) "" then first_text xs else i_label b | None => first_text xs end.
Proof. intros W i xs. eexists. split; [reflexivity|]. rewrite C99_label. destruct i; reflexivity. Qed.
Print Assumptions C99_text.
Print Assumptions C99_zero.
Print Assumptions C99_parse.
Print Assumptions C99_parse_fails.
Print Assumptions C99_label.
Print Assumptions C99_label_set.
Example C99_witness :
  ins_string W0 (ACI W0 [IOther; IStr ""; IStr "one"; IPBR theA; IStr "two"]) =
    "(version 3.0; acl ""one""; " ++ pbr_string W0 theA ++ ")" /\
  first_text [IOther; IStr ""; IStr "one"; IPBR theA; IStr "two"] = "one" /\
  (exists s, w_ins W0 (condenseWHSP s) = None).
Proof. split; [vm_compute; reflexivity|]. split; [reflexivity|]. exists "none". vm_compute. reflexivity. Qed.

(* ---- C100 ---- *)
(* a target rule always prints in parentheses *)
Theorem C100_target_text : forall c, tr_string (Some c) = rule_line true (c_pad c) (c_kw c) (MRule.op_text (c_op c)) (val_text c).
Proof. intros c. reflexivity. Qed.
Theorem C100_bind_text : forall c, br_string (Some c) = rule_line (c_paren c) (c_pad c) (c_kw c) (MRule.op_text (c_op c)) (val_text c).
Proof. intros c. unfold br_string, cond_string, wrap_paren, rule_line, padding, sp. destruct (c_paren c); reflexivity. Qed.
Theorem C100_target_list : forall l,
  trs_string false l = join "" (map tr_string l) /\ trs_string true l = join " " (map tr_string l).
Proof. intros l. split; reflexivity. Qed.
(* SetOperator: a permitted operator replaces the operator, anything else changes nothing *)
Definition op_given (x : oparg) (o : relop) : Prop :=
  match x with OCop n => n = relop_const o | OStr s => names_relop s o | _ => False end.
Lemma given_arg x o : op_given x o -> op_arg x = relop_const o /\ (forall kw, keywordAllowsComparisonOperator kw x = keywordAllowsComparisonOperator kw (OCop (relop_const o))).
Proof.
  destruct x as [s|n| |]; cbn [op_given op_arg]; try contradiction.
  - intros H. assert (E : matchCOP s = relop_const o) by now apply (cop_match_spec _ (Permutation_refl _)).
    split; [exact E|]. intros kw. unfold keywordAllowsComparisonOperator. now rewrite E.
  - intros ->. split; reflexivity.
Qed.
Definition changed (o : relop) (c : cond) : rule := Some (with_op c (relop_const o)).
Theorem C100_operator : forall c x o,
  op_given x o ->
  (forall k, eqfold (c_kw c) (bindkw_name k) = true ->
     br_set_operator x (Some c) = if bindkw_allows k o then changed o c else Some c) /\
  (forall k, eqfold (c_kw c) (targetkw_name k) = true ->
     tr_set_operator x (Some c) = if targetkw_allows k o then changed o c else Some c).
Proof.
  intros c x o G. destruct (given_arg x o G) as [A P].
  assert (NZ : (relop_const o =? 0)%N = false) by now destruct o.
  split; intros k K.
  - assert (M : matchBKW (c_kw c) = bindkw_const k) by (destruct (bindkw_lookup _ (Permutation_refl _) (c_kw c)) as [B _]; now apply B).
    unfold br_set_operator. cbn [br_keyword]. rewrite A, P, M, NZ, (proj1 C17_allowed k o). cbn [on_cond].
    destruct k, o; reflexivity.
  - assert (M : matchTKW (c_kw c) = targetkw_const k) by (destruct (targetkw_lookup _ (Permutation_refl _) (c_kw c)) as [B _]; now apply B).
    unfold tr_set_operator. cbn [tr_keyword]. rewrite A, P, M, NZ, (proj1 (proj2 C17_allowed) k o). cbn [on_cond].
    destruct k, o; reflexivity.
Qed.
(* what is not an operator changes nothing, and neither does any call on a zero rule *)
Theorem C100_no_operator : forall c x, (forall o, ~ op_given x o) ->
  br_set_operator x (Some c) = Some c /\ tr_set_operator x (Some c) = Some c /\ br_set_operator x None = None /\ tr_set_operator x None = None.
Proof.
  intros c x N.
  assert (Z : op_arg x = 0%N \/ exists n, x = OCop n /\ forall o, n <> relop_const o).
  { destruct x as [s|n|z|]; cbn [op_arg]; [|right; exists n; split; [reflexivity|]; intros o E; exact (N o E)|left; reflexivity|left; reflexivity].
    left. apply (cop_match_spec _ (Permutation_refl _)). exact N. }
  assert (B : br_set_operator x (Some c) = Some c /\ tr_set_operator x (Some c) = Some c).
  { destruct Z as [Z|(n & -> & Z)].
    - unfold br_set_operator, tr_set_operator. rewrite Z. change (0 =? Eq)%N with false. change (0 =? 0)%N with true. cbn [negb andb].
      split; [|reflexivity]. now destruct (negb _).
    - unfold br_set_operator, tr_set_operator. cbn [op_arg]. destruct (N.eqb_spec n Eq) as [E|_]; [destruct (Z REq E)|]. cbn [negb andb].
      rewrite !C17_unknown_operator by exact Z. cbn [negb]. split; [reflexivity|]. now destruct (n =? 0)%N. }
  split; [apply B|]. split; [apply B|].
  split; [unfold br_set_operator|unfold tr_set_operator]; repeat match goal with |- context [if ?b then _ else _] => destruct b end; reflexivity.
Qed.

(* SetKeyword.  A bind rule takes any text; a zero bind rule is initialised but the
   text is lost. *)
Theorem C100_keyword_refuted : ~ (forall r kw c, br_set_keyword kw r = Some c -> c_kw c = kw).
Proof. intros H. specialize (H None "ssf" _ eq_refl). discriminate H. Qed.
Theorem C100_keyword_exact : forall kw,
  (forall c, br_set_keyword kw (Some c) = Some (with_kw c kw)) /\
  (exists c, br_set_keyword kw None = Some c /\ c_kw c = "" /\ c_op c = None /\ c_ex c = None).
Proof. intros kw. split; [reflexivity|]. eexists. repeat split. Qed.
(* a target rule takes the keyword it is given, in its usual spelling; a zero target
   rule stays zero *)
Theorem C100_target_keyword : forall c kw k, eqfold kw (targetkw_name k) = true ->
  tr_set_keyword (KStr kw) (Some c) = Some (with_kw c (targetkw_name k)) /\
  tr_set_keyword (KTarget (targetkw_const k)) (Some c) = Some (with_kw c (targetkw_name k)) /\
  tr_set_keyword KOther (Some c) = Some c /\
  (forall x, tr_set_keyword x None = None).
Proof.
  intros c kw k K.
  assert (M : forall s, eqfold s (targetkw_name k) = true -> tkw_string (matchTKW s) = targetkw_name k).
  { intros s H. replace (matchTKW s) with (targetkw_const k); [now destruct k|]. symmetry. now apply (targetkw_lookup _ (Permutation_refl _) s). }
  cbn [tr_set_keyword on_cond]. rewrite (M kw K). split; [reflexivity|]. split; [|split; [reflexivity|now intros []]].
  rewrite M; [reflexivity|]. destruct k; reflexivity.
Qed.
(* SetExpression and the display settings *)
Theorem C100_settings : forall c e b,
  br_set_expression e (Some c) = Some (with_ex c e) /\ br_set_expression e None = None /\
  br_paren b (Some c) = Some (with_paren c b) /\ br_nopadding b (Some c) = Some (with_pad c (negb b)) /\
  tr_set_expression e (Some c) = Some (with_quoted (with_ex c e) true) /\
  (exists z, tr_set_expression e None = Some z /\ c_ex z = e /\ c_kw z = "" /\ c_op z = None) /\
  tr_nopadding b (Some c) = Some (with_pad c (negb b)).
Proof. intros c e b. repeat apply conj; try reflexivity. eexists. repeat split. Qed.
Print Assumptions C100_target_text.
Print Assumptions C100_bind_text.
Print Assumptions C100_target_list.
Print Assumptions C100_operator.
Print Assumptions C100_no_operator.
Print Assumptions C100_keyword_refuted.
Print Assumptions C100_keyword_exact.
Print Assumptions C100_target_keyword.
Print Assumptions C100_settings.
Example C100_witness : op_given (OStr "!=") RNe /\ op_given (OStr "less than") RLt /\ op_given (OCop 6%N) RGe /\
  targetkw_allows TgFilter RNe = true /\ targetkw_allows TgFilter RLt = false /\
  (forall o, ~ op_given (OInt 1) o) /\
  tr_string (tr_run None [TInit; TKeyword (KStr "TARGETFILTER"); TOperator (OStr "!="); TOperator (OCop Lt); TOperator (OInt 1);
    TExpression (Some (XText "(cn=x)")); TNoPadding true]) = "(targetfilter!=""(cn=x)"")".
Proof.
  repeat apply conj; try (vm_compute; tauto); try reflexivity; try (intros o H; exact H).
Qed.

(* ---- C101 ---- *)
(* URI and Set: a text that reads as a URI gives the URI and ends the call *)
Theorem C101_uri_text : forall r s t u, parseLDAPURI s [] = Some u -> uri_set r (UStr s :: t) = u.
Proof. intros r s t u H. cbn [uri_set]. now rewrite H. Qed.
Theorem C101_uri_other_text : forall r s t, parseLDAPURI s [] = None -> uri_set r (UStr s :: t) = uri_set r t.
Proof. intros r s t H. cbn [uri_set]. now rewrite H. Qed.
(* values of the other types go to their place, the last one of a type wins *)
Definition not_text (x : uarg) : Prop := match x with UStr _ => False | _ => True end.
Definition last_of {A} (f : uarg -> option A) (d : A) (xs : list uarg) : A :=
  fold_left (fun a x => match f x with Some y => y | None => a end) xs d.
Definition a_dn (x : uarg) : option dn := match x with UDn d => Some d | _ => None end.
Definition a_scope (x : uarg) : option N := match x with UScope n => Some n | _ => None end.
Definition a_avbt (x : uarg) : option abtv := match x with UAvbt a => Some a | _ => None end.
Definition a_filter (x : uarg) : option sfilter := match x with UFilter f => Some f | _ => None end.
Theorem C101_uri_values : forall xs r, Forall not_text xs ->
  let u := uri_set r xs in
  u_dn u = last_of a_dn (u_dn r) xs /\ u_scope u = last_of a_scope (u_scope r) xs /\
  u_avbt u = last_of a_avbt (u_avbt r) xs /\ u_filter u = last_of a_filter (u_filter r) xs.
Proof.
  induction xs as [|x xs IH]; intros r F; [repeat split|]. inversion F as [|? ? H F']. subst.
  destruct x as [s|d|n|a|f|l|]; cbn [not_text] in H; [contradiction|..]; cbn [uri_set]; unfold last_of in *; cbn [fold_left a_dn a_scope a_avbt a_filter];
    exact (IH _ F').
Qed.
(* AttributeFilter: a name and a filter may be given in either order *)
Theorem C101_filter_order : forall a f, identifier a -> isIdentifier f = false ->
  AF [FStr a; FStr f] = AF [FStr f; FStr a] /\ AF [FStr a; FStr f] = AF [FAT (AT a); FSF (Filter [f])] /\
  AF [FStr a; FStr f] = AF [FOther; FStr "x"; FStr a; FStr f].
Proof.
  intros a f A F. assert (I : isIdentifier a = true) by now apply identifier_iff.
  unfold AF, atf_set. cbn [fold_left atf_set1 fst snd]. rewrite I, F. cbn [fst snd]. repeat split.
Qed.
(* Push of an operation changes the operation and keeps the members; the number of DelOp is 2 *)
Theorem C101_push_operation : forall r n,
  afo_mem (afo_push r [AOOp n]) = afo_mem r /\
  (n = 2%N -> afo_string (afo_push r [AOOp n]) = "delete=" ++ join " && " (map af_string (afo_mem r))) /\
  (n <> 2%N -> afo_string (afo_push r [AOOp n]) = "add=" ++ join " && " (map af_string (afo_mem r))).
Proof.
  intros r n. unfold afo_push. cbn [fold_left afo_push1]. split; [reflexivity|]. unfold afo_string, aop_label. cbn [afo_mem afo_op].
  split; intros H; destruct (N.eqb_spec n DelOp); (contradiction || reflexivity).
Qed.
(* SetDelimiter *)
Theorem C101_delimiter : forall r,
  afos_string (afos_setDelimiter r true) = join ";" (map afo_string (afos_mem r)) /\
  afos_string (afos_setDelimiter r false) = join "," (map afo_string (afos_mem r)).
Proof. intros r. split; reflexivity. Qed.
Print Assumptions C101_uri_text.
Print Assumptions C101_uri_other_text.
Print Assumptions C101_uri_values.
Print Assumptions C101_filter_order.
Print Assumptions C101_push_operation.
Print Assumptions C101_delimiter.
Example C101_witness :
  uri_string (URI [UScope 1; UDn (UDN "cn=x"); UStr "nothing"; UScope 3; UFilter (Filter ["(a=b)"])]) = "ldap:///cn=x??sub?(a=b)" /\
  uri_string (URI [UDn (UDN "cn=x"); UStr "ldap:///cn=y?cn#USERDN"; UScope 3]) = "ldap:///cn=y?cn#USERDN" /\
  af_string (AF [FStr "(a=b)"; FStr "cn"]) = "cn:(a=b)" /\ isIdentifier "(a=b)" = false.
Proof. repeat apply conj; vm_compute; reflexivity. Qed.
