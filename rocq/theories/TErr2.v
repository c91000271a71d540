(* C126, further: the formatter, and the texts of the remaining messages. *)
From Coq Require Import String Ascii List PeanoNat NArith ZArith Bool Lia.
From Verif Require Import GoStr GoStrFacts MMisc MLists MKw Shifty MAttr MLevels MTime MSec MNet MErr SErr TErr.
Import ListNotations.
Open Scope string_scope.

Lemma join_fold a l : join ", " ((f_type a ++ "=" ++ f_text a) :: map (fun a => f_type a ++ "=" ++ f_text a) l) ++ ")" =
  f_type a ++ "=" ++ f_text a ++ fold_right (fun b s => ", " ++ f_type b ++ "=" ++ f_text b ++ s) ")" l.
Proof.
  revert a. induction l as [|b l IH]; intros a; [cbn; now rewrite !app_assoc'|].
  change (join ", " ((f_type a ++ "=" ++ f_text a) :: map (fun a0 => f_type a0 ++ "=" ++ f_text a0) (b :: l)))
    with ((f_type a ++ "=" ++ f_text a) ++ ", " ++ join ", " ((f_type b ++ "=" ++ f_text b) :: map (fun a0 => f_type a0 ++ "=" ++ f_text a0) l)).
  cbn [fold_right]. rewrite !app_assoc'. now rewrite IH.
Qed.
Lemma sprintf_plain t rest args : no_byte "%" t = true -> sprintf (t ++ rest) args = t ++ sprintf rest args.
Proof.
  induction t as [|c t IH]; intros N; [reflexivity|]. cbn [no_byte append] in N |- *. apply andb_prop in N as [N1 N2].
  rewrite <- (IH N2). destruct (Ascii.eqb_spec c "%") as [->|NE]; [discriminate N1|].
  cbn [sprintf]. destruct c as [[] [] [] [] [] [] [] []]; try reflexivity. now destruct NE.
Qed.
Lemma sprintf_format ps : Forall (fun p => fst p <> "%"%char /\ no_byte "%" (snd p) = true) ps ->
  forall args, sprintf (format ps) args = filled ps args.
Proof.
  induction 1 as [|[v t] ps [V T] F IH]; intros args.
  - destruct args as [|a args]; [reflexivity|]. cbn [format sprintf filled extra map]. now rewrite join_fold.
  - cbn [fst snd] in *. cbn [format].
    assert (E : sprintf (String "%" (String v (t ++ format ps))) args =
      match args with
      | [] => "%!" ++ String v "(MISSING)" ++ sprintf (t ++ format ps) []
      | a :: args => (if Ascii.eqb v "T" then f_type a else f_text a) ++ sprintf (t ++ format ps) args
      end).
    { cbn [sprintf]. destruct v as [[] [] [] [] [] [] [] []]; try reflexivity. now destruct V. }
    rewrite E. destruct args as [|a args]; rewrite (sprintf_plain _ _ _ T), IH; reflexivity.
Qed.
(* The message of a format is the format with its verbs filled in; it has no complaint
   about arguments exactly when there are as many arguments as verbs (C126_fits). *)
Theorem C126_format : forall t ps args, no_byte "%" t = true ->
  Forall (fun p => fst p <> "%"%char /\ no_byte "%" (snd p) = true) ps ->
  t ++ format ps <> "" -> errorf (t ++ format ps) args = Some (t ++ filled ps args).
Proof.
  intros t ps args T F N. unfold errorf.
  destruct (Nat.eqb_spec (String.length (t ++ format ps)) 0) as [E|E].
  - destruct (t ++ format ps); [now destruct N|discriminate E].
  - f_equal. rewrite (sprintf_plain _ _ _ T). now rewrite sprintf_format.
Qed.
Theorem C126_fits : forall ps args, Forall (fun p => fst p <> "%"%char /\ no_byte "%" (snd p) = true) ps -> Forall plain args ->
  (no_byte "%" (filled ps args) = true <-> List.length ps = List.length args).
Proof.
  intros ps args F. revert args. induction F as [|[v t] ps [V T] F IH]; intros [|a args] P.
  - now split.
  - cbn. split; discriminate.
  - cbn. split; discriminate.
  - inversion P as [|? ? [P1 P2] P3]; subst. cbn [filled List.length]. rewrite !no_byte_app. cbn [snd] in T.
    rewrite T. destruct (Ascii.eqb v "T"); rewrite ?P1, ?P2; cbn [andb]; rewrite (IH args P3); lia.
Qed.
(* A text that is an error is used as a format, too. *)
Theorem C126_error_format : forall e args, errorf_err e args = match e with None => None | Some m => Some (sprintf m args) end.
Proof. now intros [m|] args. Qed.

(* The texts of the messages that are left: each names its parts in their places. *)
Theorem C126_rules : forall candidate key typ want got,
  badPTBRuleKeywordErr candidate typ want got =
    Some ("Unknown or unresolvable " ++ typ ++ " rule keyword or category for " ++ f_type candidate ++ ": want '" ++ want ++ "', got '" ++ got ++ "'") /\
  noTBRuleExpressionValues candidate typ key =
    Some ("Found no " ++ f_text key ++ " " ++ typ ++ " rule expression value(s) during " ++ f_type candidate ++ " assertion") /\
  noValueErr candidate typ = Some ("Found no " ++ typ ++ " expression during processing of " ++ f_type candidate ++ " instance") /\
  badObjectIdentifierKeywordErr key = Some ("Invalid ObjectIdentifier and/or " ++ f_type key ++ "[" ++ f_text key ++ "] value(s)").
Proof. intros. repeat split. Qed.
Theorem C126_types : forall receiver want got stk b,
  nilInstanceErr receiver = Some (f_type receiver ++ " instance is nil") /\
  badCopErr receiver = Some (f_type receiver ++ " contains an bogus underlying value") /\
  illegalSliceTypeErr receiver want got =
    Some ("Illegal slice type within " ++ f_type receiver ++ " stack: should be '" ++ f_type want ++ "', got '" ++ f_type got ++ "'") /\
  parseBindRuleInvalidExprTypeErr receiver want got =
    Some ("Unexpected " ++ f_type got ++ " within " ++ f_type receiver ++ "; wanted " ++ f_type want) /\
  parseBindRulesHierErr stk b = Some ("Unable to cast " ++ f_type stk ++ " hierarchy into " ++ f_type b ++ "; aborting").
Proof.
  intros. repeat split. unfold parseBindRuleInvalidExprTypeErr, errorf. cbn -[append].
  cbn. now rewrite app_nil_r'.
Qed.
Theorem C126_results : forall receiver typ want got n m err,
  unexpectedKindErr receiver want got =
    Some ("Unexpected " ++ f_type receiver ++ ".Kind result: should be '" ++ want ++ "', got '" ++ got ++ "'") /\
  unexpectedStringResult typ want got = Some ("Unexpected string " ++ typ ++ " result; want " ++ want ++ ", got " ++ got) /\
  unexpectedValueCountErr typ n m = Some ("Unexpected number of " ++ typ ++ " values; want " ++ count n ++ ", got " ++ count m) /\
  generalErr typ err = Some ("General " ++ typ ++ " error: " ++ f_text err).
Proof.
  intros. repeat split; unfold unexpectedStringResult, unexpectedValueCountErr, generalErr, errorf; cbn; rewrite ?app_nil_r'; reflexivity.
Qed.
Theorem C126_syntax : forall candidate k e,
  illegalSyntaxPerTypeErr candidate (Some k) None = Some (f_type candidate ++ " [" ++ k ++ "] syntax invalid") /\
  illegalSyntaxPerTypeErr candidate (Some k) (Some e) = Some (f_type candidate ++ " [" ++ k ++ "] syntax invalid: " ++ e) /\
  illegalSyntaxPerTypeErr candidate None None = Some (f_type candidate ++ " [<unspecified_keyword>] syntax invalid") /\
  illegalSyntaxPerTypeErr candidate None (Some e) = Some (f_type candidate ++ " [<unspecified_keyword>] syntax invalid: " ++ e).
Proof. intros. unfold illegalSyntaxPerTypeErr, errorf. repeat split; cbn; rewrite ?app_nil_r'; reflexivity. Qed.
Theorem C126_split : forall d l o c,
  afosNonIdempSplitErr d l o c = Some ("Inappropriate delimiter id [" ++ count d ++ "]; non-idempotent result following '" ++ String c ""
    ++ "' split: len(vals)=" ++ count l ++ ", opct=" ++ count o).
Proof. intros. unfold afosNonIdempSplitErr, errorf. cbn. rewrite ?app_nil_r'. reflexivity. Qed.
Theorem C126_names : forall l n x,
  fqdnInvalidLabelErr l = Some ("aci.FQDN has a bad label " ++ f_text l) /\
  fqdnInvalidLenErr n = Some ("aci.FQDN size requirements not met (" ++ count n ++ " v. 253), or len < 2") /\
  dowBadDayErr x = Some ("aci.DayOfWeek instance describes invalid dayofweek: " ++ f_text x).
Proof.
  intros. repeat split; [unfold fqdnInvalidLabelErr, errorf; cbn; now rewrite app_nil_r'|].
  unfold dowBadDayErr, errorf. cbn. now rewrite app_nil_r'.
Qed.
Theorem C126_fixed :
  afoMissingPrefixErr = Some "aci.AttributeFilterOperation instance is missing required aci.AttributeOperation prefix: needs either add= or delete=" /\
  aoBadPrefixErr = Some "Invalid aci.AttributeOperation value prefix; must be add= or delete=" /\
  uriBadPrefixErr = Some "Invalid aci.LDAPURI value prefix; must be ldap:///" /\
  afMissingDelimiterErr = Some "No attr:filter delimiter (:) found in aci.AttributeFilter" /\
  instructionNoLabelErr = Some "aci.Instruction has no name (ACL); set a string name value using aci.Instruction.Set" /\
  levelsNotFoundErr = Some "No level identifiers parsed; aborting" /\
  dowBadTimeErr = Some "aci.TimeOfDay instance describes invalid timeofday" /\
  noPermissionDispErr = Some "aci.Permission has no disposition (allow/deny), or is ambiguous (nil)".
Proof. repeat split. Qed.
(* A push refused without a keyword says so; a push refused for another reason shows a
   cause that it has no place for with a complaint. *)
Theorem C126_push_nokey : forall receiver candidate key cause,
  pushErrorNotUnique receiver candidate None None =
    Some (push_report "Cannot push non-unique or ineligible " (f_type candidate) " into " (f_type receiver) "<unspecified_keyword>" "") /\
  pushErrorNotUnique receiver candidate (Some key) (Some cause) =
    Some (push_report "Cannot push non-unique or ineligible " (f_type candidate) " into " (f_type receiver) key
            ("%!(EXTRA *errors.errorString=" ++ cause ++ ")")).
Proof. intros. repeat split. Qed.

Example C126_format_witness :
  errorf "a %s b %T" [Str "x%"; Num 7] = Some "a x% b int" /\
  errorf "a %s" [Str "x"; Num 7; Str "z"] = Some "a x%!(EXTRA int=7, string=z)" /\
  errorf "%d and %c" [Num 12] = Some "12 and %!c(MISSING)".
Proof. repeat split. Qed.
Example C126_rules_witness :
  badPTBRuleKeywordErr (MkF "aci.BindRule" "") "bind" "userdn" "dns" =
    Some "Unknown or unresolvable bind rule keyword or category for aci.BindRule: want 'userdn', got 'dns'" /\
  fqdnInvalidLenErr 300 = Some "aci.FQDN size requirements not met (300 v. 253), or len < 2" /\
  afosNonIdempSplitErr 1 3 2 ";" = Some "Inappropriate delimiter id [1]; non-idempotent result following ';' split: len(vals)=3, opct=2".
Proof. repeat split. Qed.

Print Assumptions C126_format.
Print Assumptions C126_fits.
Print Assumptions C126_error_format.
Print Assumptions C126_rules.
Print Assumptions C126_types.
Print Assumptions C126_results.
Print Assumptions C126_syntax.
Print Assumptions C126_split.
Print Assumptions C126_names.
Print Assumptions C126_fixed.
Print Assumptions C126_push_nokey.
