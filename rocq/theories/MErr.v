(* Model of the error messages: fmt.Sprintf as far as /repo/err.go uses it, errorf and
   the functions that make errors (err.go), and the errors of the readers that quote what
   they were given.  A message is a string; no message is a nil error.  Definitions only. *)
From Coq Require Import String Ascii List PeanoNat NArith ZArith Bool.
From Verif Require Import GoStr MMisc MLists MKw Shifty MAttr MLevels MTime MSec MNet.
Import ListNotations.
Open Scope string_scope.

(* An argument of Sprintf: the name of its Go type, and the text that the verb for its
   type gives (%s, %v for strings, Stringers and errors, %d for integers, %c for runes;
   every call in err.go uses a verb that suits its argument). *)
Record fval := MkF { f_type : string; f_text : string }.
Definition Str (s : string) : fval := MkF "string" s.
Definition Num (n : nat) : fval := MkF "int" (itoa (N.of_nat n)).

(* fmt.Sprintf, for formats without flags, widths and precisions.  A verb without an
   argument, an argument without a verb and a % at the end of the format give the
   complaints documented for package fmt. *)
Definition extra (args : list fval) : string :=
  match args with
  | [] => ""
  | _ => "%!(EXTRA " ++ join ", " (map (fun a => f_type a ++ "=" ++ f_text a) args) ++ ")"
  end.
Fixpoint sprintf (fmt : string) (args : list fval) : string :=
  match fmt with
  | EmptyString => extra args
  | String "%" EmptyString => "%!(NOVERB)" ++ extra args
  | String "%" (String "%" rest) => String "%" (sprintf rest args)
  | String "%" (String v rest) =>
      match args with
      | [] => "%!" ++ String v "(MISSING)" ++ sprintf rest []
      | a :: args => (if Ascii.eqb v "T" then f_type a else f_text a) ++ sprintf rest args
      end
  | String c rest => String c (sprintf rest args)
  end.
(* err.go:11-24 errorf, for a message that is a string *)
Definition errorf (msg : string) (args : list fval) : option string :=
  if (String.length msg =? 0)%nat then None else Some (sprintf msg args).
(* err.go:17-20 errorf, for a message that is an error: its text is the format *)
Definition errorf_err (msg : option string) (args : list fval) : option string :=
  match msg with Some m => Some (sprintf m args) | None => None end.

(* err.go:26-28 *)
Definition nilInstanceErr (x : fval) := errorf "%T instance is nil" [x].
(* err.go:33-35 *)
Definition badInhErr (bad : string) :=
  errorf "Bad Inheritance value '%s'; must conform to 'parent[0-9+].<at>#<bt_or_av>'" [Str bad].
(* err.go:37-39 *)
Definition badCopErr (x : fval) := errorf "%T contains an bogus underlying value" [x].
(* err.go:41-47 *)
Definition badClockTimeErr (raw thyme : string) :=
  if negb (String.eqb thyme raw) then
    errorf "Unexpected %s clock time parsing result; want '%s', got '%s' (hint: use military time; 0000 through 2400)"
      [MkF "aci.BindKeyword" (bkw_string BindToD); Str raw; Str thyme]
  else None.
(* err.go:49-55 *)
Definition badSecurityStrengthFactorErr (raw fac : string) :=
  if negb (String.eqb fac raw) then
    errorf "Unexpected security strength factor parsing result; want '%s', got '%s' (hint: valid range is 0-256)" [Str raw; Str fac]
  else None.
(* err.go:57-62 *)
Definition unexpectedBindConditionValueErr (key : N) (want got : nat) :=
  if negb (want =? got)%nat then
    errorf "Unexpected number of %s values; want %d, got %d" [MkF "aci.BindKeyword" (bkw_string key); Num want; Num got]
  else None.
(* err.go:64-69 *)
Definition badIPErr (want got : nat) :=
  if negb (want =? got)%nat then
    errorf "Unexpected '%s' values parsed; want '%d', got '%d'" [MkF "aci.BindKeyword" (bkw_string BindIP); Num want; Num got]
  else None.
(* err.go:71-76 *)
Definition badDNSErr (raw fqdn : string) :=
  if negb (String.eqb raw fqdn) then
    errorf "Unexpected '%s' values parsed; want '%s', got '%s'" [MkF "aci.BindKeyword" (bkw_string BindDNS); Str raw; Str fqdn]
  else None.
(* err.go:78-83 *)
Definition badAMErr (raw am : string) :=
  if negb (eqfold am raw) then
    errorf "Unexpected %s auth method parsing result; want '%s', got '%s'" [MkF "aci.BindKeyword" (bkw_string BindAM); Str raw; Str am]
  else None.
(* err.go:85-103; [want] and [got] are the texts taken from the arguments *)
Definition badPTBRuleKeywordErr (candidate : fval) (typ want got : string) :=
  errorf "Unknown or unresolvable %s rule keyword or category for %T: want '%s', got '%s'" [Str typ; candidate; Str want; Str got].
(* err.go:105-108 *)
Definition noTBRuleExpressionValues (candidate : fval) (typ : string) (key : fval) :=
  errorf "Found no %s %s rule expression value(s) during %T assertion" [key; Str typ; candidate].
(* err.go:110-112 *)
Definition badAttributeBindTypeOrValueErr (x : string) :=
  errorf "Invalid AttributeBindTyoeOrValue instance: must conform to '<at>#<bt_or_av>', got '%s'" [Str x].
(* err.go:114-116 *)
Definition badObjectIdentifierErr (x : string) :=
  errorf "Invalid ObjectIdentifier instance: must conform to 'N[.N]+', got '%s'" [Str x].
(* err.go:118-121 *)
Definition badObjectIdentifierKeywordErr (key : fval) :=
  errorf "Invalid %s and/or %T[%s] value(s)" [Str "ObjectIdentifier"; key; key].
(* err.go:123-125 *)
Definition unexpectedKindErr (receiver : fval) (want got : string) :=
  errorf "Unexpected %T.Kind result: should be '%s', got '%s'" [receiver; Str want; Str got].
(* err.go:127-130 *)
Definition illegalSliceTypeErr (receiver want got : fval) :=
  errorf "Illegal slice type within %T stack: should be '%T', got '%T'" [receiver; want; got].
(* err.go:132-149; no key is a nil Keyword, no cause no error given or a nil one *)
Definition keyword_text (key : option string) : string := match key with Some k => k | None => "<unspecified_keyword>" end.
Definition cause_arg (er : option string) : list fval := match er with Some e => [MkF "*errors.errorString" e] | None => [] end.
Definition illegalSyntaxPerTypeErr (candidate : fval) (key : option string) (er : option string) :=
  match er with
  | Some e => errorf ("%T [%s] syntax invalid" ++ ": %v") ([candidate; Str (keyword_text key)] ++ cause_arg er)
  | None => errorf "%T [%s] syntax invalid" [candidate; Str (keyword_text key)]
  end.
(* err.go:151-154 *)
Definition afosNonIdempSplitErr (d l o : nat) (c : ascii) :=
  errorf "Inappropriate delimiter id [%d]; non-idempotent result following '%c' split: len(vals)=%d, opct=%d"
    [Num d; MkF "int32" (String c ""); Num l; Num o].
(* err.go:156-184 *)
Definition afoMissingPrefixErr :=
  errorf "%T instance is missing required %T prefix: needs either add= or delete="
    [MkF "aci.AttributeFilterOperation" ""; MkF "aci.AttributeOperation" ""].
Definition aoBadPrefixErr := errorf "Invalid %T value prefix; must be add= or delete=" [MkF "aci.AttributeOperation" ""].
Definition uriBadPrefixErr := errorf "Invalid %T value prefix; must be %s" [MkF "aci.LDAPURI" ""; Str "ldap:///"].
Definition afMissingDelimiterErr := errorf "No attr:filter delimiter (%c) found in %T" [MkF "int32" ":"; MkF "aci.AttributeFilter" ""].
Definition instructionNoLabelErr :=
  errorf "%T has no name (ACL); set a string name value using %T.Set" [MkF "aci.Instruction" ""; MkF "aci.Instruction" ""].
Definition levelsNotFoundErr := errorf "No level identifiers parsed; aborting" [].
(* err.go:186-224 *)
Definition rightNotfound (x : string) := errorf "Right '%s' unknown" [Str x].
Definition dowBadTimeErr := errorf "%T instance describes invalid timeofday" [MkF "aci.TimeOfDay" ""].
Definition dowBadDayErr (x : fval) := errorf "%T instance describes invalid dayofweek: %v" [MkF "aci.DayOfWeek" ""; x].
Definition noPermissionDispErr := errorf "%T has no disposition (allow/deny), or is ambiguous (nil)" [MkF "aci.Permission" ""].
Definition fqdnInvalidLabelErr (l : fval) := errorf "%T has a bad label %v" [MkF "aci.FQDN" ""; l].
Definition fqdnInvalidLenErr (l : nat) :=
  errorf "%T size requirements not met (%d v. %d), or len < 2" [MkF "aci.FQDN" ""; Num l; Num fqdnMax].
Definition parseBindRuleInvalidExprTypeErr (receiver want got : fval) := errorf "Unexpected %T within %T; wanted %T" [got; receiver; want].
Definition parseBindRulesHierErr (stk b : fval) := errorf "Unable to cast %T hierarchy into %T; aborting" [stk; b].
(* err.go:226-249 *)
Definition unexpectedStringResult (typ want got : string) :=
  errorf "Unexpected string %s result; want %s, got %s" [Str typ; Str want; Str got].
Definition unexpectedValueCountErr (typ : string) (want got : nat) :=
  errorf "Unexpected number of %s values; want %d, got %d" [Str typ; Num want; Num got].
Definition bogusValueErr (typ bogus : string) := errorf "Bogus %s value: '%s'" [Str typ; Str bogus].
Definition generalErr (typ : string) (err : fval) := errorf "General %s error: %v" [Str typ; err].
Definition noValueErr (candidate : fval) (typ : string) :=
  errorf "Found no %s expression during processing of %T instance" [Str typ; candidate].
(* err.go:251-265 pushError *)
Definition pushError (receiver candidate : fval) (key : option string) (emsg : string) (er : option string) :=
  errorf emsg ([candidate; receiver; Str (keyword_text key)] ++ cause_arg er).
(* err.go:267-280 *)
Definition pushErrorNotUnique (receiver candidate : fval) key er :=
  pushError receiver candidate key "Cannot push non-unique or ineligible %T into %T [%s]" er.
Definition pushErrorNilOrZero (receiver candidate : fval) key er :=
  pushError receiver candidate key "Cannot push zero-length or nil %T into %T [%s]: %v" er.
Definition pushErrorBadType (receiver candidate : fval) key er :=
  pushError receiver candidate key "Push request of %T type violates %T [%s] PushPolicy" er.

(* ---- the errors of readers that quote what they read ---- *)
Section Readers.
Variable sh : shifty.
(* attr.go:321-352 parseATBTV, and attr.go:290-298 Parse, which returns its error *)
Definition atbtv_error (x : string) : option string :=
  match idx "#" x with
  | None => badAttributeBindTypeOrValueErr x
  | Some i => if String.eqb (at_string (AT (stake i x))) badAT then badAttributeBindTypeOrValueErr x else None
  end.
(* levels.go:157-219 parseInheritance; None is a panic *)
Definition inh_error (s : string) : option (option string) :=
  if negb (has_prefix "parent[" (lc s)) then Some (badInhErr s)
  else
    let raw := sdrop 7 s in
    match idx "]" raw with
    | None => Some (badInhErr s)
    | Some i =>
        match String.get (i + 1) raw with
        | None => None
        | Some c =>
            if negb (Ascii.eqb c ".") then Some (badInhErr s)
            else if (lvl_shift sh 0 (map LStr (split1 "," (remove_byte " " (stake i raw)))) =? 0)%N then Some levelsNotFoundErr
            else Some (atbtv_error (sdrop (i + 2) raw))
        end
    end.
(* time.go:269-280 Valid of a DayOfWeek *)
Definition dow_valid_error (d : dow) : option string :=
  match d with
  | None => nilInstanceErr (MkF "aci.DayOfWeek" "")
  | Some _ => if String.eqb (dow_string sh d) badDoW then dowBadTimeErr else None
  end.
(* time.go:37-50 parseDoW *)
Fixpoint dow_loop_error (X : list string) : option string :=
  match X with
  | [] => None
  | x :: r => if (matchStrDoW x =? noDay)%N then dowBadDayErr (Str x) else dow_loop_error r
  end.
Definition dow_error (s : string) : option string :=
  let X := split1 "," (remove_byte " " s) in
  match dow_loop_error X with
  | Some e => Some e
  | None => dow_valid_error (Some (match parseDoW_loop sh 0 X with Some v => v | None => 0%N end))
  end.
(* parse.go:185-264: every reader first checks that there is one value *)
Definition one_value (key : N) (vals : list string) (err : string -> option string) : option string :=
  match unexpectedBindConditionValueErr key 1 (List.length vals), vals with
  | Some e, _ => Some e
  | None, v :: _ => err (unquote (condenseWHSP v))
  | None, [] => None
  end.
Definition tod_error := fun vals => one_value BindToD vals (fun unq => badClockTimeErr unq (tod_string (ToD [TStr unq]))).
Definition dow_value_error := fun vals => one_value BindDoW vals dow_error.
Definition am_error (t : list (string * N)) (low : bool) := fun vals =>
  one_value BindAM vals (fun unq => badAMErr unq (auth_string_in t low (auth_match_str t unq))).
Definition ssf_error := fun vals => one_value BindSSF vals (fun unq => badSecurityStrengthFactorErr unq (ssf_string (SSF [SStr unq]))).
Definition ip_error := fun vals => one_value BindIP vals (fun unq =>
  let raw := split1 "," unq in
  badIPErr (List.length raw) (ipaddr_len (fold_left (fun a x => ipaddr_set a [x]) raw None))).
Definition dns_error := fun vals => one_value BindDNS vals (fun unq => badDNSErr unq (fqdn_string (DNS [unq]))).
(* parse.go:780-803 assertTargetScope *)
Definition scope_error (vals : list string) : option string :=
  match vals with
  | [v] =>
      let value := unquote (condenseWHSP v) in
      if (String.length value =? 0)%nat then nilInstanceErr (MkF "aci.SearchScope" "")
      else if (strToScope value =? noScope)%N then bogusValueErr (tkw_string TargetScope) value else None
  | _ => unexpectedValueCountErr (tkw_string TargetScope) 1 (List.length vals)
  end.
End Readers.
