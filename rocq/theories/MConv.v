(* Model of the step that replaces the raw values of a parsed rule by values of
   the package's own types: BindRule.assertExpressionValue and
   TargetRule.assertExpressionValue (/repo/parse.go:326-589).  Definitions only.
   A converted value is represented by the text it prints (XText), or, for the
   list types, by the texts of its members (XList); see MRule.v. *)
From Coq Require Import String Ascii List PeanoNat NArith ZArith Bool.
From Verif Require Import GoStr Shifty MMisc MLists MKw MSec MTime MAttr MLevels MNet MFilter MUri MRule.
Import ListNotations.
Open Scope string_scope.

(* what the package takes from outside: EqualFold between arbitrary texts,
   go-objectid, go-shifty, the iteration order of authNames (sec.go:21) and the
   variable AuthenticationMethodLowerCase (sec.go:48) *)
Record env := MkEnv { e_eqf : string -> string -> bool; e_dotnot : string -> option string;
                      e_shifty : shifty; e_auth : list (string * N); e_low : bool }.

Inductive ares := APanic | AErr | AOk (e : expr).
Definition of_opt {A} (f : A -> expr) (o : option A) : ares :=
  match o with Some a => AOk (f a) | None => AErr end.

(* dn.go:904-908 and parse.go:169-171: parseLDAPURI with the rule's keyword *)
Definition uri_text (key : N) (s : string) : option string :=
  match parseLDAPURI s [key] with Some u => Some (uri_string u) | None => None end.
(* parse.go:356-383 the switch on the keyword, with 130-183 *)
Definition assert_bind (en : env) (key : N) (vals : list string) : ares :=
  if ((key =? BindUDN) || (key =? BindRDN) || (key =? BindGDN))%N%bool then
    of_opt (fun l => XList LBindDN false (map (dmember_string badBDN) l))
           (assertBindUGRDN (e_eqf en) badBDN true (uri_text key) key vals)
  else if (key =? BindIP)%N then of_opt (fun a => XText (ipaddr_string a)) (assertBindIP vals)
  else if (key =? BindDNS)%N then of_opt (fun a => XText (fqdn_string a)) (assertBindDNS vals)
  else if ((key =? BindUAT) || (key =? BindGAT))%N%bool then
    match assertBindUGAttr (e_shifty en)
            (fun s => match uri_text key s with Some _ => true | None => false end) vals key with
    | UInh i => AOk (XText (inh_string (e_shifty en) fmt_panic i))
    | UAbtv a => AOk (XText (avbt_s a))
    | UUri => match vals with
              | v :: _ => of_opt XText (uri_text key (unquote (condenseWHSP v)))
              | [] => AErr end
    | UErr => AErr
    | UPanic => APanic
    end
  else if (key =? BindDoW)%N then of_opt (fun d => XText (dow_string (e_shifty en) d)) (assertBindDayOfWeek (e_shifty en) vals)
  else if (key =? BindToD)%N then of_opt (fun t => XText (tod_string t)) (assertBindTimeOfDay vals)
  else if (key =? BindAM)%N then
    of_opt (fun m => XText (auth_string_in (e_auth en) (e_low en) m))
           (assertBindAuthenticationMethod (e_auth en) (e_low en) vals)
  else if (key =? BindSSF)%N then of_opt (fun s => XText (ssf_string s)) (assertBindSSF vals)
  else AErr.

Inductive rres := RPanic | RErr | ROk (r : rule).
(* parse.go:331-392 assertExpressionValue of a bind rule *)
Definition br_assert (en : env) (r : rule) : rres :=
  match r with
  | Some c =>
      match c_ex c with
      | Some (XRaw style vals) =>
          match assert_bind en (matchBKW (bkw_string (br_keyword r))) vals with
          | APanic => RPanic
          | AErr => RErr
          | AOk ex => ROk (br_set_quote_style style (br_set_expression (Some ex) r))
          end
      | _ => RErr
      end
  | None => RErr
  end.

(* parse.go:591-605 assertTargetFilter *)
Definition assertTargetFilter (vals : list string) : option sfilter :=
  match vals with
  | [v] => let value := unquote (condenseWHSP v) in
           if (String.length value <? 3)%nat then None else Some (Filter [value])
  | _ => None
  end.
(* parse.go:543-578 the switch on the keyword of a target rule *)
Definition assert_target (en : env) (key : N) (vals : list string) : ares :=
  if (key =? TargetScope)%N then of_opt (fun s => XText (scope_string s)) (assertTargetScope vals)
  else if (key =? TargetAttrFilters)%N then of_opt (fun a => XText (afos_string a)) (assertTargetAttrFilters vals)
  else if (key =? TargetFilter)%N then of_opt (fun f => XText (sf_string f)) (assertTargetFilter vals)
  else if (key =? TargetAttr)%N then
    of_opt (fun l => XList LAttrs false (map at_string l)) (assertTargetAttributes vals)
  else if ((key =? TargetCtrl) || (key =? TargetExtOp))%N%bool then
    of_opt (fun l => XList LOids false (map omember_text (ol_mem l)))
           (assertTargetOID (e_eqf en) (e_dotnot en) key vals)
  else if ((key =? Target) || (key =? TargetTo) || (key =? TargetFrom))%N%bool then
    of_opt (fun l => XList LTargetDN false (map (dmember_string badTDN) l))
           (assertTargetTFDN (e_eqf en) badTDN false key vals)
  else AErr.
(* parse.go:521-589 assertExpressionValue of a target rule *)
Definition tr_assert (en : env) (r : rule) : rres :=
  match r with
  | Some c =>
      match c_ex c with
      | Some (XRaw style vals) =>
          match assert_target en (matchTKW (tkw_string (tr_keyword r))) vals with
          | APanic => RPanic
          | AErr => RErr
          | AOk ex => ROk (tr_set_quote_style style (tr_set_expression (Some ex) r))
          end
      | _ => RErr
      end
  | None => RErr
  end.
