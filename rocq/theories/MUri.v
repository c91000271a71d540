(* Model of /repo/uri.go (LDAP URIs), of parseLDAPURI (/repo/parse.go) and of the
   userattr/groupattr rule reader.  Definitions only. *)
From Coq Require Import String Ascii List PeanoNat NArith Bool.
From Verif Require Import GoStr MMisc MKw MSec MAttr MLevels MLists MFilter Shifty.
Import ListNotations.
Open Scope string_scope.

(* uri.go:22-36 LDAPURI with its embedded ldapURI.  The nil pointer is left out:
   URI and the parser never make it.  u_attrs is the stack made by UAs(). *)
Record uri := MkURI { u_dn : dn; u_scope : N; u_avbt : abtv; u_attrs : list attype; u_filter : sfilter }.
Definition uri_new : uri := MkURI None noScope abtv_zero [] None.
Definition badURI : string := "<invalid_ldap_uri>".

(* uri.go:141-191 uriAssertATB; None: error *)
Definition uriAssertATB (r : uri) (raw : string) (bkw : list N) : option uri :=
  if (String.length raw =? 0)%nat then Some r
  else if scontains "#" raw then
    let kw := match bkw with k :: _ => if (k =? BindGAT)%N then BindGAT else BindUAT | [] => BindUAT end in
    match parseATBTV raw [Some kw] with
    | None => None
    | Some a => Some (MkURI (u_dn r) (u_scope r) a (u_attrs r) (u_filter r))
    end
  else
    let A := fold_left (fun A s => at_push A [AType (AT s)]) (split1 "," (remove_byte " " raw)) [] in
    Some (MkURI (u_dn r) (u_scope r) (u_avbt r) (at_push (u_attrs r) (map AType A)) (u_filter r)).
(* uri.go:85-131 assertURIComponents, one component; None: error *)
Definition uri_component (r : uri) (i : nat) (v : string) (bkw : list N) : option uri :=
  match i with
  | 0%nat => Some (MkURI (UDN v) (u_scope r) (u_avbt r) (u_attrs r) (u_filter r))
  | 1%nat => uriAssertATB r v bkw
  | 2%nat => Some (if (0 <? String.length v)%nat
                   then MkURI (u_dn r) (strToScope v) (u_avbt r) (u_attrs r) (u_filter r) else r)
  | 3%nat => Some (MkURI (u_dn r) (u_scope r) (u_avbt r) (u_attrs r) (Filter [v]))
  | _ => Some r
  end.
(* ... its loop *)
Fixpoint uri_components (r : uri) (i : nat) (vals : list string) (bkw : list N) : option uri :=
  match vals with
  | [] => Some r
  | v :: t => match uri_component r i v bkw with
              | None => None
              | Some r' => uri_components r' (S i) t bkw
              end
  end.
(* parse.go:1048-1073 parseLDAPURI; None: error *)
Definition parseLDAPURI (x : string) (bkw : list N) : option uri :=
  if negb (has_prefix LocalScheme x) then None
  else uri_components uri_new 0 (split1 "?" (sdrop (String.length LocalScheme) x)) bkw.

(* uri.go:439-477 set.  tv.transfer(r.attrs) pushes every member. *)
Inductive uarg := UStr (s : string) | UDn (d : dn) | UScope (n : N) | UAvbt (a : abtv) | UFilter (f : sfilter)
  | UAttrs (l : list attype) | UOther.
Fixpoint uri_set (r : uri) (xs : list uarg) : uri :=
  match xs with
  | [] => r
  | x :: t =>
      match x with
      | UStr s => match parseLDAPURI s [] with Some u => u | None => uri_set r t end
      | UDn d => uri_set (MkURI d (u_scope r) (u_avbt r) (u_attrs r) (u_filter r)) t
      | UScope n => uri_set (MkURI (u_dn r) n (u_avbt r) (u_attrs r) (u_filter r)) t
      | UAvbt a => uri_set (MkURI (u_dn r) (u_scope r) a (u_attrs r) (u_filter r)) t
      | UFilter f => uri_set (MkURI (u_dn r) (u_scope r) (u_avbt r) (u_attrs r) f) t
      | UAttrs l => uri_set (MkURI (u_dn r) (u_scope r) (u_avbt r) (at_push (u_attrs r) (map AType l)) (u_filter r)) t
      | UOther => uri_set r t
      end
  end.
(* uri.go:59-71 URI, newLDAPURI *)
Definition URI (xs : list uarg) : uri := uri_set uri_new xs.

(* uri.go:390-404 Valid, valid: no error *)
Definition uri_valid (r : uri) : bool := negb (dn_isZero (u_dn r)).
(* What fmt prints with %s for a value whose String method panics with a nil
   pointer dereference *)
Definition fmt_panic : string :=
  "%!s(PANIC=String method: runtime error: invalid memory address or nil pointer dereference)".
Definition avbt_s (a : abtv) : string := match abtv_string a with Some s => s | None => fmt_panic end.
(* uri.go:360-385 string.  The list of attributes has comma and no padding. *)
Definition uri_string (r : uri) : string :=
  if negb (uri_valid r) then badURI
  else
    let d := dn_string badBDN (u_dn r) in
    if negb (sf_isZero (u_filter r)) then
      d ++ "?" ++ join "," (map at_string (u_attrs r)) ++ "?" ++ scope_standard (u_scope r) ++ "?" ++ sf_string (u_filter r)
    else if negb (abtv_isZero (u_avbt r)) then d ++ "?" ++ avbt_s (u_avbt r)
    else d ++ "??" ++ scope_standard (u_scope r) ++ "?".

(* attr.go:200-205 atbtv.isZero *)
Definition pair_isZero (p : option pair_t) : bool :=
  match p with None => true | Some (None, SNil) => true | Some _ => false end.
(* uri.go:326-344 Keyword; None is nil *)
Definition uri_keyword (r : uri) : option N :=
  if negb (uri_valid r) then None
  else if negb (pair_isZero (ab_pair (u_avbt r))) then
    let kw := ab_kw (u_avbt r) in
    if ((kw =? BindUAT) || (kw =? BindGAT))%N then Some kw else None
  else match u_dn r with
       | Some d => if ((dn_kw d =? BindGDN) || (dn_kw d =? BindRDN) || (dn_kw d =? BindUDN))%N then Some (dn_kw d) else None
       | None => None
       end.
(* uri.go:246-288 makeBindRule: the keyword of the rule; None: no rule *)
Definition uri_rule_keyword (r : uri) : option N :=
  if negb (uri_valid r) then None
  else
    let kw := match u_dn r with Some d => if (dn_kw d =? BindGDN)%N then BindGDN else BindUDN | None => BindUDN end in
    Some (if negb (abtv_isZero (u_avbt r)) then (if (ab_kw (u_avbt r) =? BindUAT)%N then BindUAT else kw) else kw).
