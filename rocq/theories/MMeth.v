(* Model of the methods that make a rule out of a value (Eq, Ne, Lt, Le, Gt, Ge)
   and of the method tables (BRM, TRM) of /repo/{attr,dn,filter,levels,net,oid,
   scope,sec,time,uri}.go with BindRuleMethods (/repo/bind.go) and
   TargetRuleMethods (/repo/target.go).  Definitions only.

   A value becomes the expression of the rule as the text its String method
   gives.  Simplification: a value list is taken with its default quotation
   style; a chosen style belongs to the rule it was chosen for (MRule.v).
   MShare.v models the list and the rules made from it as they are. *)
From Coq Require Import String Ascii List PeanoNat NArith ZArith Bool.
From Verif Require Import GoStr Shifty MMisc MLists MAttr MLevels MSec MTime MNet MFilter MUri MRule MKw.
Import ListNotations.
Open Scope string_scope.

(* bind.go:239 bindRuleFuncMap, target.go: targetRuleFuncMap.  The methods are
   bound to the value, so each stands for the one rule it returns.  A Go map
   iterates in any order; the order of the list is the order of iteration. *)
Definition methods := list (N * rule).
(* m[k] *)
Fixpoint m_get (m : methods) (k : N) : option rule :=
  match m with
  | [] => None
  | (k', r) :: t => if (k' =? k)%N then Some r else m_get t k
  end.
(* bind.go:100-117 rangeBindRuleFuncMap, target.go:99-116 rangeTargetRuleFuncMap *)
Fixpoint range_methods (candidate : string) (m : methods) : N * option rule :=
  match m with
  | [] => (badCop, None)
  | (k, r) :: t =>
      if strInSliceFold candidate [cop_string k; cop_context k; cop_description k]
      then (k, Some r) else range_methods candidate t
  end.
(* bind.go:17-19, target.go:17-19: the nil pointer or a map *)
Definition table := option methods.
(* bind.go:25-32 newBindRuleMethods *)
Definition newBindRuleMethods (m : methods) : table := Some m.
(* target.go:24-35 newTargetRuleMethods *)
Definition newTargetRuleMethods (m : methods) : table :=
  if (List.length m =? 0)%nat then None else Some m.

(* bind.go:54-98 Index, index.  ComparisonOperator(tv) of an int is a conversion
   to uint8. *)
Definition brm_index_int (m : methods) (tv : Z) : N * option rule :=
  let c := Z.to_N (tv mod 256) in
  match m_get m c with Some r => (c, Some r) | None => (badCop, None) end.
Definition brm_index (t : table) (idx : oparg) : N * option rule :=
  match t with
  | None => (badCop, None)
  | Some m =>
      match idx with
      | OCop n => brm_index_int m (Z.of_N n)
      | OInt z => brm_index_int m z
      | OStr s => range_methods s m
      | OOther => (badCop, None)
      end
  end.
(* target.go:57-97 Index, index *)
Definition trm_index_int (m : methods) (tv : Z) : N * option rule :=
  if negb ((1 <=? tv) && (tv <=? 6))%Z then (badCop, None)
  else let c := Z.to_N (tv mod 256) in
       match m_get m c with Some r => (c, Some r) | None => (badCop, None) end.
Definition trm_index (t : table) (idx : oparg) : N * option rule :=
  match t with
  | None => (badCop, None)
  | Some m =>
      match idx with
      | OCop n => trm_index_int m (Z.of_N n)
      | OInt z => trm_index_int m z
      | OStr s => range_methods s m
      | OOther => (badCop, None)
      end
  end.
(* bind.go:179-182, target.go:123-126 Contains *)
Definition brm_contains (t : table) (cop : oparg) : bool := cop_valid (fst (brm_index t cop)).
Definition trm_contains (t : table) (cop : oparg) : bool := cop_valid (fst (trm_index t cop)).
(* bind.go:212-218, target.go:156-162 Len *)
Definition tab_len (t : table) : nat := match t with None => O | Some m => List.length m end.
(* bind.go:187-189, target.go:131-133 IsZero *)
Definition tab_isZero (t : table) : bool := match t with None => true | Some _ => false end.
(* bind.go:194-207, target.go:138-151 Valid: true, no error; None, the panic of
   calling a nil method *)
Definition brm_valid (t : table) : option bool :=
  match t with
  | None => Some false
  | Some _ => match snd (brm_index t (OCop Eq)) with None => None | Some r => Some (br_valid r) end
  end.
Definition trm_valid (t : table) : option bool :=
  match t with
  | None => Some false
  | Some _ => match snd (trm_index t (OCop Eq)) with None => None | Some r => Some (tr_valid r) end
  end.

(* bind.go:376-378, target.go:467-469 Operator; zero when none is set *)
Definition rule_operator (r : rule) : N :=
  match r with Some c => match c_op c with Some n => n | None => badCop end | None => badCop end.

Section Make.
Variable sh : shifty.       (* the bit library *)
Variable low : bool.        (* AuthenticationMethodLowerCase *)
Variable pad : bool.        (* RulePadding *)
Variable fmt_panic : string.

Definition btext (kw op : N) (s : string) : rule := BR pad (bkw_string kw) (OCop op) (Some (XText s)).
Definition ttext (kw op : N) (s : string) : rule := TR pad (KTarget kw) (OCop op) (Some (XText s)).

(* ---- attr.go: attr#value pairs ---- *)
(* Simplification: a value whose String method panics is held as [fmt_panic]. *)
Definition abtv_text (a : abtv) : string := match abtv_string a with Some s => s | None => fmt_panic end.
(* attr.go:149-154 Eq *)
Definition abtv_Eq (a : abtv) : rule :=
  if negb (pair_isZero (ab_pair a)) then btext (ab_kw a) Eq (abtv_text a) else None.
(* attr.go:161-166 Ne *)
Definition abtv_Ne (a : abtv) : rule :=
  if negb (pair_isZero (ab_pair a)) then btext (ab_kw a) Ne (abtv_text a) else None.
(* attr.go:177-182 BRM *)
Definition abtv_BRM (a : abtv) : table := newBindRuleMethods [(Eq, abtv_Eq a); (Ne, abtv_Ne a)].

(* ---- levels.go ---- *)
(* levels.go:84-95 Valid *)
Definition inh_valid (i : inheritance) : bool :=
  match i with None => false | Some x => if inh_isZero i then false else negb (abtv_isZero (in_abtv x)) end.
Definition inh_kw (i : inheritance) : N := match i with Some x => ab_kw (in_abtv x) | None => 0%N end.
(* levels.go:123-128 Eq, 135-140 Ne, 113-118 BRM *)
Definition inh_Eq (i : inheritance) : rule :=
  if inh_valid i then btext (inh_kw i) Eq (inh_string sh fmt_panic i) else None.
Definition inh_Ne (i : inheritance) : rule :=
  if inh_valid i then btext (inh_kw i) Ne (inh_string sh fmt_panic i) else None.
Definition inh_BRM (i : inheritance) : table := newBindRuleMethods [(Eq, inh_Eq i); (Ne, inh_Ne i)].

(* ---- net.go ---- *)
(* net.go:53-58 Eq, 65-70 Ne, 81-86 BRM *)
Definition ip_Eq (a : ipaddr) : rule := if negb (ipaddr_valid a) then None else btext BindIP Eq (ipaddr_string a).
Definition ip_Ne (a : ipaddr) : rule := if negb (ipaddr_valid a) then None else btext BindIP Ne (ipaddr_string a).
Definition ip_BRM (a : ipaddr) : table := newBindRuleMethods [(Eq, ip_Eq a); (Ne, ip_Ne a)].
(* net.go:408-413 Eq, 420-425 Ne, 436-441 BRM *)
Definition fqdn_Eq (f : fqdn) : rule := if negb (fqdn_valid f) then None else btext BindDNS Eq (fqdn_string f).
Definition fqdn_Ne (f : fqdn) : rule := if negb (fqdn_valid f) then None else btext BindDNS Ne (fqdn_string f).
Definition fqdn_BRM (f : fqdn) : table := newBindRuleMethods [(Eq, fqdn_Eq f); (Ne, fqdn_Ne f)].

(* ---- sec.go ---- *)
(* sec.go:61-66 Eq, 73-78 Ne, 51-56 BRM *)
Definition am_Eq (n : N) : rule := if (n =? noAuth)%N then None else btext BindAM Eq (auth_string low n).
Definition am_Ne (n : N) : rule := if (n =? noAuth)%N then None else btext BindAM Ne (auth_string low n).
Definition am_BRM (n : N) : table := newBindRuleMethods [(Eq, am_Eq n); (Ne, am_Ne n)].
(* sec.go:144-183 Eq, Ne, Lt, Le, Gt, Ge *)
Definition ssf_Eq (s : ssfv) : rule := btext BindSSF Eq (ssf_string s).
Definition ssf_Ne (s : ssfv) : rule := btext BindSSF Ne (ssf_string s).
Definition ssf_Lt (s : ssfv) : rule := btext BindSSF Lt (ssf_string s).
Definition ssf_Le (s : ssfv) : rule := btext BindSSF Le (ssf_string s).
Definition ssf_Gt (s : ssfv) : rule := btext BindSSF Gt (ssf_string s).
Definition ssf_Ge (s : ssfv) : rule := btext BindSSF Ge (ssf_string s).
(* sec.go:194-203 BRM *)
Definition ssf_BRM (s : ssfv) : table :=
  newBindRuleMethods [(Eq, ssf_Eq s); (Ne, ssf_Ne s); (Lt, ssf_Lt s); (Le, ssf_Le s); (Gt, ssf_Gt s); (Ge, ssf_Ge s)].

(* ---- time.go ---- *)
(* time.go:285-290 Eq, 297-302 Ne, 313-318 BRM *)
Definition dow_Eq (d : dow) : rule := if dow_valid sh d then btext BindDoW Eq (dow_string sh d) else None.
Definition dow_Ne (d : dow) : rule := if dow_valid sh d then btext BindDoW Ne (dow_string sh d) else None.
Definition dow_BRM (d : dow) : table := newBindRuleMethods [(Eq, dow_Eq d); (Ne, dow_Ne d)].
(* time.go:148-165 Weekdays, Weekend *)
Definition call_method (x : N * option rule) : rule :=
  if cop_valid (fst x) then match snd x with Some r => r | None => None end else None.
Definition Weekdays (cop : oparg) : rule :=
  call_method (brm_index (dow_BRM (DoW sh [DDay Mon; DDay Tues; DDay Wed; DDay Thur; DDay Fri])) cop).
Definition Weekend (cop : oparg) : rule :=
  call_method (brm_index (dow_BRM (DoW sh [DDay Sun; DDay Sat])) cop).
(* time.go:408-465 Eq, Ne, Lt, Le, Gt, Ge *)
Definition tod_Eq (t : tod) : rule := if negb (tod_valid t) then None else btext BindToD Eq (tod_string t).
Definition tod_Ne (t : tod) : rule := if negb (tod_valid t) then None else btext BindToD Ne (tod_string t).
Definition tod_Lt (t : tod) : rule := if negb (tod_valid t) then None else btext BindToD Lt (tod_string t).
Definition tod_Le (t : tod) : rule := if negb (tod_valid t) then None else btext BindToD Le (tod_string t).
Definition tod_Gt (t : tod) : rule := if negb (tod_valid t) then None else btext BindToD Gt (tod_string t).
Definition tod_Ge (t : tod) : rule := if negb (tod_valid t) then None else btext BindToD Ge (tod_string t).
(* time.go:476-485 BRM *)
Definition tod_BRM (t : tod) : table :=
  newBindRuleMethods [(Eq, tod_Eq t); (Ne, tod_Ne t); (Lt, tod_Lt t); (Le, tod_Le t); (Gt, tod_Gt t); (Ge, tod_Ge t)].

(* ---- uri.go ---- *)
(* uri.go:246-288 makeBindRule, 205-207 Eq, 223-225 Ne, 236-241 BRM.  MUri.v holds
   the keyword; the nil pointer (not made by the package) is left out there. *)
Definition uri_makeBindRule (u : uri) (negate : list bool) : rule :=
  match uri_rule_keyword u with
  | None => None
  | Some kw =>
      let oper := if match negate with b :: _ => b | [] => false end then Ne else Eq in
      btext kw oper (uri_string u)
  end.
Definition uri_Eq (u : uri) : rule := uri_makeBindRule u [].
Definition uri_Ne (u : uri) : rule := uri_makeBindRule u [true].
Definition uri_BRM (u : uri) : table := newBindRuleMethods [(Eq, uri_Eq u); (Ne, uri_Ne u)].

(* ---- dn.go ---- *)
(* the keyword a DN carries (dn.go:176-191) *)
Definition dn_keyword (d : dn) : N := match d with Some x => dn_kw x | None => 0%N end.
(* dn.go:834-860 bindDNToCondition through 809-832, one DN; 680-687 Eq, 714-721 Ne, 566-571 BRM *)
Definition bdn_cond (d : dn) (op : N) : rule :=
  if dn_isZero d then None else btext (dn_keyword d) op (dn_string badBDN d).
Definition bdn_Eq (d : dn) : rule := bdn_cond d Eq.
Definition bdn_Ne (d : dn) : rule := bdn_cond d Ne.
Definition bdn_BRM (d : dn) : table := newBindRuleMethods [(Eq, bdn_Eq d); (Ne, bdn_Ne d)].
(* dn.go:862-888 targetDNToCondition, one DN; 696-703 Eq, 732-739 Ne, 598-603 TRM *)
Definition tdn_cond (d : dn) (op : N) : rule :=
  if dn_isZero d then None else ttext (dn_keyword d) op (dn_string badTDN d).
Definition tdn_Eq (d : dn) : rule := tdn_cond d Eq.
Definition tdn_Ne (d : dn) : rule := tdn_cond d Ne.
Definition tdn_TRM (d : dn) : table := newTargetRuleMethods [(Eq, tdn_Eq d); (Ne, tdn_Ne d)].
(* a list: nil stack, or keyword (category) and members *)
Definition dlist := option (N * list dmember).
(* bindDNToCondition for a list; dn.go:748-755 Eq, 782-789 Ne, 582-587 BRM *)
Definition bdns_cond (l : dlist) (op : N) : rule :=
  match l with
  | None => None
  | Some (kw, m) => BR pad (bkw_string kw) (OCop op) (Some (XList LBindDN false (map (dmember_string badBDN) m)))
  end.
Definition bdns_Eq (l : dlist) : rule := bdns_cond l Eq.
Definition bdns_Ne (l : dlist) : rule := bdns_cond l Ne.
Definition bdns_BRM (l : dlist) : table := newBindRuleMethods [(Eq, bdns_Eq l); (Ne, bdns_Ne l)].
(* targetDNToCondition for a list; dn.go:764-771 Eq, 800-807 Ne, 614-619 TRM *)
Definition tdns_cond (l : dlist) (op : N) : rule :=
  match l with
  | None => None
  | Some (kw, m) => TR pad (KTarget kw) (OCop op) (Some (XList LTargetDN false (map (dmember_string badTDN) m)))
  end.
Definition tdns_Eq (l : dlist) : rule := tdns_cond l Eq.
Definition tdns_Ne (l : dlist) : rule := tdns_cond l Ne.
Definition tdns_TRM (l : dlist) : table := newTargetRuleMethods [(Eq, tdns_Eq l); (Ne, tdns_Ne l)].

(* ---- attr.go: attribute types ---- *)
(* attr.go:371-376 Eq, 383-388 Ne, 411-416 TRM *)
Definition at_Eq (a : attype) : rule := if negb (at_isZero a) then ttext TargetAttr Eq (at_string a) else None.
Definition at_Ne (a : attype) : rule := if negb (at_isZero a) then ttext TargetAttr Ne (at_string a) else None.
Definition at_TRM (a : attype) : table := newTargetRuleMethods [(Eq, at_Eq a); (Ne, at_Ne a)].
(* the lists made by TAs (for a rule) and UAs (for a URI), or the nil stack; the
   first component says that the category is "targetattr" *)
Definition alist := option (bool * list attype).
Definition ats_cond (l : alist) (op : N) : rule :=
  match l with
  | None => None
  | Some (_, m) => TR pad (KTarget TargetAttr) (OCop op) (Some (XList LAttrs false (map at_string m)))
  end.
(* attr.go:555-560 Eq, 567-573 Ne, 586-595 TRM with 657-662 Kind and 679-685 Keyword *)
Definition ats_Eq (l : alist) : rule := ats_cond l Eq.
Definition ats_Ne (l : alist) : rule := ats_cond l Ne.
Definition ats_TRM (l : alist) : table :=
  match l with
  | Some (true, _) => newTargetRuleMethods [(Eq, ats_Eq l); (Ne, ats_Ne l)]
  | _ => None
  end.

(* ---- oid.go ---- *)
(* oid.go:130-136 Eq, 143-149 Ne, 107-112 TRM *)
Definition oid_kwd (o : option oid) : N := match o with Some x => oid_kw x | None => 0%N end.
Definition oid_Eq (o : option oid) : rule := if oid_valid o then ttext (oid_kwd o) Eq (oid_string o) else None.
Definition oid_Ne (o : option oid) : rule := if oid_valid o then ttext (oid_kwd o) Ne (oid_string o) else None.
Definition oid_TRM (o : option oid) : table := newTargetRuleMethods [(Eq, oid_Eq o); (Ne, oid_Ne o)].
(* oid.go:656-669 Kind of a list: only the two keywords count *)
Definition ol_kind (l : olist) : string :=
  if ((ol_kw l =? TargetExtOp) || (ol_kw l =? TargetCtrl))%N%bool then tkw_string (ol_kw l) else "<uninitialized>".
(* oid.go:269-275 Valid, 624-629 Eq, 636-641 Ne, 252-257 TRM; None is the nil stack *)
Definition oids_text (l : olist) : option expr := Some (XList LOids false (map omember_text (ol_mem l))).
Definition oids_Eq (l : option olist) : rule :=
  match l with
  | None => None
  | Some x => if String.eqb (ol_kind x) "<uninitialized>" then None
              else TR pad (KStr (ol_kind x)) (OCop Eq) (oids_text x)
  end.
Definition oids_Ne (l : option olist) : rule :=
  match l with
  | None => None
  | Some x => TR pad (KStr (ol_kind x)) (OCop Ne) (oids_text x)
  end.
Definition oids_TRM (l : option olist) : table := newTargetRuleMethods [(Eq, oids_Eq l); (Ne, oids_Ne l)].

(* ---- filter.go ---- *)
(* filter.go:162-167 Eq, 174-179 Ne, 76-81 TRM *)
Definition sf_Eq (f : sfilter) : rule := if sf_isZero f then None else ttext TargetFilter Eq (sf_string f).
Definition sf_Ne (f : sfilter) : rule := if sf_isZero f then None else ttext TargetFilter Ne (sf_string f).
Definition sf_TRM (f : sfilter) : table := newTargetRuleMethods [(Eq, sf_Eq f); (Ne, sf_Ne f)].
(* filter.go:868-873 Eq, 882 Ne, 893-898 TRM; None is the nil stack *)
Definition afo_Eq (o : option afo) : rule :=
  match o with None => None | Some x => ttext TargetAttrFilters Eq (afo_string x) end.
Definition afo_Ne (_ : option afo) : rule := None.
Definition afo_TRM (o : option afo) : table := newTargetRuleMethods [(Eq, afo_Eq o); (Ne, afo_Ne o)].
(* filter.go:586-591 Eq, 600 Ne, 611-616 TRM; None is the nil stack *)
Definition afos_Eq (o : option afos) : rule :=
  match o with None => None | Some x => ttext TargetAttrFilters Eq (afos_string x) end.
Definition afos_Ne (_ : option afos) : rule := None.
Definition afos_TRM (o : option afos) : table := newTargetRuleMethods [(Eq, afos_Eq o); (Ne, afos_Ne o)].

(* ---- scope.go ---- *)
(* scope.go:89-94 Eq, 103 Ne, 121-125 TRM *)
Definition scope_Eq (n : N) : rule := if (n =? noScope)%N then None else ttext TargetScope Eq (scope_string n).
Definition scope_Ne (_ : N) : rule := None.
Definition scope_TRM (n : N) : table := newTargetRuleMethods [(Eq, scope_Eq n)].
End Make.
