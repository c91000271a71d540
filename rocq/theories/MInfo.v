(* Model of what a value tells about itself: Compare and Hash (/repo/misc.go and
   one method per type), Keyword, F, IsZero, Valid and Len, and the constructors
   of object identifiers with several arguments (/repo/oid.go).  Definitions only. *)
From Coq Require Import String Ascii List PeanoNat NArith ZArith Bool.
From Verif Require Import GoStr Shifty MMisc MLists MAttr MLevels MSec MTime MNet MFilter MUri MRule MKw MRights
  MConv MTree MAci MMeth.
Import ListNotations.
Open Scope string_scope.

(* ---------------- Hash and Compare ---------------- *)
(* fmt's %x of a byte array: two lower case digits for each byte *)
Definition hex_digit (n : N) : ascii := if (n <? 10)%N then ascii_of_N (48 + n) else ascii_of_N (87 + n).
Fixpoint hex (s : string) : string :=
  match s with
  | EmptyString => EmptyString
  | String c t => String (hex_digit (N_of_ascii c / 16)) (String (hex_digit (N_of_ascii c mod 16)) (hex t))
  end.

(* The arguments of Hash and of a Compare method: the types of the package, a
   string, a value of another type with a String method, and one without.  None
   (PNil) in a component is the zero value of a type that holds a pointer. *)
Inductive gval :=
| GStr (s : string)
| GRight (n : N) | GPerm (p : permission)
| GLevel (n : N) | GInh (i : inheritance)
| GDay (n : N) | GDow (d : dow) | GTod (t : tod)
| GAuth (n : N) | GSsf (s : ssfv) | GScope (n : N)
| GIP (a : ipaddr) | GFqdn (f : fqdn)
| GBdn (d : dn) | GTdn (d : dn) | GBdns (l : dlist) | GTdns (l : dlist)
| GOid (o : option oid) | GOids (l : option olist)
| GAt (a : attype) | GAv (v : atvalue) | GAts (l : alist) | GAbtv (a : abtv)
| GSf (f : sfilter) | GAf (f : afilter) | GAfo (o : option afo) | GAfos (o : option afos)
| GUri (u : option uri)
| GBr (r : rule) | GBrs (t : option tree) | GTr (r : rule) | GTrs (l : option (list rule))
| GPbr (r : pbr) | GPbrs (l : option (list pbr)) | GIns (i : instruction) | GInss (l : option (list instruction))
| GCop (n : N) | GBkw (n : N) | GTkw (n : N)
| GStringer (s : string) | GNone.

Section Compare.
Variable W : world.
Let sh : shifty := e_shifty (w_env W).

(* a pointer type: the String method, unless the value is the zero value *)
Definition of_ptr {A} (f : A -> string) (o : option A) : hashable :=
  HInst (match o with Some a => Some (f a) | None => None end).
(* a numeric type: likewise, 0 is the zero value *)
Definition of_num (f : N -> string) (n : N) : hashable := HInst (if (n =? 0)%N then None else Some (f n)).

(* misc.go:273-319 hashInstance, getStringFunc: what is hashed of the argument.
   None is the panic of its String method (attr.go:210-241).  A list is taken with
   its default quotation style, the operators and keywords are printed as kw.go and
   cop.go do. *)
Definition gtext (x : gval) : option hashable :=
  match x with
  | GStr s => Some (HStr s)
  | GRight n => Some (of_num right_string n)
  | GPerm p => Some (HInst (match p with PNil => None | PSome _ _ => Some (perm_string sh p) end))
  | GLevel n => Some (of_num (lvl_string levelNumbers) n)
  | GInh i => Some (of_ptr (fun v => inh_string sh fmt_panic (Some v)) i)
  | GDay n => Some (of_num day_string n)
  | GDow d => Some (of_ptr (fun v => dow_string sh (Some v)) d)
  | GTod t => Some (of_ptr (fun v => tod_string (Some v)) t)
  | GAuth n => Some (of_num (auth_string (e_low (w_env W))) n)
  | GSsf s => Some (of_ptr (fun v => ssf_string (Some v)) s)
  | GScope n => Some (of_num scope_string n)
  | GIP a => Some (of_ptr (fun v => ipaddr_string (Some v)) a)
  | GFqdn f => Some (of_ptr (fun v => fqdn_string (Some v)) f)
  | GBdn d => Some (of_ptr (fun v => dn_string badBDN (Some v)) d)
  | GTdn d => Some (of_ptr (fun v => dn_string badTDN (Some v)) d)
  | GBdns l => Some (of_ptr (fun v : N * list dmember => list_text false (map (dmember_string badBDN) (snd v))) l)
  | GTdns l => Some (of_ptr (fun v : N * list dmember => list_text false (map (dmember_string badTDN) (snd v))) l)
  | GOid o => Some (of_ptr (fun v => oid_string (Some v)) o)
  | GOids l => Some (of_ptr (fun v => list_text false (map omember_text (ol_mem v))) l)
  | GAt a => Some (of_ptr (fun v => at_string (Some v)) a)
  | GAv v => Some (of_ptr (fun v => av_string (Some v)) v)
  | GAts l => Some (of_ptr (fun v : bool * list attype =>
                join (if fst v then " || " else ",") (map at_string (snd v))) l)
  | GAbtv a =>
      if ((ab_kw a =? 0)%N && match ab_pair a with None => true | Some _ => false end)%bool then Some (HInst None)
      else match abtv_string a with Some s => Some (HInst (Some s)) | None => None end
  | GSf f => Some (of_ptr (fun v => sf_string (Some v)) f)
  | GAf f => Some (of_ptr (fun v => af_string (Some v)) f)
  | GAfo o => Some (of_ptr afo_string o)
  | GAfos o => Some (of_ptr afos_string o)
  | GUri u => Some (of_ptr uri_string u)
  | GBr r => Some (of_ptr (fun c => br_string (Some c)) r)
  | GBrs t => Some (of_ptr (brs_string (w_topnot W) (w_notsep W)) t)
  | GTr r => Some (of_ptr (fun c => tr_string (Some c)) r)
  | GTrs l => Some (of_ptr (trs_string false) l)
  | GPbr r => Some (of_ptr (fun x => pbr_string W (Some x)) r)
  | GPbrs l => Some (of_ptr (pbrs_string W) l)
  | GIns i => Some (of_ptr (fun x => ins_string W (Some x)) i)
  | GInss l => Some (of_ptr (inss_string W) l)
  | GCop n => Some (of_num cop_string n)
  | GBkw n => Some (of_num bkw_string n)
  | GTkw n => Some (of_num tkw_string n)
  | GStringer s => Some (HInst (Some s))
  | GNone => Some (HInst None)
  end.

Variable sha1 : string -> string.       (* crypto/sha1, arbitrary *)
(* misc.go:288 *)
Definition digest (s : string) : string := uc (hex (sha1 s)).
(* misc.go:246-248 Hash; None is the panic of a String method, Some None an error *)
Definition ghash (x : gval) : option (option string) :=
  match gtext x with Some h => Some (hashInstance digest h) | None => None end.
(* The Compare methods, all alike: attr.go:84,364,482,520, bind.go:260,399,
   dn.go:145,231,546,553, filter.go:131,271,411,685, levels.go:100,302, net.go:46,91,
   oid.go:62,309, pb.go:162,233, rights.go:151,210, scope.go:139, sec.go:97,218,
   target.go:278,495, time.go:260,348,490, uri.go:482; misc.go:250-261.  None is the
   panic of a String method; the argument's method is reached only if the receiver
   has a hash. *)
Definition gcompare (r x : gval) : option bool :=
  match gtext r with
  | None => None
  | Some rt =>
      match hashInstance digest rt with
      | None => Some false
      | Some _ => match gtext x with None => None | Some xt => Some (compareHashInstance digest rt xt) end
      end
  end.
End Compare.

(* ---------------- Keyword ---------------- *)
(* None is nil *)
(* dn.go:176-191 *)
Definition dn_Keyword (d : dn) : option N := if dn_isZero d then None else Some (dn_keyword d).
(* levels.go:238-250 *)
Definition inh_Keyword (i : inheritance) : option N :=
  if inh_valid i then (if ((inh_kw i =? BindGAT) || (inh_kw i =? BindUAT))%N%bool then Some (inh_kw i) else None) else None.
(* oid.go:81-86 *)
Definition oid_Keyword (o : option oid) : option N := if oid_valid o then Some (oid_kwd o) else None.
(* The category of a list is the text of its keyword (dn.go:485-541, oid.go:554-619). *)
(* dn.go:1044-1059, 1080-1095 Keyword of a list of names *)
Definition bdns_Keyword (l : dlist) : option N :=
  match l with
  | None => None
  | Some (kw, _) =>
      let k := lc (bkw_string kw) in
      if String.eqb k (bkw_string BindUDN) then Some BindUDN
      else if String.eqb k (bkw_string BindGDN) then Some BindGDN
      else if String.eqb k (bkw_string BindRDN) then Some BindRDN
      else None
  end.
Definition tdns_Keyword (l : dlist) : option N :=
  match l with
  | None => None
  | Some (kw, _) =>
      let k := lc (tkw_string kw) in
      if String.eqb k (tkw_string Target) then Some Target
      else if String.eqb k (tkw_string TargetTo) then Some TargetTo
      else if String.eqb k (tkw_string TargetFrom) then Some TargetFrom
      else None
  end.
(* oid.go:334-341 Keyword of a list of identifiers; 0 rather than nil *)
Definition oids_Keyword (l : option olist) : N :=
  match l with None => 0%N | Some x => matchTKW (ol_kind x) end.
(* attr.go:657-662 Kind, 679-685 Keyword of a list of attribute types: a list made
   for a URI says targetfilter.  The nil stack has the category "". *)
Definition ats_Keyword (l : alist) : N :=
  match l with
  | None => matchTKW "<uninitialized>"
  | Some (true, _) => matchTKW (tkw_string TargetAttr)
  | Some (false, _) => TargetFilter
  end.
(* The constant ones: net.go:39-41, 108-110, sec.go:126-128, time.go:123-125,
   401-403, filter.go:111-113, 309-311, 404-406, 749-751, scope.go:108-110; attr.go:398 *)
Definition fqdn_Keyword (_ : fqdn) : N := BindDNS.
Definition ip_Keyword (_ : ipaddr) : N := BindIP.
Definition ssf_Keyword (_ : ssfv) : N := BindSSF.
Definition dow_Keyword (_ : dow) : N := BindDoW.
Definition tod_Keyword (_ : tod) : N := BindToD.
Definition sf_Keyword (_ : sfilter) : N := TargetFilter.
Definition af_Keyword (_ : afilter) : N := TargetAttrFilters.
Definition afo_Keyword (_ : option afo) : N := TargetAttrFilters.
Definition afos_Keyword (_ : option afos) : N := TargetAttrFilters.
Definition scope_Keyword (_ : N) : N := TargetScope.
Definition at_Keyword (_ : attype) : option N := None.

(* ---------------- object identifiers ---------------- *)
Section Oid.
Variable dotnot : string -> option string.
(* an argument of OID, Ctrl and ExtOp *)
Inductive oidarg := IAStr (s : string) | IAOid (o : option oid) | IAOther.
(* oid.go:212-224 set: the notation and whether err is set, after one argument.  What
   NewDotNotation returns beside an error is not relied upon. *)
Definition oid_set1 (st : option string * bool) (x : oidarg) : option string * bool :=
  match x with
  | IAStr s => match dotnot s with Some t => (Some t, false) | None => (None, true) end
  | IAOid o =>
      if oid_valid o
      then match dotnot (oid_string o) with Some t => (Some t, false) | None => (None, true) end
      else (fst st, true)
  | IAOther => st
  end.
(* oid.go:229-236 newObjectID, its first result *)
Definition newOID (kw : N) (xs : list oidarg) : option oid :=
  let '(d, err) := fold_left oid_set1 xs (None, false) in
  if err then Some (MkOID 0 d) else Some (MkOID kw d).
(* oid.go:184-207 *)
Definition OID (x : oidarg) (kw : N) : option oid := newOID kw [x].
Definition Ctrl (xs : list oidarg) : option oid := newOID TargetCtrl xs.
Definition ExtOp (xs : list oidarg) : option oid := newOID TargetExtOp xs.

(* ---------------- F ---------------- *)
(* dn.go:1066-1075, 1102-1111 *)
Definition bdns_F (l : dlist) : string -> dn :=
  match bdns_Keyword l with
  | Some k => if (k =? BindGDN)%N then GDN else if (k =? BindRDN)%N then RDN else UDN
  | None => UDN
  end.
Definition tdns_F (l : dlist) : string -> dn :=
  match tdns_Keyword l with
  | Some k => if (k =? TargetTo)%N then TTDN else if (k =? TargetFrom)%N then TFDN else TDN
  | None => TDN
  end.
(* oid.go:475-482 *)
Definition oids_F (l : option olist) : list oidarg -> option oid :=
  if (oids_Keyword l =? TargetExtOp)%N then ExtOp else Ctrl.
(* attr.go:513-515 *)
Definition ats_F (_ : alist) : string -> attype := AT.
(* filter.go:397-399, 742-744; ins.go:213-215 *)
Definition afos_F (_ : option afos) : list aoarg -> afo := AFO.
Definition afo_F (_ : option afo) : list farg -> afilter := AF.
Definition inss_F (W : world) (_ : list instruction) : list iarg -> instruction := ACI W.
End Oid.

(* ---------------- IsZero, Valid, Len ---------------- *)
(* dn.go:133-171 Valid, 300-310 IsZero, 261-266, 289-294 Len *)
Definition dn_valid (d : dn) : bool := negb (dn_isZero d).
Definition dn_Len (d : dn) : nat := if dn_valid d then 1 else 0.
(* oid.go:117-125 IsZero, 69-74 Len *)
Definition oid_isZero (o : option oid) : bool := negb (oid_valid o).
Definition oid_Len (o : option oid) : nat := if oid_valid o then 1 else 0.
(* attr.go:454-460 Valid, 444-449 Len; 303-310 Valid *)
Definition at_valid (a : attype) : bool := negb (at_isZero a).
Definition at_Len (a : attype) : nat := if at_valid a then 1 else 0.
Definition abtv_valid (a : abtv) : bool := negb (abtv_isZero a).
(* filter.go:48-55 *)
Definition sf_valid (f : sfilter) : bool := negb (sf_isZero f).
(* sec.go:133-139 IsZero, 227 Valid *)
Definition ssf_isZero (s : ssfv) : bool := match s with Some (Some _) => false | _ => true end.
Definition ssf_valid (_ : ssfv) : bool := true.
(* time.go:232-234, 525-527 IsZero; net.go:188-194, 446-448 IsZero *)
Definition dow_isZero (d : dow) : bool := match d with None => true | Some _ => false end.
Definition tod_isZero (t : tod) : bool := match t with None => true | Some _ => false end.
Definition ip_isZero (a : ipaddr) : bool := match a with None => true | Some _ => false end.
Definition fqdn_isZero (f : fqdn) : bool := match f with None => true | Some _ => false end.
(* uri.go:293-302 IsZero, 390-395 Valid, 78-80 Len *)
Definition luri_isZero (u : option uri) : bool := match u with None => true | Some _ => false end.
Definition luri_valid (u : option uri) : bool := match u with None => false | Some x => uri_valid x end.
Definition luri_Len (_ : option uri) : nat := 0.
(* bind.go:276-281, target.go:261-266 Len; bind.go:390-392, target.go:481-483 IsZero *)
Definition rule_isZero (r : rule) : bool := match r with None => true | Some _ => false end.
Definition rule_Len (r : rule) : nat := if rule_isZero r then 0 else 1.
(* ins.go:281-287 IsZero *)
Definition ins_isZero (i : instruction) : bool := match i with None => true | Some _ => false end.
