(* Kind and ID of values and lists.  Definitions only. *)
From Coq Require Import String List NArith Bool.
From Verif Require Import GoStr MKw MAttr MLists MFilter MNet MUri MMeth MInfo MAci.
Import ListNotations.
Open Scope string_scope.

(* oid.go:91-96 Kind of an identifier *)
Definition oid_Kind (o : option oid) : string :=
  if oid_valid o then tkw_string (oid_kwd o) else "<uninitialized>".
(* oid.go:656-669 Kind of a list of identifiers; None is the nil stack *)
Definition oids_Kind (l : option olist) : string :=
  match l with None => "<uninitialized>" | Some x => ol_kind x end.
(* attr.go:657-662 Kind of a list of attribute types: the category its constructor
   gave it (attr.go:794-830 TAs, UAs).  resetKeyword (attr.go:528-550) would change
   it, but nothing calls that method. *)
Definition ats_Kind (l : alist) : string :=
  match l with
  | None => "<uninitialized>"
  | Some (true, _) => tkw_string TargetAttr
  | Some (false, _) => "<uri_search_attributes>"
  end.
(* attr.go:668-674, oid.go:269-275 Valid: true is a nil error *)
Definition ats_Valid (l : alist) : bool := negb (String.eqb (ats_Kind l) "<uninitialized>").
Definition oids_Valid (l : option olist) : bool := negb (String.eqb (oids_Kind l) "<uninitialized>").
(* uri.go:349-355 Kind of an LDAP URI; uri.go:326-328: the nil URI has no keyword *)
Definition luri_Keyword (u : option uri) : option N := match u with None => None | Some u => uri_keyword u end.
Definition luri_Kind (u : option uri) : string :=
  match luri_Keyword u with None => "" | Some k => bkw_string k end.
(* net.go:115-117 *)
Definition ip_Kind (_ : ipaddr) : string := bkw_string BindIP.
(* filter.go:572-574, 830-836 *)
Definition afos_Kind (_ : option afos) : string := tkw_string TargetAttrFilters.
Definition afo_Kind (_ : option afo) : string := tkw_string TargetAttrFilters.
(* attr.go:393 *)
Definition at_Kind (_ : attype) : string := "".
(* dn.go:210-219 Kind of a name, 624-633 ID of a list of names: the side of the
   instruction they belong to *)
Definition bdn_Kind (_ : dn) : string := "bind".
Definition tdn_Kind (_ : dn) : string := "target".
Definition bdns_ID (_ : dlist) : string := "bind".
Definition tdns_ID (_ : dlist) : string := "target".
(* oid.go:646-651 ID of a list of identifiers; oid.go:560, 596 SetID *)
Definition oids_ID (l : option olist) : string := match l with None => "" | Some _ => "target" end.
