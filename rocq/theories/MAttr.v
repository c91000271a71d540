(* Model of /repo/attr.go (attribute types, values and attr#value pairs).
   AttributeTypes lists are in MLists.v.  Definitions only. *)
From Coq Require Import String Ascii List PeanoNat NArith ZArith Bool.
From Verif Require Import GoStr MMisc MKw.
Import ListNotations.
Open Scope string_scope.

(* attr.go:357-359, 475-477: a struct with a string pointer; None is nil *)
Definition attype := option string.
Definition atvalue := option string.
Definition badAT : string := "<invalid_attribute_type>".
Definition badAV : string := "<invalid_attribute_value>".

(* attr.go:421-427 AT *)
Definition AT (x : string) : attype :=
  if isIdentifier x || String.eqb x "*" then Some x else None.
(* attr.go:432-439 AttributeType.String *)
Definition at_string (a : attype) : string := match a with Some s => s | None => badAT end.
(* attr.go:465-470 AttributeType.IsZero *)
Definition at_isZero (a : attype) : bool :=
  match a with Some s => (String.length s =? 0)%nat | None => true end.
(* attr.go:489-494 AV, 499-506 AttributeValue.String *)
Definition AV (x : string) : atvalue := if (0 <? String.length x)%nat then Some x else None.
Definition av_string (a : atvalue) : string := match a with Some s => s | None => badAV end.

(* attr.go:66 atbtv [2]any: first slot nil or an AttributeType, second slot nil,
   an AttributeValue or a BindType *)
Inductive second := SNil | SAV (v : atvalue) | SBT (n : N).
Definition pair_t : Type := option attype * second.
(* attr.go:54-57 AttributeBindTypeOrValue; ab_pair None is the nil pointer *)
Record abtv := MkABTV { ab_kw : N; ab_pair : option pair_t }.
Definition abtv_zero : abtv := MkABTV 0 None.

(* attr.go:72-78 IsZero *)
Definition abtv_isZero (a : abtv) : bool :=
  match ab_pair a with None => true | Some _ => (ab_kw a =? 0)%N end.

Inductive abarg := BAT (a : attype) | BAV (v : atvalue) | BBT (n : N) | BStr (s : string) | BOther.

(* attr.go:250-269 one step of atbtv.set *)
Definition pair_set1 (r : pair_t) (x : abarg) : pair_t :=
  let '(r0, r1) := r in
  match x with
  | BAT a => (match r0 with None => Some a | Some _ => r0 end, r1)
  | BAV v => (r0, match r1 with SNil => SAV v | _ => r1 end)
  | BBT n => (r0, match r1 with SNil => SBT n | _ => r1 end)
  | BStr s =>
      match r0 with
      | None => (Some (AT s), r1)
      | Some _ => (r0, if (matchBT s =? 0)%N then SAV (AV s) else SBT (matchBT s))
      end
  | BOther => r
  end.
(* attr.go:248-271 set *)
Definition pair_set (r : pair_t) (x : list abarg) : pair_t := fold_left pair_set1 x r.
Definition pair_nil : pair_t := (None, SNil).

(* attr.go:123-133 userOrGroupAttr, 93-118 ABTV, UAT, GAT *)
Definition userOrGroupAttr (t : N) (x : list abarg) : abtv := MkABTV t (Some (pair_set pair_nil x)).
Definition ABTV (kw : N) (x : list abarg) : abtv :=
  if (kw =? BindUAT)%N || (kw =? BindGAT)%N then userOrGroupAttr kw x else abtv_zero.
Definition UAT (x : list abarg) : abtv := userOrGroupAttr BindUAT x.
Definition GAT (x : list abarg) : abtv := userOrGroupAttr BindGAT x.

(* attr.go:138-144 Set *)
Definition abtv_set (r : abtv) (x : list abarg) : abtv :=
  let p := if abtv_isZero r then pair_nil else match ab_pair r with Some p => p | None => pair_nil end in
  MkABTV (ab_kw r) (Some (pair_set p x)).

(* attr.go:187-195 Keyword *)
Definition abtv_keyword (r : abtv) : N := if (ab_kw r =? BindGAT)%N then BindGAT else BindUAT.

(* attr.go:210-241 atbtv.String; None is the panic of dereferencing a nil
   string pointer *)
Definition pair_string (r : pair_t) : option string :=
  match r with
  | (None, _) => Some ""
  | (Some a, SNil) => Some ""
  | (Some a, SBT n) => if (n =? 0)%N then Some "" else Some (at_string a ++ "#" ++ bt_string n)
  | (Some a, SAV None) => None
  | (Some a, SAV (Some v)) =>
      if (String.length v =? 0)%nat then Some "" else Some (at_string a ++ "#" ++ v)
  end.
(* attr.go:277-283 String *)
Definition abtv_string (r : abtv) : option string :=
  match ab_pair r with None => Some badAV | Some p => pair_string p end.

(* attr.go:321-352 parseATBTV; None: error *)
Definition parseATBTV (x : string) (bkw : list (option N)) : option abtv :=
  match idx "#" x with
  | None => None
  | Some i =>
      let kw := assertATBTVBindKeyword bkw in
      let at_ := AT (stake i x) in
      let rest := sdrop (i + 1) x in
      let av := AV rest in
      if String.eqb (at_string at_) badAT then None
      else if negb (matchBT rest =? 0)%N then Some (userOrGroupAttr kw [BAT at_; BBT (matchBT rest)])
      else Some (userOrGroupAttr kw [BAT at_; BAV av])
  end.
(* attr.go:290-298 Parse hands its keyword arguments on as one slice, which is
   not a BindKeyword *)
Definition abtv_parse (raw : string) (bkw : list (option N)) : option abtv :=
  parseATBTV raw [None].
