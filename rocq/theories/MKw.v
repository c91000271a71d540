(* Model of /repo/kw.go and /repo/cop.go. Definitions only. *)
From Coq Require Import String Ascii List PeanoNat NArith ZArith Bool.
From Verif Require Import GoStr MMisc.
Import ListNotations.
Open Scope string_scope.

(* kw.go:29,34,45: BindKeyword, TargetKeyword, BindType are uint8; here N. *)
(* kw.go:59-66 BindType constants *)
Definition USERDN : N := 1.
Definition GROUPDN : N := 2.
Definition ROLEDN : N := 3.
Definition SELFDN : N := 4.
Definition LDAPURL : N := 5.
(* kw.go:71-84 BindKeyword constants *)
Definition BindUDN : N := 1.
Definition BindRDN : N := 2.
Definition BindGDN : N := 3.
Definition BindUAT : N := 4.
Definition BindGAT : N := 5.
Definition BindIP : N := 6.
Definition BindDNS : N := 7.
Definition BindDoW : N := 8.
Definition BindToD : N := 9.
Definition BindAM : N := 10.
Definition BindSSF : N := 11.
(* kw.go:89-100 TargetKeyword constants *)
Definition Target : N := 1.
Definition TargetTo : N := 2.
Definition TargetAttr : N := 3.
Definition TargetCtrl : N := 4.
Definition TargetFrom : N := 5.
Definition TargetScope : N := 6.
Definition TargetFilter : N := 7.
Definition TargetAttrFilters : N := 8.
Definition TargetExtOp : N := 9.

(* kw.go:206-218 bkwMap *)
Definition bkwMap : list (N * string) :=
  [ (BindUDN, "userdn"); (BindRDN, "roledn"); (BindGDN, "groupdn");
    (BindUAT, "userattr"); (BindGAT, "groupattr"); (BindIP, "ip");
    (BindDNS, "dns"); (BindDoW, "dayofweek"); (BindToD, "timeofday");
    (BindAM, "authmethod"); (BindSSF, "ssf") ].
(* kw.go:221-231 tkwMap *)
Definition tkwMap : list (N * string) :=
  [ (Target, "target"); (TargetTo, "target_to"); (TargetAttr, "targetattr");
    (TargetCtrl, "targetcontrol"); (TargetFrom, "target_from");
    (TargetScope, "targetscope"); (TargetFilter, "targetfilter");
    (TargetAttrFilters, "targattrfilters"); (TargetExtOp, "extop") ].
(* kw.go:234-240 btMap *)
Definition btMap : list (N * string) :=
  [ (USERDN, "USERDN"); (ROLEDN, "ROLEDN"); (SELFDN, "SELFDN");
    (GROUPDN, "GROUPDN"); (LDAPURL, "LDAPURL") ].

(* m[k] *)
Fixpoint tbl_get (t : list (N * string)) (k : N) : option string :=
  match t with
  | [] => None
  | (k', v) :: r => if (k' =? k)%N then Some v else tbl_get r k
  end.

(* kw.go:105-111, 130-147 String methods *)
Definition bt_string (r : N) : string :=
  match tbl_get btMap r with Some s => s | None => "<invalid_bind_type>" end.
Definition bkw_string (r : N) : string :=
  match tbl_get bkwMap r with Some s => s | None => "<invalid_bind_keyword>" end.
Definition tkw_string (r : N) : string :=
  match tbl_get tkwMap r with Some s => s | None => "<invalid_target_keyword>" end.

(* kw.go:168-202 the three matchers share this loop: range over the map in the
   order given by the list [t] and return the first key whose name folds equal;
   zero when there is none.  Go's order is random, so theorems quantify over
   every permutation [t] of the table. *)
Fixpoint tbl_match (t : list (N * string)) (kw : string) : N :=
  match t with
  | [] => 0%N
  | (k, v) :: r => if eqfold kw v then k else tbl_match r kw
  end.
Definition matchTKW (kw : string) : N := tbl_match tkwMap kw.
Definition matchBKW (kw : string) : N := tbl_match bkwMap kw.
Definition matchBT (kw : string) : N := tbl_match btMap kw.

(* kw.go:149-163 assertATBTVBindKeyword; an argument is a BindKeyword (Some k)
   or a value of another type (None) *)
Definition assertATBTVBindKeyword (bkw : list (option N)) : N :=
  match bkw with
  | Some k :: _ => if (k =? BindGAT)%N then k else BindUAT
  | _ => BindUAT
  end.

(* stackage.go:23-32 ComparisonOperator constants *)
Definition badCop : N := 0.
Definition Eq : N := 1.
Definition Ne : N := 2.
Definition Lt : N := 3.
Definition Gt : N := 4.
Definition Le : N := 5.
Definition Ge : N := 6.

(* cop.go:22-24 String, delegated to go-stackage; texts as in the project's tests *)
Definition cop_string (r : N) : string :=
  if (r =? Eq)%N then "=" else if (r =? Ne)%N then "!="
  else if (r =? Lt)%N then "<" else if (r =? Gt)%N then ">"
  else if (r =? Le)%N then "<=" else if (r =? Ge)%N then ">="
  else "<invalid_operator>".
(* cop.go:35-52 Context *)
Definition cop_context (r : N) : string :=
  if (r =? Eq)%N then "Eq" else if (r =? Ne)%N then "Ne"
  else if (r =? Lt)%N then "Lt" else if (r =? Le)%N then "Le"
  else if (r =? Gt)%N then "Gt" else if (r =? Ge)%N then "Ge"
  else cop_string r.
(* cop.go:69-86 Description *)
Definition cop_description (r : N) : string :=
  if (r =? Eq)%N then "Equal To" else if (r =? Ne)%N then "Not Equal To"
  else if (r =? Lt)%N then "Less Than" else if (r =? Le)%N then "Less Than Or Equal"
  else if (r =? Gt)%N then "Greater Than" else if (r =? Ge)%N then "Greater Than Or Equal"
  else cop_string r.

(* cop.go:126-128 isValidCopNumeral, 91-97 Valid *)
Definition isValidCopNumeral (x : Z) : bool := ((1 <=? x) && (x <=? 6))%Z.
Definition cop_valid (r : N) : bool := isValidCopNumeral (Z.of_N r).

(* cop.go:236-243 the values of comparisonOperatorMap *)
Definition copTable : list N := [Eq; Ne; Lt; Le; Gt; Ge].

(* cop.go:175-187 matchCOP, ranging over the map in the order of [t] *)
Fixpoint cop_match (t : list N) (op : string) : N :=
  match t with
  | [] => badCop
  | v :: r =>
      if strInSliceFold op [cop_string v; cop_context v; cop_description v]
      then v else cop_match r op
  end.
Definition matchCOP (op : string) : N := cop_match copTable op.

(* argument of type any that may carry an operator *)
Inductive oparg := OStr (s : string) | OCop (n : N) | OInt (z : Z) | OOther.

(* cop.go:104-119 ComparisonOperator.Compare *)
Definition cop_compare (r : N) (x : oparg) : bool :=
  match x with
  | OCop n => (n =? r)%N
  | OInt z => (z =? Z.of_N r)%Z
  | OStr s => strInSliceFold s [cop_description r; cop_context r; cop_string r]
  | OOther => false
  end.

(* cop.go:247-257 permittedTargetComparisonOperators *)
Definition permittedTarget : list (N * list N) :=
  [ (Target, [Eq; Ne]); (TargetTo, [Eq; Ne]); (TargetFrom, [Eq; Ne]);
    (TargetCtrl, [Eq; Ne]); (TargetAttr, [Eq; Ne]); (TargetExtOp, [Eq; Ne]);
    (TargetScope, [Eq]); (TargetFilter, [Eq; Ne]); (TargetAttrFilters, [Eq]) ].
(* cop.go:261-273 permittedBindComparisonOperators *)
Definition permittedBind : list (N * list N) :=
  [ (BindUDN, [Eq; Ne]); (BindRDN, [Eq; Ne]); (BindGDN, [Eq; Ne]);
    (BindIP, [Eq; Ne]); (BindAM, [Eq; Ne]); (BindDNS, [Eq; Ne]);
    (BindUAT, [Eq; Ne]); (BindGAT, [Eq; Ne]); (BindDoW, [Eq; Ne]);
    (BindSSF, [Eq; Ne; Lt; Le; Gt; Ge]); (BindToD, [Eq; Ne; Lt; Le; Gt; Ge]) ].

Fixpoint ops_get (t : list (N * list N)) (k : N) : list N :=
  match t with
  | [] => []
  | (k', v) :: r => if (k' =? k)%N then v else ops_get r k
  end.
Definition op_in (cop : N) (l : list N) : bool := existsb (N.eqb cop) l.

(* cop.go:192-233 bind/targetKeywordAllowsComparisonOperator *)
Definition bindKeywordAllows (key cop : N) : bool := op_in cop (ops_get permittedBind key).
Definition targetKeywordAllows (key cop : N) : bool := op_in cop (ops_get permittedTarget key).

(* keyword argument of type any *)
Inductive kwarg := KStr (s : string) | KBind (n : N) | KTarget (n : N) | KOther.

(* cop.go:135-168 keywordAllowsComparisonOperator *)
Definition keywordAllowsComparisonOperator (kw : kwarg) (op : oparg) : bool :=
  let go (cop : N) :=
    match kw with
    | KStr s =>
        if negb (matchBKW s =? 0)%N then bindKeywordAllows (matchBKW s) cop
        else if negb (matchTKW s =? 0)%N then targetKeywordAllows (matchTKW s) cop
        else false
    | KBind k => bindKeywordAllows k cop
    | KTarget k => targetKeywordAllows k cop
    | KOther => false
    end in
  match op with
  | OStr s => go (matchCOP s)
  | OCop n => go n
  | OInt z => go (Z.to_N (z mod 256))  (* ComparisonOperator(int): uint8 conversion *)
  | OOther => false
  end.
