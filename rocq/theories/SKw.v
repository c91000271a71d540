(* Specification for C17: the documented keywords and operators. *)
From Coq Require Import String Ascii List NArith ZArith Bool.
From Verif Require Import GoStr.
Import ListNotations.
Open Scope string_scope.

Inductive bindkw := UserDN | RoleDN | GroupDN | UserAttr | GroupAttr | IPAddr | DNSName
                  | DayOfWeek | TimeOfDay | AuthMethod | StrengthFactor.
Definition bindkw_name (k : bindkw) : string :=
  match k with
  | UserDN => "userdn" | RoleDN => "roledn" | GroupDN => "groupdn" | UserAttr => "userattr"
  | GroupAttr => "groupattr" | IPAddr => "ip" | DNSName => "dns" | DayOfWeek => "dayofweek"
  | TimeOfDay => "timeofday" | AuthMethod => "authmethod" | StrengthFactor => "ssf"
  end.
(* the exported constants *)
Definition bindkw_const (k : bindkw) : N :=
  match k with
  | UserDN => 1 | RoleDN => 2 | GroupDN => 3 | UserAttr => 4 | GroupAttr => 5 | IPAddr => 6
  | DNSName => 7 | DayOfWeek => 8 | TimeOfDay => 9 | AuthMethod => 10 | StrengthFactor => 11
  end.

Inductive targetkw := TgTarget | TgTo | TgAttr | TgCtrl | TgFrom | TgScope | TgFilter
                    | TgAttrFilters | TgExtOp.
Definition targetkw_name (k : targetkw) : string :=
  match k with
  | TgTarget => "target" | TgTo => "target_to" | TgAttr => "targetattr"
  | TgCtrl => "targetcontrol" | TgFrom => "target_from" | TgScope => "targetscope"
  | TgFilter => "targetfilter" | TgAttrFilters => "targattrfilters" | TgExtOp => "extop"
  end.
Definition targetkw_const (k : targetkw) : N :=
  match k with
  | TgTarget => 1 | TgTo => 2 | TgAttr => 3 | TgCtrl => 4 | TgFrom => 5 | TgScope => 6
  | TgFilter => 7 | TgAttrFilters => 8 | TgExtOp => 9
  end.

Inductive bindtype := BtUser | BtGroup | BtRole | BtSelf | BtURL.
Definition bindtype_name (k : bindtype) : string :=
  match k with
  | BtUser => "USERDN" | BtGroup => "GROUPDN" | BtRole => "ROLEDN" | BtSelf => "SELFDN"
  | BtURL => "LDAPURL"
  end.
Definition bindtype_const (k : bindtype) : N :=
  match k with BtUser => 1 | BtGroup => 2 | BtRole => 3 | BtSelf => 4 | BtURL => 5 end.

Inductive relop := REq | RNe | RLt | RGt | RLe | RGe.
(* symbol, short name, long name *)
Definition relop_symbol (o : relop) : string :=
  match o with REq => "=" | RNe => "!=" | RLt => "<" | RGt => ">" | RLe => "<=" | RGe => ">=" end.
Definition relop_short (o : relop) : string :=
  match o with REq => "Eq" | RNe => "Ne" | RLt => "Lt" | RGt => "Gt" | RLe => "Le" | RGe => "Ge" end.
Definition relop_long (o : relop) : string :=
  match o with
  | REq => "Equal To" | RNe => "Not Equal To" | RLt => "Less Than" | RGt => "Greater Than"
  | RLe => "Less Than Or Equal" | RGe => "Greater Than Or Equal"
  end.
Definition relop_const (o : relop) : N :=
  match o with REq => 1 | RNe => 2 | RLt => 3 | RGt => 4 | RLe => 5 | RGe => 6 end.
Definition names_relop (s : string) (o : relop) : Prop :=
  eqfold s (relop_symbol o) = true \/ eqfold s (relop_short o) = true \/
  eqfold s (relop_long o) = true.

(* the documented operators of each keyword *)
Definition bindkw_allows (k : bindkw) (o : relop) : bool :=
  match k, o with
  | (TimeOfDay | StrengthFactor), _ => true
  | _, (REq | RNe) => true
  | _, _ => false
  end.
Definition targetkw_allows (k : targetkw) (o : relop) : bool :=
  match k, o with
  | _, REq => true
  | (TgScope | TgAttrFilters), RNe => false
  | _, RNe => true
  | _, _ => false
  end.
