(* Model of the package variables AllDN, AnyDN, SelfDN and ParentDN, as a program
   that uses the package sees them.  Definitions only. *)
From Coq Require Import String Ascii List PeanoNat NArith Bool.
From Verif Require Import GoStr MMisc MKw MLists MHeap.
Import ListNotations.
Open Scope string_scope.

(* dn.go:25-35: variables of the heap model; variables 4.. are the program's own *)
Definition AllDN : nat := 0.
Definition AnyDN : nat := 1.
Definition SelfDN : nat := 2.
Definition ParentDN : nat := 3.
(* dn.go:1724-1729 init *)
Definition alias_init : list (@cmd dname (string * list N)) :=
  [CNew AllDN (UDN "all"); CNew AnyDN (UDN "anyone"); CNew SelfDN (UDN "self"); CNew ParentDN (UDN "parent")].
(* the state in which a program starts *)
Definition boot : @state dname := exec_all o_bdn start alias_init.
Definition nboot : nstate := MkNS boot [].
(* String of a variable's value (dn.go:243-249) *)
Definition shows (s : @state dname) (x : nat) : string := dn_string badBDN (look s x).

Section At.
Variable eqf : string -> string -> bool.   (* strings.EqualFold *)
(* dn.go:1709-1719 isDNAlias: the variables are read at the time of the call *)
Definition isDNAlias_at (s : @state dname) (x : string) : bool :=
  existsb (fun v => eqf x (shows s v)) [AllDN; AnyDN; SelfDN; ParentDN].
(* dn.go:931-933 isInvalidDNSyntax *)
Definition isInvalidDNSyntax_at (s : @state dname) (d : string) : bool :=
  (String.length d <? 3)%nat || negb (scontains "=" d || negb (isDNAlias_at s d)).
(* dn.go:938-960 TargetDistinguishedNames.setExpressionValues, and dn.go:893-929
   BindDistinguishedNames.setExpressionValues for values that are no URI (no
   question mark): whether the values are accepted.  The list is as in MLists.v. *)
Definition values_accepted_at (s : @state dname) (values : list string) : bool :=
  forallb (fun v => negb (isInvalidDNSyntax_at s (chopDNPfx (condenseWHSP v)))) values.
End At.
