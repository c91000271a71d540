(* Specification for C14-C16. *)
From Coq Require Import String Ascii List NArith ZArith Bool.
From Verif Require Import GoStr MSec.
Import ListNotations.
Open Scope string_scope.

(* ---- strength factor: a number 0..256 ---- *)
Definition clamp (z : Z) : Z := Z.max 0 (Z.min 256 z).
(* the number an argument asks for; None for unsupported types *)
Definition asked (a : sarg) : option Z :=
  match a with
  | SNil => Some 0%Z
  | SInt z => Some (clamp z)
  | SStr s =>
      if String.eqb (lc s) "full" || String.eqb (lc s) "max" then Some 256%Z
      else if String.eqb (lc s) "none" || String.eqb (lc s) "off" then Some 0%Z
      else Some (clamp (fst (atoi s)))
  | SOther => None
  end.
(* the last supported argument decides *)
Fixpoint factor_after (z : Z) (h : list sarg) : Z :=
  match h with
  | [] => z
  | a :: t => factor_after (match asked a with Some z' => z' | None => z end) t
  end.

(* ---- authentication methods ---- *)
Inductive authm := MNone | MSimple | MSSL | MSASL | MExternal | MDigest | MGSSAPI.
Definition authm_const (m : authm) : N :=
  match m with MNone => 1 | MSimple => 2 | MSSL => 3 | MSASL => 4 | MExternal => 5 | MDigest => 6 | MGSSAPI => 7 end.
Definition authm_name (m : authm) : string :=
  match m with
  | MNone => "NONE" | MSimple => "SIMPLE" | MSSL => "SSL" | MSASL => "SASL"
  | MExternal => "SASL EXTERNAL" | MDigest => "SASL DIGEST-MD5" | MGSSAPI => "SASL GSSAPI"
  end.
Definition names_auth (s : string) (m : authm) : Prop := eqfold s (authm_name m) = true.

(* ---- scopes ---- *)
Inductive scope := ScBase | ScOne | ScSub | ScChildren.
Definition scope_const (s : scope) : N :=
  match s with ScBase => 1 | ScOne => 2 | ScSub => 3 | ScChildren => 4 end.
Definition scope_names (s : scope) : list string :=
  match s with
  | ScBase => ["base"; "baseobject"] | ScOne => ["one"; "onelevel"]
  | ScSub => ["sub"; "subtree"] | ScChildren => ["children"; "subordinate"]
  end.
Definition names_scope (t : string) (s : scope) : Prop := In (lc t) (scope_names s).
