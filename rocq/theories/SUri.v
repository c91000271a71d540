(* Specification for C35, C36 and C52. *)
From Coq Require Import String Ascii List PeanoNat NArith Bool.
From Verif Require Import GoStr SAttr SFilter.
Import ListNotations.
Open Scope string_scope.

Definition has_char (c : ascii) (s : string) : Prop := In c (chars s).
(* the text of a URI with the given components *)
Definition uri_text (comps : list string) : string := "ldap:///" ++ join "?" comps.
(* components are what the question marks separate *)
Definition components_ok (comps : list string) : Prop :=
  comps <> [] /\ forall c, In c comps -> ~ has_char "?" c.
(* the i-th component, "" when there are fewer *)
Definition comp (comps : list string) (i : nat) : string := nth i comps "".
(* the scope word a URI prints for a scope component; anything not known is base *)
Definition scope_word (s : string) : string :=
  if existsb (String.eqb (lc s)) ["one"; "onelevel"] then "one"
  else if existsb (String.eqb (lc s)) ["sub"; "subtree"] then "sub" else "base".
(* a DN that survives printing: not empty, no question mark, not itself with scheme *)
Definition uri_dn (d : string) : Prop :=
  d <> "" /\ ~ has_char "?" d /\ ~ (exists r, d = "ldap:///" ++ r).
(* l' is l without the members that do not satisfy P *)
Inductive keeps {A} (P : A -> Prop) : list A -> list A -> Prop :=
  | keeps_nil : keeps P [] []
  | keeps_yes x l l' : P x -> keeps P l l' -> keeps P (x :: l) (x :: l')
  | keeps_no x l l' : ~ P x -> keeps P l l' -> keeps P (x :: l) l'.
(* the attribute names a component lists: separated by commas, blanks ignored,
   what is no attribute name left out *)
Definition listed (s : string) (names : list string) : Prop :=
  exists all, (forall x, In x all -> ~ has_char "," x) /\ join "," all = remove_byte " " s /\ all <> [] /\ keeps attr_name all names.
