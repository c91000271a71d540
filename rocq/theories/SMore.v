(* Small specifications used by TMore.v. *)
From Coq Require Import String Ascii List NArith ZArith Bool.
From Verif Require Import GoStr MKw MAttr SRights SSec.
Import ListNotations.
Open Scope string_scope.

(* ---- letter case folding against an ASCII word ---- *)
Definition ascii_byte (c : ascii) : bool := (N_of_ascii c <? 128)%N.
Definition ascii_word (w : string) : bool := forallb ascii_byte (list_ascii_of_string w).
(* two ASCII bytes that are the same up to letter case *)
Definition same_letter (c d : ascii) : Prop :=
  c = d \/
  (exists n, (65 <= n <= 90)%N /\ c = ascii_of_N n /\ d = ascii_of_N (n + 32)) \/
  (exists n, (65 <= n <= 90)%N /\ d = ascii_of_N n /\ c = ascii_of_N (n + 32)).
Definition kelvin : string := String "226" (String "132" (String "170" "")). (* U+212A *)
Definition long_s : string := String "197" (String "191" "").               (* U+017F *)
(* [folds s w]: text s is ASCII word w in some letter case *)
Inductive folds : string -> string -> Prop :=
| fo_nil : folds "" ""
| fo_byte c d s w : ascii_byte c = true -> same_letter c d -> folds s w -> folds (String c s) (String d w)
| fo_kelvin d s w : d = "k"%char \/ d = "K"%char -> folds s w -> folds (kelvin ++ s) (String d w)
| fo_long_s d s w : d = "s"%char \/ d = "S"%char -> folds s w -> folds (long_s ++ s) (String d w).

(* ---- numbers of the exported tables ---- *)
Definition authm_of_number (z : Z) : authm :=
  match z with
  | 1 => MSimple | 2 => MSSL | 3 => MSASL | 4 => MDigest | 5 => MExternal | 6 => MGSSAPI
  | _ => MNone
  end%Z.
Definition scope_of_number (z : Z) : scope :=
  match z with 1 => ScOne | 2 => ScSub | 3 => ScChildren | _ => ScBase end%Z.
Definition scope_target_name (s : scope) : string :=
  match s with ScBase => "base" | ScOne => "onelevel" | ScSub => "subtree" | ScChildren => "subordinate" end.
Definition scope_uri_name (s : scope) : string :=
  match s with ScBase => "base" | ScOne => "one" | ScSub => "sub" | ScChildren => "base" end.

(* ---- attr#value pairs: which argument decides which half ---- *)
(* the first attribute or text given *)
Fixpoint first_attr (l : list abarg) : option attype :=
  match l with
  | [] => None
  | BAT a :: _ => Some a
  | BStr s :: _ => Some (AT s)
  | _ :: t => first_attr t
  end.
(* the last text given *)
Fixpoint last_text (l : list abarg) : option string :=
  match l with
  | [] => None
  | BStr s :: t => match last_text t with Some u => Some u | None => Some s end
  | _ :: t => last_text t
  end.
(* the first value or bind type given *)
Fixpoint first_value (l : list abarg) : option second :=
  match l with
  | [] => None
  | BAV v :: _ => Some (SAV v)
  | BBT n :: _ => Some (SBT n)
  | _ :: t => first_value t
  end.
