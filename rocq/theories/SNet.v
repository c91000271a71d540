(* Specification for C19-C21. *)
From Coq Require Import String Ascii List PeanoNat NArith Bool.
From Verif Require Import GoStr SAttr.
Import ListNotations.
Open Scope string_scope.

Definition in_text (t : string) (c : ascii) : Prop := In c (chars t).
(* at least two bytes, all IPv4 characters or all IPv6 characters *)
Definition v4_text : string := "0123456789.*/".
Definition v6_text : string := "0123456789abcdefABCDEF:*/".
Definition plausible (s : string) : Prop :=
  (2 <= String.length s)%nat /\
  ((forall c, In c (chars s) -> in_text v4_text c) \/ (forall c, In c (chars s) -> in_text v6_text c)).

(* the first occurrence of each text, in order *)
Fixpoint firsts (l : list string) : list string :=
  match l with [] => [] | x :: r => x :: filter (fun y => negb (String.eqb x y)) (firsts r) end.

(* 1 to 63 bytes: letters (Latin-1: A-Z, a-z, the two ordinal indicators, the micro sign,
   the accented letters), digits, asterisks and hyphens, no hyphen at either end *)
Definition label_byte (c : ascii) : Prop :=
  existsb (fun r => byte_between (fst r) (snd r) c)
    [(65, 90); (97, 122); (170, 170); (181, 181); (186, 186); (192, 214); (216, 246); (248, 255)]%N = true \/
  in_text "0123456789*-" c.
Definition label_ok (s : string) : Prop :=
  (1 <= String.length s <= 63)%nat /\
  (forall c, In c (chars s) -> label_byte c) /\
  (forall r, s <> String "-" r) /\ (forall r, s <> r ++ "-").
(* total number of bytes *)
Definition total (l : list string) : nat := list_sum (map String.length l).
(* a Set call all of whose texts are acceptable to a name of the labels r *)
Definition call_ok (r xs : list string) : Prop :=
  (forall x, In x xs -> (String.length x <= 63)%nat) /\
  (forall x, In x (flat_map (split1 ".") xs) -> label_ok x) /\
  (List.length r + total (flat_map (split1 ".") xs) <= 253)%nat.
