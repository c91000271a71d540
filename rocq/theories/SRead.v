(* Specification for C98: the value a rule reads, and the text of the rule. *)
From Coq Require Import String Ascii List PeanoNat NArith ZArith Bool.
From Verif Require Import GoStr MRule MConv.
Import ListNotations.
Open Scope string_scope.

Definition in_quotes (s : string) : string := String """" s ++ String """" "".
Definition sp (b : bool) : string := if b then " " else "".
(* keyword, operator, value; in parentheses or not; with or without blanks *)
Definition rule_line (paren pad : bool) (kw op v : string) : string :=
  let t := kw ++ sp pad ++ op ++ sp pad ++ v in
  if paren then "(" ++ sp pad ++ t ++ sp pad ++ ")" else t.
(* the members of a list: with style 0 every member is quoted if there are two or
   more, and nothing is quoted otherwise; with another style the whole is quoted *)
Definition list_line (style : Z) (l : list string) : string :=
  if (style =? 0)%Z then join " || " (if (2 <=? List.length l)%nat then map in_quotes l else l)
  else in_quotes (join " || " l).
(* the rule as the parser hands it over: the values are raw *)
Definition raw (c : cond) (style : Z) (vals : list string) : rule := Some (with_ex c (Some (XRaw style vals))).

(* the value is read, and the rule then prints it as [t] *)
Definition reads (en : env) (c : cond) (style : Z) (vals : list string) (t : string) : Prop :=
  exists r, br_assert en (raw c style vals) = ROk r /\
    br_string r = rule_line (c_paren c) (c_pad c) (c_kw c) (op_text (c_op c)) t.
Definition treads (en : env) (c : cond) (style : Z) (vals : list string) (t : string) : Prop :=
  exists r, tr_assert en (raw c style vals) = ROk r /\
    tr_string r = rule_line true (c_pad c) (c_kw c) (op_text (c_op c)) t.
Definition refuses (en : env) (c : cond) (style : Z) (vals : list string) : Prop :=
  br_assert en (raw c style vals) = RErr.
Definition trefuses (en : env) (c : cond) (style : Z) (vals : list string) : Prop :=
  tr_assert en (raw c style vals) = RErr.
