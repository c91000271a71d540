(* Specification for C71-C77: what a rule made from a value says, and what a
   table of such methods offers.  Keywords and operators are those of SKw.v. *)
From Coq Require Import String Ascii List NArith ZArith Bool Permutation.
From Verif Require Import GoStr SKw MRule MMeth.
Import ListNotations.
Open Scope string_scope.

Definition gap (pad : bool) : string := if pad then " " else "".
Definition in_quotes (s : string) : string := String """" (s ++ String """" "").
(* the text of a bind rule and of a target rule *)
Definition bind_rule_text (pad : bool) (k : bindkw) (o : relop) (v : string) : string :=
  bindkw_name k ++ gap pad ++ relop_symbol o ++ gap pad ++ in_quotes v.
Definition target_rule_text (pad : bool) (k : targetkw) (o : relop) (v : string) : string :=
  "(" ++ gap pad ++ (targetkw_name k ++ gap pad ++ relop_symbol o ++ gap pad ++ in_quotes v) ++ gap pad ++ ")".
(* [r] is a valid rule with this keyword, operator and value text *)
Definition bind_says (pad : bool) (r : rule) (k : bindkw) (o : relop) (v : string) : Prop :=
  br_string r = bind_rule_text pad k o v /\ br_keyword r = bindkw_const k /\
  rule_operator r = relop_const o /\ br_valid r = true.
Definition target_says (pad : bool) (r : rule) (k : targetkw) (o : relop) (v : string) : Prop :=
  tr_string r = target_rule_text pad k o v /\ tr_keyword r = targetkw_const k /\
  rule_operator r = relop_const o /\ tr_valid r = true.
(* the zero rule *)
Definition no_rule (r : rule) : Prop := r = None.

(* values in a list, as they stand in a rule *)
Definition alternatives (l : list string) : string := join " || " l.

(* what an argument of Index or Contains designates: an operator, by its own
   value, by one of its names in any letter case, or by its number *)
Definition designates (x : MKw.oparg) (o : relop) : Prop :=
  match x with
  | MKw.OCop n => n = relop_const o
  | MKw.OStr s => names_relop s o
  | MKw.OInt z => z = Z.of_N (relop_const o)
  | MKw.OOther => False
  end.
(* A table read through [index]: an argument that designates an operator gets, if
   the keyword admits the operator, the operator and a method for it, and otherwise
   neither; an argument that designates none gets neither. *)
Definition builds (index : MKw.oparg -> N * option rule) (allowed : relop -> bool) (says : rule -> relop -> Prop) : Prop :=
  forall x o, designates x o ->
    if allowed o then exists r, index x = (relop_const o, Some r) /\ says r o
    else index x = (0%N, None).
Definition finds_only (index : MKw.oparg -> N * option rule) : Prop :=
  forall x, (forall o, ~ designates x o) -> index x = (0%N, None).
(* A map from operators to methods holds the methods of exactly these operators. *)
Definition table_for (t : table) (m : methods) (allowed : relop -> bool) (says : rule -> relop -> Prop) : Prop :=
  t = Some m /\ NoDup (map fst m) /\
  (forall k r, In (k, r) m -> exists o, k = relop_const o /\ allowed o = true /\ says r o) /\
  (forall o, allowed o = true -> In (relop_const o) (map fst m)).
(* A table, whatever the order its map is walked in. *)
Definition bind_table (t : table) (allowed : relop -> bool) (says : rule -> relop -> Prop) : Prop :=
  exists m, t = Some m /\ tab_len t = List.length (filter allowed [REq; RNe; RLt; RLe; RGt; RGe]) /\
    forall m', Permutation m' m -> builds (brm_index (Some m')) allowed says.
Definition target_table (t : table) (allowed : relop -> bool) (says : rule -> relop -> Prop) : Prop :=
  exists m, t = Some m /\ tab_len t = List.length (filter allowed [REq; RNe; RLt; RLe; RGt; RGe]) /\
    forall m', Permutation m' m -> builds (trm_index (Some m')) allowed says /\ finds_only (trm_index (Some m')).
(* C122: the check of a table speaks for all its methods.  Whatever the order the map is
   walked in, the check does not panic, and it passes exactly when every method that any
   argument of Index finds gives a valid rule; a nil table does not pass. *)
Definition speaks (index : table -> MKw.oparg -> N * option rule) (valid : table -> option bool) (rule_ok : rule -> bool) (t : table) : Prop :=
  match t with
  | None => valid None = Some false
  | Some m => forall m', Permutation m' m ->
      exists b, valid (Some m') = Some b /\
        (b = true <-> forall x k r, index (Some m') x = (k, Some r) -> rule_ok r = true)
  end.
Definition bind_speaks : table -> Prop := speaks brm_index brm_valid br_valid.
Definition target_speaks : table -> Prop := speaks trm_index trm_valid tr_valid.
