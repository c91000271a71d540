(* Specification for C175 and C176: the text of a set of days, of a set of levels. *)
From Coq Require Import String List PeanoNat NArith Bool.
From Verif Require Import GoStr MTime STime MAttr MLevels SAttr MWord SWord MSeen.
Import ListNotations.
Open Scope string_scope.

(* the days, Sunday first, or a mark *)
Definition text_of_days (ds : list day) : string :=
  match ds with [] => "<invalid_days>" | _ => join "," (map day_name ds) end.
Definition days_where (g : day -> bool) : list day := filter g all_days.
(* the levels, 0 to 9, in brackets, and an attribute with its value *)
Definition text_of_levels (a : string) (ns : list N) : string := "parent[" ++ join "," (map digit ns) ++ "]." ++ a.
Definition levels_where (g : N -> bool) : list N := filter g all_levels.
(* Positive after the first k steps *)
Definition day_at sh v css q k (d : day) : bool := dow_positive sh (Some (dow_bits_at sh v css q k)) (day_const d).
Definition level_at sh a v css q k (n : N) : bool := inh_positive sh (Some (MkInh (inh_bits_at sh v css q k) a)) (LLevel (level_const n)).
