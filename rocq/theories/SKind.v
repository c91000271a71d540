(* Specification for C143: Kind names the keyword. *)
From Coq Require Import String List NArith.
From Verif Require Import SKw.
Import ListNotations.
Open Scope string_scope.

(* the text Kind is to give for what Keyword gives: the documented name of that keyword *)
Definition target_kind (k : N) (s : string) : Prop :=
  exists w, k = targetkw_const w /\ s = targetkw_name w.
Definition bind_kind (k : N) (s : string) : Prop :=
  exists w, k = bindkw_const w /\ s = bindkw_name w.
