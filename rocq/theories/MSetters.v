(* The getters of AttributeFilter (/repo/filter.go) and histories of Set calls on
   attribute filters and attr#value pairs.  Definitions only. *)
From Coq Require Import String Ascii List PeanoNat NArith Bool.
From Verif Require Import GoStr MMisc MKw MAttr MFilter.
Import ListNotations.
Open Scope string_scope.

(* filter.go:249-255 AttributeType, 260-266 SearchFilter; attr.go:17, filter.go:10: the
   bad values are the zero values *)
Definition af_attributeType (r : afilter) : attype :=
  match r with Some (a, _) => if af_isZero r then None else a | None => None end.
Definition af_searchFilter (r : afilter) : sfilter :=
  match r with Some (_, f) => if af_isZero r then None else f | None => None end.
(* AF(x...) followed by any number of Set calls *)
Definition af_made (x : list farg) (h : list (list farg)) : afilter := fold_left af_set h (AF x).
(* ABTV(kw, x...) followed by any number of Set calls *)
Definition abtv_made (kw : N) (x : list abarg) (h : list (list abarg)) : abtv := fold_left abtv_set h (ABTV kw x).
