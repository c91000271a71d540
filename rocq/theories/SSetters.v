(* Specification of setters that take values of several kinds: which argument counts. *)
From Coq Require Import String List NArith.
From Verif Require Import MKw MAttr MFilter SAttr.
Import ListNotations.
Open Scope string_scope.

(* attribute filters: an argument gives an attribute or a filter *)
Inductive gives_name : farg -> attype -> Prop :=
| gn_text : forall s, identifier s -> gives_name (FStr s) (Some s)
| gn_value : forall a, gives_name (FAT a) a.
Inductive gives_filter : farg -> sfilter -> Prop :=
| gf_text : forall s, ~ identifier s -> gives_filter (FStr s) (Some s)
| gf_value : forall f, gives_filter (FSF f) f.
(* the last argument that gives something; no argument does *)
Definition last_given {A B} (R : A -> B -> Prop) (xs : list A) (b : B) : Prop :=
  exists pre x post, xs = (pre ++ x :: post)%list /\ R x b /\ forall y c, In y post -> ~ R y c.
Definition none_given {A B} (R : A -> B -> Prop) (xs : list A) : Prop := forall y c, In y xs -> ~ R y c.
(* AttributeType values come from AT: not the empty name *)
Definition usable (x : farg) : Prop := x <> FAT (Some "").

(* attr#value pairs: an argument that can be the attribute, one that can be the value *)
Inductive is_name : abarg -> attype -> Prop :=
| in_text : forall s, is_name (BStr s) (AT s)
| in_value : forall a, is_name (BAT a) a.
Inductive is_value : abarg -> second -> Prop :=
| iv_av : forall v, is_value (BAV v) (SAV v)
| iv_bt : forall n, is_value (BBT n) (SBT n).
Inductive is_text : abarg -> second -> Prop :=
| it_bind : forall s, matchBT s <> 0%N -> is_text (BStr s) (SBT (matchBT s))
| it_other : forall s, matchBT s = 0%N -> is_text (BStr s) (SAV (AV s)).
Definition first_given {A B} (R : A -> B -> Prop) (xs : list A) (b : B) : Prop :=
  exists pre x post, xs = (pre ++ x :: post)%list /\ R x b /\ forall y c, In y pre -> ~ R y c.
