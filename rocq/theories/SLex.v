(* C68: instructions whose texts can be read without knowing what they were made of. *)
From Coq Require Import String Ascii List NArith Bool.
From Verif Require Import GoStr MRights MKw SKw MRule MConv MAci SAci.
Import ListNotations.
Open Scope string_scope.

(* read a text from left to right, inside (true) or outside (false) quotation marks:
   None when [stop] occurs outside, and otherwise where the text ends *)
Fixpoint scan (stop : ascii) (inside : bool) (s : string) : option bool :=
  match s with
  | EmptyString => Some inside
  | String c t =>
      if Ascii.eqb c "034" then scan stop (negb inside) t
      else if (negb inside && Ascii.eqb c stop)%bool then None
      else scan stop inside t
  end.
(* every quotation mark of the text is closed, and [stop] occurs only between them *)
Definition closed (stop : ascii) (s : string) : Prop := scan stop false s = Some false.

(* what a permission-bind rule grants and to whom, as printed *)
Definition granting (W : world) (r : pbr) : option (string * string) :=
  match r with
  | Some (MkPB p (Some b)) => Some (perm_string (e_shifty (w_env W)) p, bctx_string W b)
  | _ => None
  end.
(* an instruction whose label has no quotation mark, whose target rules have one of
   the nine keywords, whose permission-bind rules are valid, and whose values are in
   quotation marks of their own *)
Definition readable (W : world) (a : instr) : Prop :=
  no_quote (i_label a) = true /\
  (forall r, In r (i_trs a) -> exists c k, r = Some c /\ c_kw c = targetkw_name k /\ closed ")" (val_text c)) /\
  (forall r, In r (i_pbrs a) -> pbr_valid r = true /\ exists p b, r = Some (MkPB p (Some b)) /\ closed ";" (bctx_string W b)).
