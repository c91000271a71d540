(* What a user expects of rules made from lists: definitions used to state
   C103-C105, in terms of statements and of what variables show. *)
From Coq Require Import String List PeanoNat NArith ZArith Bool.
From Verif Require Import GoStr MKw MLists MRule MShare.
Import ListNotations.
Open Scope string_scope.

(* the keyword of a list (its category) *)
Definition keyword_of (c : content) : N :=
  match c with CBindDNs kw _ => kw | CTargetDNs kw _ => kw | CAttrs _ _ => TargetAttr | COids l => ol_kw l end.
(* the list a rule holds *)
Definition holds (s : sst) (r : nat) : option nat :=
  match s_rvar s r with
  | Some n => match nth_error (s_rules s) n with
              | Some c => match rc_ex c with RList l => Some l | _ => None end
              | None => None
              end
  | None => None
  end.
Definition is_style (m : rcall) : bool :=
  match m with RBind (BQuoteStyle _) | RTarget (TQuoteStyle _) => true | _ => false end.
(* the statement gives variable r another rule, calls a method on the rule r shows,
   or changes the list that rule holds *)
Definition concerns (s : sst) (c : sstmt) (r : nat) : Prop :=
  match c with
  | SList _ _ | SLCopy _ _ => False
  | SDo x _ => s_lvar s x <> None /\ holds s r = s_lvar s x
  | SMake q _ _ => q = r
  | SRCopy q _ => q = r
  | SSet q _ => q = r \/ s_rvar s q = s_rvar s r
  | SCall q m => q = r \/ s_rvar s q = s_rvar s r \/ (is_style m = true /\ holds s q <> None /\ holds s q = holds s r)
  end.
(* statements on lists, and statements that make or copy other rules *)
Definition only_lists (r x : nat) (c : sstmt) : Prop :=
  match c with
  | SList y _ => y <> x
  | SLCopy y _ => y <> x
  | SDo _ _ => True
  | SMake q _ _ => q <> r
  | SRCopy q _ => q <> r
  | SSet _ _ | SCall _ _ => False
  end.

(* values in quotes: all of them together or each on its own *)
Definition well_quoted (v : string) (vals : list string) : Prop :=
  v = quote (join " || " vals) \/ v = join " || " (map quote vals).
(* the keywords under which SetQuoteStyle concerns the values of a rule: userdn, groupdn,
   roledn; target, target_to, target_from; targetattr; extop, targetcontrol *)
Definition style_keyword (k : lkind) (kw : string) : Prop :=
  match k with
  | LBindDN => In kw ["userdn"; "groupdn"; "roledn"]
  | LTargetDN => In kw ["target"; "target_to"; "target_from"]
  | LAttrs => kw = "targetattr"
  | LOids => In kw ["extop"; "targetcontrol"]
  end.

(* the type of the rule a variable shows, and SetQuoteStyle of that type *)
Definition target_rule (s : sst) (r : nat) : option bool :=
  match s_rvar s r with
  | Some n => match nth_error (s_rules s) n with Some c => Some (rc_target c) | None => None end
  | None => None
  end.
Definition set_style (target : bool) (style : Z) : rcall :=
  if target then RTarget (TQuoteStyle style) else RBind (BQuoteStyle style).
(* a list and the type of the rules it belongs in *)
Definition kind_target (k : lkind) : bool := match k with LBindDN => false | _ => true end.

(* no rule was made from the list x shows *)
Definition unused (s : sst) (x : nat) : Prop :=
  forall l n c, s_lvar s x = Some l -> nth_error (s_rules s) n = Some c -> rc_ex c <> RList l.
(* a program that makes at most one rule from a list, never replaces the expression of a rule,
   and chooses a style only for two or more values under a keyword the style concerns *)
Definition tidy (s : sst) (c : sstmt) : Prop :=
  match c with
  | SMake _ x _ => unused s x
  | SSet _ _ => False
  | SCall r m =>
      rcall_expr m = None /\
      (is_style m = true -> forall l k, holds s r = Some l -> nth_error (s_lists s) l = Some k ->
         (2 <= List.length (con_texts (l_con k)))%nat /\
         match rule_of s r with Some c => style_keyword (con_kind (l_con k)) (c_kw c) | None => True end)
  | _ => True
  end.
