(* Specification for C38-C40, C48 and C61-C70. *)
From Coq Require Import String Ascii List PeanoNat NArith ZArith Bool.
From Verif Require Import GoStr MMisc MLists MKw MRights MRule MConv MTree MAci SLists.
Import ListNotations.
Open Scope string_scope.

(* two permission-bind rules with the same text up to the letter-case comparison *)
Definition same_pbr (W : world) (x y : pbr) : bool := e_eqf (w_env W) (pbr_string W x) (pbr_string W y).

(* the rules with a known keyword, the first one of each keyword *)
Fixpoint first_rules (seen : list N) (l : list rule) : list rule :=
  match l with
  | [] => []
  | r :: t =>
      if ((tr_keyword r =? 0)%N || existsb (N.eqb (tr_keyword r)) seen)%bool then first_rules seen t
      else r :: first_rules (seen ++ [tr_keyword r])%list t
  end.

(* [converted en l l' ok]: l' is l with values converted one by one from the left,
   up to the first one that cannot be (then ok is false) *)
Inductive converted (en : env) : list rule -> list rule -> bool -> Prop :=
| cv_nil : converted en [] [] true
| cv_bad r t : tr_assert en r = RErr -> converted en (r :: t) (r :: t) false
| cv_ok r r' t t' ok : tr_assert en r = ROk r' -> converted en t t' ok -> converted en (r :: t) (r' :: t') ok.

(* [built W xs rs ok]: rs are the permission-bind rules made of xs one by one from
   the left, up to the first one that cannot be (then ok is false) *)
Inductive built (W : world) : list (option apbr) -> list pbr -> bool -> Prop :=
| bu_nil : built W [] [] true
| bu_skip t rs ok : built W t rs ok -> built W (None :: t) rs ok
| bu_bad a t : processPBR W a = Fails -> built W (Some a :: t) [] false
| bu_ok a r t rs ok : processPBR W a = Gives r -> built W t rs ok -> built W (Some a :: t) (r :: rs) ok.

(* ---- Set on an instruction: where each argument goes ---- *)
Definition labels_of (x : iarg) : list string := match x with IStr s => [s] | _ => [] end.
Definition targets_of (x : iarg) : list rule := match x with ITR r => [r] | ITRs l => l | _ => [] end.
Definition pbrs_of (x : iarg) : list pbr := match x with IPBR r => [r] | IPBRs l => l | _ => [] end.
Fixpoint first_nonempty (l : list string) : string :=
  match l with [] => "" | s :: t => if String.eqb s "" then first_nonempty t else s end.
(* the texts given by Set calls *)
Definition set_labels (c : icall) : list string := match c with ICSet xs => flat_map labels_of xs | _ => [] end.
Definition no_parse (c : icall) : bool := match c with ICParse _ => false | _ => true end.

(* a text occurs in another one *)
Definition occurs (x s : string) : Prop := exists a b, s = a ++ x ++ b.
(* a text without double quote *)
Fixpoint no_quote (s : string) : bool :=
  match s with EmptyString => true | String c t => (negb (Ascii.eqb c "034") && no_quote t)%bool end.
(* no text among the arguments of a Push fails to parse *)
Definition usable (W : world) (x : plarg) : Prop := match x with PLStr s => parsePBR W s <> Fails | _ => True end.
