(* Specification for C77-C80: Set and PBR on permission-bind rules, the text of
   instruction lists, and the presentation settings of bind rules. *)
From Coq Require Import String Ascii List Bool.
From Verif Require Import GoStr MMisc MRights MRule MTree MAci SMeth.
Import ListNotations.
Open Scope string_scope.

(* ---- C77, C78 ---- *)
(* what Set can use: an initialised permission, a valid bind rule or an initialised
   stack of bind rules; values of other types are skipped *)
Definition given_perm (p : permission) : Prop := p <> PNil.
Definition given_bind (b : bctx) : Prop :=
  match b with
  | BCRule r => br_valid r = true
  | BCStack t => exists w p f d ks, t = Some (Stk w p f d ks)
  end.
Definition suits (x : pbarg) : Prop :=
  match x with
  | PAStr _ => False
  | PAPerm p => given_perm p
  | PABind b => given_bind b
  | PAOther => True
  end.
(* values that Set refuses *)
Definition unfit (W : world) (x : pbarg) : Prop :=
  match x with
  | PAStr s => parsePBR W s = Fails
  | PAPerm p => ~ given_perm p
  | PABind b => ~ given_bind b
  | PAOther => False
  end.
(* the last permission and the last bind rules among the arguments *)
Fixpoint last_perm (d : permission) (xs : list pbarg) : permission :=
  match xs with [] => d | PAPerm p :: t => last_perm p t | _ :: t => last_perm d t end.
Fixpoint last_bind (d : option bctx) (xs : list pbarg) : option bctx :=
  match xs with [] => d | PABind b :: t => last_bind (Some b) t | _ :: t => last_bind d t end.
Definition perm_of (r : pbr) : permission := match r with Some x => pb_p x | None => PNil end.
Definition bind_of (r : pbr) : option bctx := match r with Some x => pb_b x | None => None end.
(* what String gives for bind rules *)
Definition bind_text (W : world) (b : bctx) (s : string) : Prop :=
  match b with
  | BCRule r => s = br_string r
  | BCStack (Some t) => s = brs_string (w_topnot W) (w_notsep W) t
  | BCStack None => True
  end.

(* ---- C80 ---- *)
Definition shown_word (w : word) (fold : bool) : string :=
  match w, fold with
  | WAnd, false => "AND" | WAnd, true => "and"
  | WOr, false => "OR" | WOr, true => "or"
  | WNot, false => "NOT" | WNot, true => "not"
  end.
(* same text, ASCII letters in either case *)
Definition same_letters (a b : string) : Prop := map_bytes lower_byte a = map_bytes lower_byte b.
Definition presentation (c : brscall) : Prop :=
  match c with SPush _ | SPop => False | SParen _ | SFold _ | SNoPadding _ => True end.
