(* Specification for C123 and C124: the text of a rule, taken apart and read again. *)
From Coq Require Import String Ascii List NArith ZArith Bool.
From Verif Require Import GoStr GoStrFacts MMisc MRule MConv SKw SMisc SRead.
Import ListNotations.
Open Scope string_scope.

(* the keywords whose value is one or more alternatives with bars between them *)
Definition bind_many (k : bindkw) : bool := match k with UserDN | RoleDN | GroupDN => true | _ => false end.
Definition target_many (k : targetkw) : bool :=
  match k with TgTarget | TgTo | TgFrom | TgAttr | TgCtrl | TgExtOp => true | _ => false end.
(* the values between the quotation marks: cut at the bars, or taken as they stand *)
Definition cut (many : bool) (vals : list string) : Prop :=
  if many then vals <> [] /\ (forall v, In v vals -> no_byte "|" v = true) else exists v, vals = [v].

(* A reading of a text: a keyword, an operator and values that, written down in that
   order, make the text.  [c] holds the keyword, the operator and the presentation. *)
Definition bind_reading (text : string) (c : cond) (k : bindkw) (o : relop) (vals : list string) : Prop :=
  c_kw c = bindkw_name k /\ c_op c = Some (relop_const o) /\ cut (bind_many k) vals /\
  text = rule_line (c_paren c) (c_pad c) (bindkw_name k) (relop_symbol o) (in_quotes (join " || " vals)).
Definition target_reading (text : string) (c : cond) (k : targetkw) (o : relop) (vals : list string) : Prop :=
  c_kw c = targetkw_name k /\ c_op c = Some (relop_const o) /\ cut (target_many k) vals /\
  text = rule_line true (c_pad c) (targetkw_name k) (relop_symbol o) (in_quotes (join " || " vals)).

(* The rule comes back: its text has a reading, and from every reading the values are
   converted without an error to a rule with the same text. *)
Definition bind_back (en : env) (r : rule) : Prop :=
  (exists c k o vals, bind_reading (br_string r) c k o vals) /\
  forall c k o vals style, bind_reading (br_string r) c k o vals -> style <> 0%Z ->
    exists r', br_assert en (raw c style vals) = ROk r' /\ br_string r' = br_string r.
Definition target_back (en : env) (r : rule) : Prop :=
  (exists c k o vals, target_reading (tr_string r) c k o vals) /\
  forall c k o vals style, target_reading (tr_string r) c k o vals -> style <> 0%Z ->
    exists r', tr_assert en (raw c style vals) = ROk r' /\ tr_string r' = tr_string r.

(* a text the reader leaves as it is: ASCII words with one blank between them, and
   neither white space nor a quotation mark at the ends *)
Definition settled (t : string) : Prop :=
  is_ascii t = true /\ join " " (words t) = t /\
  (forall c, first_byte t = Some c -> white c = false /\ is_quote c = false) /\
  (forall c, last_byte t = Some c -> white c = false /\ is_quote c = false).
(* the same, but a quotation mark may be at an end *)
Definition kept (t : string) : Prop :=
  is_ascii t = true /\ join " " (words t) = t /\
  (forall c, first_byte t = Some c -> white c = false) /\ (forall c, last_byte t = Some c -> white c = false).
(* a distinguished name without the scheme in front, that the reader takes as it stands *)
Definition plain_name (t : string) : Prop :=
  kept ("ldap:///" ++ t) /\ no_byte "|" t = true /\ (3 <= String.length t)%nat /\ has_prefix "ldap:///" t = false /\
  (no_byte "=" t = true -> forall a, In a ["all"; "anyone"; "self"; "parent"] -> eqfold t ("ldap:///" ++ a) = false).
