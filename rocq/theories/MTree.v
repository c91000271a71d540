(* Model of BindRules: the stacks made by And, Or and Not (/repo/bind.go:411-525),
   their text, and the conversion of the parser's stacks (bind.go:527-693).
   Definitions only. *)
From Coq Require Import String Ascii List PeanoNat NArith ZArith Bool.
From Verif Require Import GoStr MMisc MLists MKw MRule MConv.
Import ListNotations.
Open Scope string_scope.

Inductive word := WAnd | WOr | WNot.
Definition word_text (w : word) : string :=
  match w with WAnd => "AND" | WOr => "OR" | WNot => "NOT" end.

(* A BindContext: a rule, or a stack with its word, the parentheses, fold and
   padding settings, and its members.  The zero BindRules is not a [tree]. *)
Inductive tree :=
| Leaf (c : cond)
| Stk (w : word) (paren fold pad : bool) (kids : list tree).

(* Text of a stack.  go-stackage is not available: this is the format shown by
   the project's tests (bind_test.go:262,280,624,635; ins_test.go:213; parse_test.go:75).
   A nested NOT stack is preceded by its word.  Two things the tests do not show
   are parameters: [topnot], whether an outermost NOT stack prints its word, and
   [notsep], what separates several members of a NOT stack. *)
Section Render.
Variable topnot : bool.
Variable notsep : string.
Definition folded (fold : bool) (s : string) : string := if fold then lc s else s.
Definition separator (w : word) (fold : bool) : string :=
  match w with WNot => notsep | _ => " " ++ folded fold (word_text w) ++ " " end.
Definition nonempty (l : list string) : list string :=
  filter (fun s => negb (String.length s =? 0)%nat) l.
Definition with_not (t : tree) (s : string) : string :=
  match t with Stk WNot _ fold _ _ => folded fold "NOT" ++ " " ++ s | _ => s end.
Fixpoint tstr (t : tree) : string :=
  match t with
  | Leaf c => cond_string c
  | Stk w paren fold pad kids =>
      wrap_paren paren pad (join (separator w fold) (nonempty (map (fun k => with_not k (tstr k)) kids)))
  end.
(* bind.go:809-811 BindRules.String, bind.go:345-350 BindRule.String *)
Definition brs_string (t : tree) : string := if topnot then with_not t (tstr t) else tstr t.
End Render.

(* ---------------- building ---------------- *)
(* bind.go:1035-1061 pushPolicy.  A rule is accepted when its keyword is known:
   the error of Valid is overwritten.  A BindRules instance is accepted when it
   is initialised; [None] is the zero instance. *)
Inductive barg := PRule (r : rule) | PStack (t : option tree) | POtherArg.
Definition brs_push1 (l : list tree) (x : barg) : list tree :=
  match x with
  | PRule (Some c) => if negb (matchBKW (bkw_string (matchBKW (c_kw c))) =? 0)%N then (l ++ [Leaf c])%list else l
  | PRule None => l
  | PStack (Some (Stk w p f d k)) => (l ++ [Stk w p f d k])%list
  | PStack _ => l
  | POtherArg => l
  end.
(* bind.go:875-878 Push *)
Definition brs_push (stop : bool) (t : tree) (xs : list barg) : tree :=
  match t with
  | Stk w p f d k => Stk w p f d (push_many stop brs_push1 k xs)
  | Leaf c => Leaf c
  end.
(* bind.go:420-525 And, Or, Not; [pad] is the variable StackPadding (misc.go:77) *)
Definition brs_new (stop pad : bool) (w : word) (xs : list barg) : tree := brs_push stop (Stk w false false pad []) xs.
(* bind.go:888-906 Pop *)
Definition brs_pop (t : tree) : tree :=
  match t with Stk w p f d k => Stk w p f d (pop k) | Leaf c => Leaf c end.
(* bind.go:961-964 Paren(state), 976-979 Fold(state), 996-999 NoPadding(state) *)
Definition brs_paren (b : bool) (t : tree) : tree :=
  match t with Stk w _ f d k => Stk w b f d k | Leaf c => Leaf (with_paren c b) end.
Definition brs_fold (b : bool) (t : tree) : tree :=
  match t with Stk w p _ d k => Stk w p b d k | Leaf c => Leaf c end.
Definition brs_nopadding (b : bool) (t : tree) : tree :=
  match t with Stk w p f _ k => Stk w p f (negb b) k | Leaf c => Leaf (with_pad c (negb b)) end.
Inductive brscall := SPush (xs : list barg) | SPop | SParen (b : bool) | SFold (b : bool) | SNoPadding (b : bool).
Definition brs_step (stop : bool) (t : tree) (c : brscall) : tree :=
  match c with
  | SPush xs => brs_push stop t xs
  | SPop => brs_pop t
  | SParen b => brs_paren b t
  | SFold b => brs_fold b t
  | SNoPadding b => brs_nopadding b t
  end.
Definition brs_run (stop : bool) (t : tree) (h : list brscall) : tree := fold_left (brs_step stop) h t.

(* ---------------- conversion of the parser's result ---------------- *)
(* The parser's stacks: Kind() text, parentheses, members; a member that is
   neither a Condition nor a Stack is [PNeither].  As in Go a Condition may be
   uninitialised. *)
Inductive ptree :=
| PCond (r : rule)
| PStk (kind : string) (paren : bool) (kids : list ptree)
| PNeither.

(* bind.go:671-693 wordToStack *)
Definition wordToStack (k : string) : option word :=
  if has_suffix "NOT" (uc k) then Some WNot
  else if eqfold k "AND" then Some WAnd
  else if eqfold k "OR" then Some WOr
  else None.

(* bind.go:657-669 isCloaked; the category of a NOT stack is "not" *)
Definition isCloaked (t : tree) : bool :=
  match t with
  | Stk WNot _ _ _ _ => false
  | Stk _ paren _ _ [Stk _ _ _ _ _] => negb paren
  | _ => false
  end.
(* bind.go:645-652 uncloak *)
Fixpoint uncloak (t : tree) : tree :=
  match t with
  | Stk _ _ _ _ (k :: _) => if isCloaked k then uncloak k else k
  | _ => t
  end.
(* bind.go:633-640 uncloakBindRules *)
Definition uncloakBindRules (t : tree) : tree :=
  match t with
  | Stk w p f d kids => Stk w p f d (map (fun k => if isCloaked k then uncloak k else k) kids)
  | Leaf c => Leaf c
  end.

(* [CZero]: success with the uninitialised BindRules *)
Inductive cres := CPanic | CFail | CZero | COk (t : tree).
Inductive kres := KPanic | KFail | KOk (l : list tree).
Section Convert.
Variable en : env.
Variable pad : bool.           (* StackPadding *)
Variable notsep : string.      (* see Render *)
Variable zero : string.        (* the text of an uninitialised stack, which is go-stackage's *)
(* what happens with a stack whose word is unknown: the loop does not run, but
   whether the conversion succeeded is then decided by the text of what it made, and
   that is the uninitialised stack (bind.go:559, 624) *)
Definition unknown_word : cres := if (0 <? String.length zero)%nat then CZero else CFail.
(* bind.go:543-631 convertBindRulesHierarchy.  The loop over the members is the
   inner fixpoint: an error of a rule ends the loop and is not reported.  A nested
   [CZero] is pushed and refused by the push policy. *)
Fixpoint convert (t : ptree) : cres :=
  match t with
  | PStk kind _ kids =>
      match wordToStack kind with
      | None => unknown_word
      | Some w =>
          let fix loop (clean : list tree) (ks : list ptree) : kres :=
            match ks with
            | [] => KOk clean
            | m :: rest =>
                match m with
                | PCond r =>
                    match br_assert en (br_paren (match r with Some c => c_paren c | None => false end) r) with
                    | RPanic => KPanic
                    | RErr => KOk clean
                    | ROk r' => loop (brs_push1 clean (PRule r')) rest
                    end
                | PStk _ p _ =>
                    match convert m with
                    | COk sub => loop (brs_push1 clean (PStack (Some (uncloakBindRules (brs_paren p sub))))) rest
                    | CZero => loop clean rest
                    | CFail => KFail
                    | CPanic => KPanic
                    end
                | PNeither => loop clean rest
                end
            end in
          match loop [] kids with
          | KPanic => CPanic
          | KFail => CFail
          | KOk l =>
              let clean := Stk w false false pad l in
              if (0 <? String.length (tstr notsep clean))%nat then COk (uncloakBindRules clean) else CFail
          end
      end
  | _ => unknown_word
  end.
(* parse.go:69-97 parseBindRules after the parser: an error when the conversion
   reports failure *)
Definition parseBindRules_tail (t : ptree) : cres := convert t.
End Convert.

(* ---------------- prefabricated rules ---------------- *)
(* time.go:389-396 Timeframe, with the methods Ge and Lt of a TimeOfDay (time.go:430-465) *)
Definition tod_rule (rulePadding : bool) (t : MTime.tod) (op : N) : rule :=
  if MTime.tod_valid t then BR rulePadding "timeofday" (OCop op) (Some (XText (MTime.tod_string t))) else None.
Definition Timeframe (stop rulePadding pad : bool) (notBefore notAfter : MTime.tod) : tree :=
  brs_new stop pad WAnd [PRule (tod_rule rulePadding notBefore Ge); PRule (tod_rule rulePadding notAfter Lt)].
