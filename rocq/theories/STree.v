(* Specification for C13, C41, C42, C47, C60-C62: the boolean meaning of rule
   trees, the part of a parsed tree that survives a failing rule, and a reader
   for bind-rule texts. *)
From Coq Require Import String Ascii List PeanoNat NArith ZArith Bool.
From Verif Require Import GoStr GoStrFacts SKw MRule MConv MTree STime SSec SNet.
Import ListNotations.
Open Scope string_scope.

(* ---- meaning ---- *)
(* AND: all members, OR: some member, NOT of several members: whatever
   [negated] says (in C47 NOT has one member and means negation). *)
Definition combine (negated : list bool -> bool) (w : word) (l : list bool) : bool :=
  match w with WAnd => forallb (fun b => b) l | WOr => existsb (fun b => b) l | WNot => negated l end.
Fixpoint meaning (negated : list bool -> bool) (v : cond -> bool) (t : tree) : bool :=
  match t with
  | Leaf c => v c
  | Stk w _ _ _ ks => combine negated w (map (meaning negated v) ks)
  end.
(* the word a parsed stack's Kind stands for *)
Definition kind_word (k : string) : option word :=
  if has_suffix "not" (map_bytes lower_byte k) then Some WNot
  else if String.eqb (map_bytes lower_byte k) "and" then Some WAnd
  else if String.eqb (map_bytes lower_byte k) "or" then Some WOr
  else None.
Fixpoint pmeaning (negated : list bool -> bool) (v : rule -> bool) (t : ptree) : bool :=
  match t with
  | PCond r => v r
  | PStk k _ ks => match kind_word k with
                   | Some w => combine negated w (map (pmeaning negated v) ks)
                   | None => false
                   end
  | PNeither => false
  end.

(* ---- parsed trees ---- *)
Definition known_kind (k : string) : bool := match kind_word k with Some _ => true | None => false end.
(* every rule in the tree can be converted, every stack is an AND, OR or NOT (and
   there is nothing else in the tree) *)
Fixpoint all_convert (en : env) (t : ptree) : bool :=
  match t with
  | PCond r => match br_assert en r with ROk _ => true | _ => false end
  | PStk k _ ks => known_kind k && forallb (all_convert en) ks
  | PNeither => false
  end.
(* no stack is empty, and all kinds are known *)
Fixpoint sound (t : ptree) : bool :=
  match t with
  | PStk k _ ks => known_kind k &&
                   negb (List.length ks =? 0)%nat && forallb sound ks
  | _ => true
  end.
Fixpoint panics (en : env) (t : ptree) : bool :=
  match t with
  | PCond r => match br_assert en r with RPanic => true | _ => false end
  | PStk _ _ ks => existsb (panics en) ks
  | PNeither => false
  end.
(* is there anything in the text *)
Definition shows (s : string) : bool := negb (String.eqb s "").
(* the tree without, in every stack, the first rule that cannot be converted and
   everything that follows it there; with [z], also without the nested stacks that
   are no AND, OR or NOT *)
Fixpoint cut (z : bool) (en : env) (t : ptree) : ptree :=
  match t with
  | PStk k p ks =>
      PStk k p ((fix go (ks : list ptree) : list ptree :=
        match ks with
        | [] => []
        | m :: rest =>
            match m with
            | PCond r => match br_assert en r with ROk _ => m :: go rest | _ => [] end
            | PStk k _ _ => if (z && negb (known_kind k))%bool then go rest else cut z en m :: go rest
            | PNeither => go rest
            end
        end) ks)
  | _ => t
  end.

(* ---- a reader of bind-rule texts ---- *)
Inductive token := TLp | TRp | TBar | TWord (s : string) | TOp (s : string) | TVal (s : string).
Inductive lstate := LStart | LWord (acc : string) | LOp (acc : string) | LVal (acc : string) | LBar.
Definition word_byte (c : ascii) : bool := is_letter c || Ascii.eqb c "_".
Definition sign_byte (c : ascii) : bool := Ascii.eqb c "=" || Ascii.eqb c "!" || Ascii.eqb c "<" || Ascii.eqb c ">".
Definition snoc (s : string) (c : ascii) : string := s ++ String c "".
Definition cons_tok (t : token) (l : option (list token)) : option (list token) :=
  match l with Some l => Some (t :: l) | None => None end.
Fixpoint lex (st : lstate) (s : string) : option (list token) :=
  match s with
  | EmptyString =>
      match st with
      | LStart => Some []
      | LWord a => Some [TWord a]
      | LOp a => Some [TOp a]
      | LVal _ | LBar => None
      end
  | String c r =>
      let start :=
        if Ascii.eqb c " " then lex LStart r
        else if Ascii.eqb c "(" then cons_tok TLp (lex LStart r)
        else if Ascii.eqb c ")" then cons_tok TRp (lex LStart r)
        else if Ascii.eqb c "|" then lex LBar r
        else if Ascii.eqb c """" then lex (LVal "") r
        else if word_byte c then lex (LWord (String c "")) r
        else if sign_byte c then lex (LOp (String c "")) r
        else None in
      match st with
      | LStart => start
      | LWord a => if word_byte c then lex (LWord (snoc a c)) r else cons_tok (TWord a) start
      | LOp a => if sign_byte c then lex (LOp (snoc a c)) r else cons_tok (TOp a) start
      | LVal a => if Ascii.eqb c """" then cons_tok (TVal a) (lex LStart r) else lex (LVal (snoc a c)) r
      | LBar => if Ascii.eqb c "|" then cons_tok TBar (lex LStart r) else None
      end
  end.

(* OR binds weakest, then AND, then NOT; atoms are keyword, operator and one or
   more quoted values separated by two bars *)
Inductive bexp :=
| EAtom (kw op : string) (vals : list string)
| ENot (e : bexp) | EAnd (a b : bexp) | EOr (a b : bexp).
Fixpoint value (v : string -> string -> list string -> bool) (e : bexp) : bool :=
  match e with
  | EAtom k o l => v k o l
  | ENot e => negb (value v e)
  | EAnd a b => value v a && value v b
  | EOr a b => value v a || value v b
  end.
Fixpoint more_values (ts : list token) : list string * list token :=
  match ts with
  | TBar :: TVal s :: r => let (l, r') := more_values r in (s :: l, r')
  | _ => ([], ts)
  end.
Definition is_word (w s : string) : bool := String.eqb (lc s) w.
(* [n] bounds the number of nested calls *)
Fixpoint parse_or (n : nat) (ts : list token) : option (bexp * list token) :=
  match n with
  | O => None
  | S n =>
      match parse_and n ts with
      | Some (a, TWord w :: r) =>
          if is_word "or" w then
            match parse_or n r with Some (b, r') => Some (EOr a b, r') | None => None end
          else Some (a, TWord w :: r)
      | x => x
      end
  end
with parse_and (n : nat) (ts : list token) : option (bexp * list token) :=
  match n with
  | O => None
  | S n =>
      match parse_unary n ts with
      | Some (a, TWord w :: r) =>
          if is_word "and" w then
            match parse_and n r with Some (b, r') => Some (EAnd a b, r') | None => None end
          else Some (a, TWord w :: r)
      | x => x
      end
  end
with parse_unary (n : nat) (ts : list token) : option (bexp * list token) :=
  match n with
  | O => None
  | S n =>
      match ts with
      | TLp :: r => match parse_or n r with
                    | Some (e, TRp :: r') => Some (e, r')
                    | _ => None
                    end
      | TWord w :: r =>
          if is_word "not" w then
            match parse_unary n r with Some (e, r') => Some (ENot e, r') | None => None end
          else
            match r with
            | TOp o :: TVal s :: r' =>
                let (l, r'') := more_values r' in Some (EAtom w o (s :: l), r'')
            | _ => None
            end
      | _ => None
      end
  end.
Definition read (s : string) : option bexp :=
  match lex LStart s with
  | Some ts => match parse_or (3 * List.length ts + 3) ts with
               | Some (e, []) => Some e
               | _ => None
               end
  | None => None
  end.

(* ---- trees that show their structure ---- *)
(* the values a rule shows, each in its own quotes *)
Definition shown (c : cond) : list string :=
  match c_ex c with
  | Some (XText s) => [s]
  | Some (XList _ true l) => l
  | Some (XList _ false l) | Some (XRaw _ l) => [join " || " l]
  | None => [""]
  end.
Definition sign_of (c : cond) : string :=
  match c_op c with
  | Some n => match find (fun o => relop_const o =? n)%N [REq; RNe; RLt; RLe; RGt; RGe] with
              | Some o => relop_symbol o
              | None => ""
              end
  | None => ""
  end.
(* a rule with a keyword made of letters, none of the three words, a known
   operator, and quoted values without double quotes *)
Definition rule_ok (c : cond) : Prop :=
  c_kw c <> "" /\ all_bytes word_byte (c_kw c) = true /\
  ~ In (lc (c_kw c)) ["and"; "or"; "not"] /\
  (exists o, c_op c = Some (relop_const o)) /\
  (forall s, In s (shown c) -> no_byte """" s = true) /\
  match c_ex c with
  | Some (XList _ true l) => c_quoted c = false /\ l <> []
  | _ => c_quoted c = true
  end.
(* how tightly the text of a tree holds together: 2 a rule, anything in
   parentheses and a NOT; 1 a bare AND; 0 a bare OR; a bare stack of one member
   is as that member *)
Fixpoint level (t : tree) : nat :=
  match t with
  | Leaf _ => 2
  | Stk w paren _ _ ks =>
      if paren then 2
      else match w with
           | WNot => 2
           | _ => match ks with
                  | [k] => level k
                  | _ => match w with WAnd => 1 | _ => 0 end
                  end
           end
  end.
(* parenthesised where a reader needs it: members of an AND are not bare ORs, the
   member of a bare NOT is not a bare AND or OR, and NOT has one member *)
Fixpoint readable (t : tree) : Prop :=
  match t with
  | Leaf c => rule_ok c
  | Stk w paren _ _ ks =>
      ks <> [] /\ (fix all l := match l with [] => True | k :: r => readable k /\ all r end) ks /\
      match w with
      | WAnd => List.length ks = 1 \/ forall k, In k ks -> 1 <= level k
      | WOr => True
      | WNot => List.length ks = 1 /\ (paren = true \/ forall k, In k ks -> level k = 2)
      end
  end.
Definition top_not (t : tree) : bool := match t with Stk WNot _ _ _ _ => true | _ => false end.

(* ---- times of day (C13) ---- *)
(* minutes since midnight of a text of four digits *)
Definition minutes (s : string) : option N :=
  match s with
  | String a (String b (String c (String d ""))) =>
      match digit_val a, digit_val b, digit_val c, digit_val d with
      | Some a, Some b, Some c, Some d => Some ((a * 10 + b) * 60 + c * 10 + d)%N
      | _, _, _, _ => None
      end
  | _ => None
  end.
Definition compares (o : relop) (x y : N) : bool :=
  match o with
  | REq => x =? y | RNe => negb (x =? y) | RLt => x <? y | RLe => x <=? y | RGt => y <? x | RGe => y <=? x
  end%N.
(* is a timeofday rule true at a moment given in minutes since midnight? *)
Definition true_at (now : N) (c : cond) : bool :=
  match c_ex c, find (fun o => String.eqb (relop_symbol o) (sign_of c)) [REq; RNe; RLt; RLe; RGt; RGe] with
  | Some (XText s), Some o =>
      match minutes s with
      | Some x => String.eqb (c_kw c) "timeofday" && compares o now x
      | None => false
      end
  | _, _ => false
  end.

(* ---- single converted rules (C58) ---- *)
(* the values these keywords take: a clock time, a number up to 256, different
   plausible addresses separated by commas, 2 to 15 labels, a method name *)
Definition single_value_ok (k : bindkw) (u : string) : Prop :=
  match k with
  | TimeOfDay => is_clock u
  | StrengthFactor => exists n, (n <= 256)%N /\ u = itoa n
  | IPAddr => NoDup (split1 "," u) /\ forall x, In x (split1 "," u) -> plausible x
  | DNSName => ((2 <= List.length (split1 "." u) <= 15)%nat /\ (String.length u <= 63)%nat /\
                (forall x, In x (split1 "." u) -> label_ok x)) \/ u = "<invalid_fqdn_or_label>"
  | AuthMethod => exists m, names_auth u m
  | _ => False
  end.
Definition single_valued (k : bindkw) : bool :=
  match k with TimeOfDay | StrengthFactor | IPAddr | DNSName | AuthMethod => true | _ => false end.

(* ---- members of a stack (C59) ---- *)
Definition member_of (x : barg) : list tree :=
  match x with
  | PRule (Some c) => [Leaf c]
  | PStack (Some (Stk w p f d k)) => [Stk w p f d k]
  | _ => []
  end.
(* one of the eleven bind keywords in any letter case *)
Definition known_keyword (c : cond) : Prop := exists k, eqfold (c_kw c) (bindkw_name k) = true.
