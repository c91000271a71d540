(* Specification for C05-C08 and C22-C25. *)
From Coq Require Import String Ascii List PeanoNat NArith ZArith Bool.
From Verif Require Import GoStr Shifty MKw MAttr MLevels.
Import ListNotations.
Open Scope string_scope.

(* ---- identifiers ---- *)
(* a byte that is a cased letter (Latin-1): A-Z, a-z, the micro sign, and the accented
   letters without the signs for times and divided by *)
Definition letter (c : ascii) : bool :=
  existsb (fun r => byte_between (fst r) (snd r) c) [(65, 90); (97, 122); (181, 181); (192, 214); (216, 246); (248, 255)]%N.
Definition letter_or_digit (c : ascii) : bool := letter c || byte_between 48 57 c.
Definition name_byte (c : ascii) : bool :=
  letter_or_digit c || Ascii.eqb c "-" || Ascii.eqb c ";".
Fixpoint chars (s : string) : list ascii :=
  match s with EmptyString => [] | String c r => c :: chars r end.
(* starts with a letter, ends with a letter or digit, name bytes throughout *)
Definition identifier (s : string) : Prop :=
  (exists c r, s = String c r /\ letter c = true) /\
  (exists r c, s = r ++ String c "" /\ letter_or_digit c = true) /\
  (forall c, In c (chars s) -> name_byte c = true).
Definition attr_name (s : string) : Prop := identifier s \/ s = "*".
(* the ASCII letters *)
Definition ascii_letter (c : ascii) : bool := byte_between 65 90 c || byte_between 97 122 c.

(* ---- attr#value ---- *)
Inductive what := WType (n : N) | WValue (v : string).
(* one of the five bind types; or a non-empty value that does not read as one *)
Definition what_ok (w : what) : Prop :=
  match w with
  | WType n => (1 <= n <= 5)%N
  | WValue v => v <> "" /\ matchBT v = 0%N
  end.
Definition what_text (w : what) : string :=
  match w with WType n => bt_string n | WValue v => v end.
Definition what_second (w : what) : second :=
  match w with WType n => SBT n | WValue v => SAV (Some v) end.
(* the pair holding attribute name a and w *)
Definition pair_of (a : string) (w : what) : pair_t := (Some (Some a), what_second w).

(* ---- levels ---- *)
Definition digit (n : N) : string := String (ascii_of_N (48 + n)) EmptyString.
Definition all_levels : list N := [0;1;2;3;4;5;6;7;8;9]%N.
Definition lmentions (x : larg) (n : N) : bool :=
  match x with
  | LLevel m => N.testbit m (n + 1)
  | LInt z => (z =? Z.of_N n)%Z
  | LStr s => String.eqb s (digit n)
  | LOther => false
  end.
(* arguments that name levels and nothing else *)
Definition larg_ok (x : larg) : Prop :=
  match x with
  | LLevel m => (0 < m < 2048)%N /\ N.testbit m 0 = false
  | LInt z => (0 <= z <= 9)%Z
  | LStr s => exists n, (n < 10)%N /\ s = digit n
  | LOther => False
  end.
Definition lcall_args (c : inh_call) : list larg := match c with IShift xs => xs | IUnshift xs => xs end.
Definition lcalls_ok (h : list inh_call) : Prop := forall c x, In c h -> In x (lcall_args c) -> larg_ok x.
Definition is_ishift (c : inh_call) : bool := match c with IShift _ => true | IUnshift _ => false end.
Fixpoint level_in (g : bool) (h : list inh_call) (n : N) : bool :=
  match h with
  | [] => g
  | c :: t => level_in (if existsb (fun x => lmentions x n) (lcall_args c) then is_ishift c else g) t n
  end.
