(* Specification of days and clock times (C09-C13). *)
From Coq Require Import String Ascii List PeanoNat NArith ZArith Bool.
From Verif Require Import GoStr MTime.
Import ListNotations.
Open Scope string_scope.

Inductive day := DSun | DMon | DTue | DWed | DThu | DFri | DSat.
Definition all_days := [DSun; DMon; DTue; DWed; DThu; DFri; DSat].
Definition day_const (d : day) : N :=
  match d with DSun => 2 | DMon => 4 | DTue => 8 | DWed => 16 | DThu => 32 | DFri => 64 | DSat => 128 end.
Definition day_pos (d : day) : N :=
  match d with DSun => 1 | DMon => 2 | DTue => 3 | DWed => 4 | DThu => 5 | DFri => 6 | DSat => 7 end.
(* the printed name *)
Definition day_name (d : day) : string :=
  match d with
  | DSun => "Sun" | DMon => "Mon" | DTue => "Tues" | DWed => "Wed" | DThu => "Thur"
  | DFri => "Fri" | DSat => "Sat"
  end.
(* the accepted spellings *)
Definition day_spellings (d : day) : list string :=
  match d with
  | DSun => ["sun"; "sunday"; "1"] | DMon => ["mon"; "monday"; "2"]
  | DTue => ["tues"; "tuesday"; "3"] | DWed => ["wed"; "wednesday"; "4"]
  | DThu => ["thur"; "thurs"; "thursday"; "5"] | DFri => ["fri"; "friday"; "6"]
  | DSat => ["sat"; "saturday"; "7"]
  end.
Definition names_day (s : string) (d : day) : Prop := In (lc s) (day_spellings d).

Definition day_num (d : day) : Z :=
  match d with DSun => 1 | DMon => 2 | DTue => 3 | DWed => 4 | DThu => 5 | DFri => 6 | DSat => 7 end.

(* the items of a dayofweek text *)
Definition day_items (s : string) : list string := split1 "," (remove_byte " " s).

(* does an argument mention the day? *)
Definition dmentions (x : darg) (d : day) : bool :=
  match x with
  | DInt z => (z =? day_num d)%Z
  | DStr s => existsb (String.eqb (lc s)) (day_spellings d)
  | DDay n => N.testbit n (day_pos d)
  | DOther => false
  end.
(* Day values that are a non-empty combination of the seven days *)
Definition darg_ok (x : darg) : Prop :=
  match x with DDay n => (0 < n < 256)%N /\ N.testbit n 0 = false | _ => True end.
Definition dcall_args (c : dow_call) : list darg :=
  match c with DShift xs => xs | DUnshift xs => xs end.
Definition dcalls_ok (h : list dow_call) : Prop :=
  forall c x, In c h -> In x (dcall_args c) -> darg_ok x.
Definition is_dshift (c : dow_call) : bool :=
  match c with DShift _ => true | DUnshift _ => false end.
(* the last call that mentions the day decides *)
Fixpoint day_in (g : bool) (h : list dow_call) (d : day) : bool :=
  match h with
  | [] => g
  | c :: t => day_in (if existsb (fun x => dmentions x d) (dcall_args c) then is_dshift c else g) t d
  end.

(* ---- clock ---- *)
Definition two_digits (n : N) : string :=
  String (ascii_of_N (48 + n / 10)) (String (ascii_of_N (48 + n mod 10)) EmptyString).
Definition clock_text (h m : N) : string := two_digits h ++ two_digits m.
(* 0000 through 2359, and 2400 *)
Definition clock (h m : N) : Prop := (h < 24 /\ m < 60)%N \/ (h = 24 /\ m = 0)%N.
Definition is_clock (s : string) : Prop := exists h m, clock h m /\ s = clock_text h m.
