(* Model of /repo/time.go and its readers in /repo/parse.go. Definitions only. *)
From Coq Require Import String Ascii List PeanoNat NArith ZArith Bool.
From Verif Require Import GoStr Shifty MMisc.
Import ListNotations.
Open Scope string_scope.

(* time.go:16-25 Day constants (iota is 1 at Sun) *)
Definition noDay : N := 0.
Definition Sun : N := 2.
Definition Mon : N := 4.
Definition Tues : N := 8.
Definition Wed : N := 16.
Definition Thur : N := 32.
Definition Fri : N := 64.
Definition Sat : N := 128.
Definition badDoW : string := "<invalid_days>".

(* time.go:66-86 matchStrDoW: a switch over lc(d) *)
Definition matchStrDoW (d : string) : N :=
  let l := lc d in
  if strInSlice l ["sun"; "sunday"; "1"] then Sun
  else if strInSlice l ["mon"; "monday"; "2"] then Mon
  else if strInSlice l ["tues"; "tuesday"; "3"] then Tues
  else if strInSlice l ["wed"; "wednesday"; "4"] then Wed
  else if strInSlice l ["thur"; "thurs"; "thursday"; "5"] then Thur
  else if strInSlice l ["fri"; "friday"; "6"] then Fri
  else if strInSlice l ["sat"; "saturday"; "7"] then Sat
  else noDay.

(* time.go:88-108 matchIntDoW *)
Definition matchIntDoW (d : Z) : N :=
  if (d =? 1)%Z then Sun else if (d =? 2)%Z then Mon else if (d =? 3)%Z then Tues
  else if (d =? 4)%Z then Wed else if (d =? 5)%Z then Thur else if (d =? 6)%Z then Fri
  else if (d =? 7)%Z then Sat else noDay.

(* time.go:323-343 Day.String *)
Definition day_string (r : N) : string :=
  if (r =? Sun)%N then "Sun" else if (r =? Mon)%N then "Mon"
  else if (r =? Tues)%N then "Tues" else if (r =? Wed)%N then "Wed"
  else if (r =? Thur)%N then "Thur" else if (r =? Fri)%N then "Fri"
  else if (r =? Sat)%N then "Sat" else badDoW.

(* argument of type any; DDay is Day (uint8) *)
Inductive darg := DInt (z : Z) | DStr (s : string) | DDay (n : N) | DOther.

(* DayOfWeek is an 8 bit BitValue (shifty.go:37-40); None is the uninitialised
   value, whose Kind() is zero (time.go:232-234). *)
Definition dow := option N.

Section WithShifty.
Variable sh : shifty.

(* time.go:179-188 body of the loop of Shift *)
Definition dow_shift1 (v : N) (x : darg) : N :=
  match x with
  | DInt z => if (matchIntDoW z =? noDay)%N then v else sh_shift sh 8 v (Z.of_N (matchIntDoW z))
  | DStr s => if (matchStrDoW s =? noDay)%N then v else sh_shift sh 8 v (Z.of_N (matchStrDoW s))
  | DDay n => sh_shift sh 8 v (Z.of_N n)
  | DOther => v
  end.
(* time.go:215-224 body of the loop of Unshift *)
Definition dow_unshift1 (v : N) (x : darg) : N :=
  match x with
  | DInt z => if (matchIntDoW z =? noDay)%N then v else sh_unshift sh 8 v (Z.of_N (matchIntDoW z))
  | DStr s => if (matchStrDoW s =? noDay)%N then v else sh_unshift sh 8 v (Z.of_N (matchStrDoW s))
  | DDay n => sh_unshift sh 8 v (Z.of_N n)
  | DOther => v
  end.

(* time.go:170-191 Shift, 206-227 Unshift, 113-118 DoW *)
Definition dow_shift (d : dow) (xs : list darg) : dow :=
  let v := match d with Some v => v | None => 0%N end in
  Some (fold_left dow_shift1 xs v).
Definition dow_unshift (d : dow) (xs : list darg) : dow :=
  match d with
  | None => None
  | Some v => Some (fold_left dow_unshift1 xs v)
  end.
Definition DoW (xs : list darg) : dow := dow_shift (Some 0%N) xs.

(* time.go:196-201 Positive *)
Definition dow_positive (d : dow) (x : N) : bool :=
  match d with None => false | Some v => sh_positive sh 8 v (Z.of_N x) end.

Definition bits8 : list N := [0;1;2;3;4;5;6;7]%N.
Definition days_set (v : N) : list N :=
  filter (fun i => sh_positive sh 8 v (Z.of_N (2 ^ i))) bits8.

(* time.go:132-141 Len; Size() of the uninitialised value is taken to be 0 *)
Definition dow_len (d : dow) : nat :=
  match d with None => 0 | Some v => List.length (days_set v) end.

(* time.go:239-255 String *)
Definition dow_string (d : dow) : string :=
  match d with
  | None => badDoW
  | Some v =>
      match days_set v with
      | [] => badDoW
      | l => join "," (map (fun i => day_string (2 ^ i)) l)
      end
  end.

(* time.go:269-280 Valid (true: no error) *)
Definition dow_valid (d : dow) : bool :=
  match d with
  | None => false
  | Some _ => negb (String.eqb (dow_string d) badDoW)
  end.

(* time.go:40-47 the loop of parseDoW; None: error *)
Fixpoint parseDoW_loop (v : N) (X : list string) : option N :=
  match X with
  | [] => Some v
  | x :: r =>
      let dw := matchStrDoW x in
      if (dw =? noDay)%N then None
      else parseDoW_loop (dow_shift1 v (DDay dw)) r
  end.
(* time.go:37-50 parseDoW; None: error *)
Definition parseDoW (s : string) : option dow :=
  match parseDoW_loop 0 (split1 "," (remove_byte " " s)) with
  | None => None
  | Some v => if dow_valid (Some v) then Some (Some v) else None
  end.

(* parse.go:198-208 assertBindDayOfWeek on the expression's values *)
Definition assertBindDayOfWeek (vals : list string) : option dow :=
  match vals with
  | [v] => parseDoW (unquote (condenseWHSP v))
  | _ => None
  end.

Inductive dow_call := DShift (xs : list darg) | DUnshift (xs : list darg).
Definition dow_step (d : dow) (c : dow_call) : dow :=
  match c with DShift xs => dow_shift d xs | DUnshift xs => dow_unshift d xs end.
Definition dow_run (d : dow) (h : list dow_call) : dow := fold_left dow_step h d.
End WithShifty.

(* ---- TimeOfDay ---- *)
(* time.go:359-378: nil, or two bytes; here the 16 bit number they encode
   (big endian, uint16p/uint16g, misc.go:106-107) *)
Definition tod := option N.
Definition badToD : string := "<invalid_timeofday>".

(* argument of Set/ToD: a time.Time (zero?, hour, minute), a string, other *)
Inductive targ := TTime (zero : bool) (h m : N) | TStr (s : string) | TOther.

(* time.Parse("1504", s) succeeds: four digits, hour < 24, minute < 60 *)
Definition time_parse_1504 (s : string) : bool :=
  match s with
  | String a (String b (String c (String d EmptyString))) =>
      match digit_val a, digit_val b, digit_val c, digit_val d with
      | Some a', Some b', Some c', Some d' =>
          ((a' * 10 + b' <? 24) && (c' * 10 + d' <? 60))%N
      | _, _, _, _ => false
      end
  | _ => false
  end.

(* time.go:558-575 assertToD, string case, on the current number *)
Definition assertToD_str (r : N) (s : string) : N :=
  let '(tv, offset) := if String.eqb s "2400" then ("2359", 41%Z) else (s, 0%Z) in
  if time_parse_1504 tv then
    let '(n, ok) := atoi tv in
    if ok then Z.to_N ((n + offset) mod 65536) else r
  else r.

(* %02d of a number below 100 *)
Definition fmt02d (n : N) : string :=
  if (n <? 10)%N then "0" ++ itoa n else itoa n.

(* time.go:550-577 assertToD *)
Definition assertToD (r : N) (t : targ) : N :=
  match t with
  | TTime zero h m => if zero then r else assertToD_str r (fmt02d h ++ fmt02d m)
  | TStr s => assertToD_str r s
  | TOther => r
  end.

(* time.go:366-376 ToD / newTimeOfDay *)
Definition ToD (x : list targ) : tod :=
  match x with
  | [] => Some 0%N
  | t :: _ => Some (assertToD 0 t)
  end.
(* time.go:534-537 Set replaces the receiver *)
Definition tod_set (_ : tod) (t : targ) : tod := ToD [t].

(* time.go:497-510 String, 515-520 Valid *)
Definition tod_string (r : tod) : string :=
  match r with None => badToD | Some n => fmt04d n end.
Definition tod_valid (r : tod) : bool :=
  match r with None => false | Some _ => true end.

(* parse.go:185-196 assertBindTimeOfDay with badClockTimeErr (err.go) *)
Definition assertBindTimeOfDay (vals : list string) : option tod :=
  match vals with
  | [v] =>
      let unq := unquote (condenseWHSP v) in
      let ex := ToD [TStr unq] in
      if String.eqb (tod_string ex) unq then Some ex else None
  | _ => None
  end.
