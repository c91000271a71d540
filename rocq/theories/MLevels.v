(* Model of /repo/levels.go and of the userattr reader in /repo/parse.go.
   Definitions only. *)
From Coq Require Import String Ascii List PeanoNat NArith ZArith Bool.
From Verif Require Import GoStr Shifty MMisc MKw MAttr.
Import ListNotations.
Open Scope string_scope.

(* levels.go:18-32: Level n is 1 << (n+1) (iota is 1 at Level0) *)
Definition level_const (n : N) : N := (2 ^ (n + 1))%N.
(* levels.go:431-442 levelMap, 444-455 levelNumbers *)
Definition levelMap : list (Z * N) :=
  [(0, level_const 0); (1, level_const 1); (2, level_const 2); (3, level_const 3);
   (4, level_const 4); (5, level_const 5); (6, level_const 6); (7, level_const 7);
   (8, level_const 8); (9, level_const 9)]%Z.
Definition levelNumbers : list (string * N) :=
  [("0", level_const 0); ("1", level_const 1); ("2", level_const 2); ("3", level_const 3);
   ("4", level_const 4); ("5", level_const 5); ("6", level_const 6); ("7", level_const 7);
   ("8", level_const 8); ("9", level_const 9)].

(* levels.go:357-363 assertIntInheritance, 343-352 assertStrInheritance (the
   names are distinct, so iteration order does not matter), 288-297 Level.String *)
Fixpoint lvl_of_int (t : list (Z * N)) (x : Z) : N :=
  match t with [] => 0%N | (k, v) :: r => if (k =? x)%Z then v else lvl_of_int r x end.
Fixpoint lvl_of_str (t : list (string * N)) (x : string) : N :=
  match t with [] => 0%N | (k, v) :: r => if String.eqb x k then v else lvl_of_str r x end.
Fixpoint lvl_string (t : list (string * N)) (l : N) : string :=
  match t with [] => "" | (k, v) :: r => if (l =? v)%N then k else lvl_string r l end.

Inductive larg := LLevel (n : N) | LInt (z : Z) | LStr (s : string) | LOther.
(* levels.go:327-335, 386-394, 415-423: the number passed to the bit library *)
Definition larg_num (x : larg) : N :=
  match x with
  | LLevel n => n
  | LInt z => lvl_of_int levelMap z
  | LStr s => lvl_of_str levelNumbers s
  | LOther => 0%N
  end.

(* levels.go:37-47: nil, or the levels (16 bit value) and the attr#value.  The
   levels pointer itself is never nil in a value built by the package. *)
Record inh := MkInh { in_levels : N; in_abtv : abtv }.
Definition inheritance := option inh.
(* levels.go:77-79, 145-150 IsZero *)
Definition inh_isZero (r : inheritance) : bool :=
  match r with None => true | Some i => abtv_isZero (in_abtv i) end.

Section WithShifty.
Variable sh : shifty.

(* levels.go:321-338 shift, 413-426 unshift, 385-398 positive *)
Definition lvl_shift (v : N) (x : list larg) : N :=
  fold_left (fun v a => sh_shift sh 16 v (Z.of_N (larg_num a))) x v.
Definition lvl_unshift (v : N) (x : list larg) : N :=
  fold_left (fun v a => sh_unshift sh 16 v (Z.of_N (larg_num a))) x v.

(* levels.go:52-65 Inherit *)
Definition Inherit (x : abtv) (lvl : list larg) : inheritance := Some (MkInh (lvl_shift 0 lvl) x).
(* levels.go:309-316 Shift *)
Definition inh_shift (r : inheritance) (x : list larg) : inheritance :=
  let i := match r with
           | Some i => if abtv_isZero (in_abtv i) then MkInh 0 abtv_zero else i
           | None => MkInh 0 abtv_zero
           end in
  Some (MkInh (lvl_shift (in_levels i) x) (in_abtv i)).
(* levels.go:403-408 Unshift *)
Definition inh_unshift (r : inheritance) (x : list larg) : inheritance :=
  match r with
  | Some i => if abtv_isZero (in_abtv i) then r
              else Some (MkInh (lvl_unshift (in_levels i) x) (in_abtv i))
  | None => r
  end.
(* levels.go:368-373 Positive *)
Definition inh_positive (r : inheritance) (x : larg) : bool :=
  match r with
  | Some i => if abtv_isZero (in_abtv i) then false
              else sh_positive sh 16 (in_levels i) (Z.of_N (larg_num x))
  | None => false
  end.

Definition bits12 : list N := [0;1;2;3;4;5;6;7;8;9;10;11]%N.
(* levels.go:224-233 Len *)
Definition inh_len (r : inheritance) : nat :=
  List.length (filter (fun i => inh_positive r (LLevel (2 ^ i))) bits12).

(* levels.go:271-283 levels.string *)
Definition levels_string (v : N) : string :=
  join "," (if (0 <? v)%N then
              map (fun i => lvl_string levelNumbers (2 ^ i))
                  (filter (fun i => sh_positive sh 16 v (Z.of_N (2 ^ i))) bits12)
            else [lvl_string levelNumbers (level_const 0)]).

(* levels.go:257-266 String.  The attr#value is printed with %s; fmt turns a
   panic of its String method into a text, here the parameter [fmt_panic]. *)
Definition badInheritance : string := "<invalid_inheritance>".
Definition inh_string (fmt_panic : string) (r : inheritance) : string :=
  match r with
  | Some i =>
      if abtv_isZero (in_abtv i) then badInheritance
      else "parent[" ++ levels_string (in_levels i) ++ "]." ++
           match abtv_string (in_abtv i) with Some s => s | None => fmt_panic end
  | None => badInheritance
  end.

Inductive inhres := IPanic | IErr | IOk (i : inheritance).

(* levels.go:157-219 parseInheritance.  With IErr the returned instance is not
   used by the callers. *)
Definition parseInheritance (s : string) : inhres :=
  if negb (has_prefix "parent[" (lc s)) then IErr
  else
    let raw := sdrop 7 s in
    match idx "]" raw with
    | None => IErr
    | Some i =>
        match String.get (i + 1) raw with
        | None => IPanic
        | Some c =>
            if negb (Ascii.eqb c ".") then IErr
            else
              let lv := lvl_shift 0 (map LStr (split1 "," (remove_byte " " (stake i raw)))) in
              if (lv =? 0)%N then IErr
              else match parseATBTV (sdrop (i + 2) raw) [] with
                   | None => IErr
                   | Some a => IOk (Some (MkInh lv a))
                   end
        end
    end.

Inductive inh_call := IShift (xs : list larg) | IUnshift (xs : list larg).
Definition inh_step (r : inheritance) (c : inh_call) : inheritance :=
  match c with IShift xs => inh_shift r xs | IUnshift xs => inh_unshift r xs end.
Definition inh_run (r : inheritance) (h : list inh_call) : inheritance := fold_left inh_step h r.
End WithShifty.

(* parse.go:162-183 assertBindUGAttr.  The URI reader is the parameter; see MUri.v *)
Inductive ugattr := UInh (i : inheritance) | UAbtv (a : abtv) | UUri | UErr | UPanic.
Definition assertBindUGAttr (sh : shifty) (is_uri : string -> bool) (vals : list string) (key : N) : ugattr :=
  match vals with
  | [v] =>
      let value := unquote (condenseWHSP v) in
      if has_prefix "ldap:///" value then (if is_uri value then UUri else UErr)
      else if has_prefix "parent[" value then
        match parseInheritance sh value with IPanic => UPanic | IErr => UErr | IOk i => UInh i end
      else match parseATBTV value [Some key] with None => UErr | Some a => UAbtv a end
  | _ => UErr
  end.
