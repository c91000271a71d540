(* String of a day list or of an inheritance while other goroutines call Shift and Unshift on
   it.  Definitions only.

   cast (shifty.go:27-33) copies a value of the bit library, whose source is not available;
   time.go:184 and levels.go:336 call Shift on such a copy and rely on it to change the
   original, so that a copy shares its bits: the loops of String below read the bits anew in
   each turn.  Each call of the library is one read. *)
From Coq Require Import String List PeanoNat NArith ZArith Bool.
From Verif Require Import GoStr Shifty MHeap MTime MAttr MLevels MWord.
Import ListNotations.
Open Scope string_scope.

Section Seen.
Variable sh : shifty.
(* the bits of the day list and of the inheritance after the first t steps of q *)
Definition dow_bits_at (v : N) (css : list (list dow_call)) (q : list nat) (t : nat) : N :=
  word (word_run _ (dow_lib sh) (word_start _ v (map dow_edits css)) (firstn t q)).
Definition inh_bits_at (v : N) (css : list (list inh_call)) (q : list nat) (t : nat) : N :=
  word (word_run _ (inh_lib sh) (word_start _ v (map inh_edits css)) (firstn t q)).

(* time.go:239-255 String; [vs i] are the bits when Positive is called for bit i (line 245) *)
Definition dow_string_seen (vs : N -> N) : string :=
  match filter (fun i => sh_positive sh 8 (vs i) (Z.of_N (2 ^ i))) bits8 with
  | [] => badDoW
  | l => join "," (map (fun i => day_string (2 ^ i)) l)
  end.
Definition dow_string_at (v : N) (css : list (list dow_call)) (q : list nat) (t : N -> nat) : string :=
  dow_string_seen (fun i => dow_bits_at v css q (t i)).
(* time.go:269-280 Valid, 285-290 Eq and 297-302 Ne: whether a rule is made, by the text Valid
   gets; IsZero reads the kind of the value, which no method changes *)
Definition dow_made_at (v : N) (css : list (list dow_call)) (q : list nat) (t : N -> nat) : bool :=
  negb (String.eqb (dow_string_at v css q t) badDoW).

(* levels.go:271-285 levels.string; [v0] are the bits when Int is called (line 273), [vs i]
   when Positive is called for bit i (line 276) *)
Definition levels_string_seen (v0 : N) (vs : N -> N) : string :=
  join "," (if (0 <? v0)%N then
              map (fun i => lvl_string levelNumbers (2 ^ i))
                  (filter (fun i => sh_positive sh 16 (vs i) (Z.of_N (2 ^ i))) bits12)
            else [lvl_string levelNumbers (level_const 0)]).
(* levels.go:257-266 String; nobody changes the attribute and its value *)
Definition inh_string_at (fmt_panic : string) (a : abtv) (v : N) (css : list (list inh_call)) (q : list nat) (t0 : nat) (t : N -> nat) : string :=
  if abtv_isZero a then badInheritance
  else "parent[" ++ levels_string_seen (inh_bits_at v css q t0) (fun i => inh_bits_at v css q (t i)) ++ "]." ++
       match abtv_string a with Some s => s | None => fmt_panic end.
End Seen.
