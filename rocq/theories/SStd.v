(* Specification for C14 and C43, texts as Unicode and decimal notation have them,
   written without reference to the model of the standard library. *)
From Coq Require Import String Ascii List NArith ZArith Bool.
Import ListNotations.
Open Scope string_scope.

(* ---- Unicode ---- *)
(* a Unicode scalar value *)
Definition scalar (u : N) : Prop := (u < 55296 \/ 57344 <= u < 1114112)%N.
Definition byte (n : N) : string := String (ascii_of_N n) "".
(* its UTF-8 form *)
Definition utf8 (u : N) : string :=
  (if u <? 128 then byte u
   else if u <? 2048 then byte (192 + u / 64) ++ byte (128 + u mod 64)
   else if u <? 65536 then byte (224 + u / 4096) ++ byte (128 + u / 64 mod 64) ++ byte (128 + u mod 64)
   else byte (240 + u / 262144) ++ byte (128 + u / 4096 mod 64) ++ byte (128 + u / 64 mod 64) ++ byte (128 + u mod 64))%N.
Definition utf8_text (l : list N) : string := String.concat "" (map utf8 l).
(* the code points with the property White_Space *)
Definition white_space (u : N) : bool :=
  existsb (fun r => (fst r <=? u) && (u <=? snd r))%N
    [(9, 13); (32, 32); (133, 133); (160, 160); (5760, 5760); (8192, 8202); (8232, 8233); (8239, 8239); (8287, 8287); (12288, 12288)]%N.
Fixpoint strip_front (l : list N) : list N :=
  match l with [] => [] | u :: r => if white_space u then strip_front r else l end.
Definition strip (l : list N) : list N := rev (strip_front (rev (strip_front l))).

(* ---- decimal numbers ---- *)
(* the digits of s written behind the number acc *)
Fixpoint digits_from (acc : N) (s : string) : option N :=
  match s with
  | EmptyString => Some acc
  | String c r =>
      let d := N_of_ascii c in
      if ((48 <=? d) && (d <=? 57))%N then digits_from (10 * acc + (d - 48)) r else None
  end.
Definition digits (s : string) : option N := match s with EmptyString => None | _ => digits_from 0 s end.
(* a decimal number with or without a sign *)
Definition number (s : string) : option Z :=
  match s with
  | EmptyString => None
  | String c r =>
      if Ascii.eqb c "-" then option_map (fun n => - Z.of_N n)%Z (digits r)
      else if Ascii.eqb c "+" then option_map Z.of_N (digits r)
      else option_map Z.of_N (digits s)
  end.
(* begins like a number of 2^64 or more, without a minus sign *)
Definition begins_huge (s : string) : Prop :=
  exists sign d r n, In sign [""; "+"] /\ s = sign ++ d ++ r /\ digits d = Some n /\ (2 ^ 64 <= n)%N.
