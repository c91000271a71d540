(* Model of the Go standard library string functions used by go-aci.
   Definitions only.  A Go string is a byte string, here Coq's [string].
   /repo/misc.go lines 82-110 bind the short names (lc, uc, eq, split, ...)
   used throughout the package to these functions. *)
From Coq Require Import String Ascii List NArith ZArith Bool.
From Coq Require Import DecimalString.
Import ListNotations.
Open Scope string_scope.

Definition byte_of (c : ascii) : N := N_of_ascii c.
Definition byte_between (lo hi : N) (c : ascii) : bool :=
  ((lo <=? byte_of c) && (byte_of c <=? hi))%N.

(* c < 0x80 *)
Definition ascii_byte (c : ascii) : bool := (byte_of c <? 128)%N.

Fixpoint all_bytes (f : ascii -> bool) (s : string) : bool :=
  match s with
  | EmptyString => true
  | String c r => f c && all_bytes f r
  end.

Definition is_ascii (s : string) : bool := all_bytes ascii_byte s.

(* ASCII case mapping of one byte. *)
Definition lower_byte (c : ascii) : ascii :=
  if byte_between 65 90 c then ascii_of_N (byte_of c + 32) else c.
Definition upper_byte (c : ascii) : ascii :=
  if byte_between 97 122 c then ascii_of_N (byte_of c - 32) else c.

(* UTF-8 bytes of the non-ASCII code points whose case mapping is ASCII. *)
Definition xC4 : ascii := "196"%char.
Definition xB0 : ascii := "176"%char.
Definition xC5 : ascii := "197"%char.
Definition xBF : ascii := "191"%char.
Definition xE2 : ascii := "226"%char.
Definition x84 : ascii := "132"%char.
Definition xAA : ascii := "170"%char.

Fixpoint map_bytes (f : ascii -> ascii) (s : string) : string :=
  match s with
  | EmptyString => EmptyString
  | String c r => String (f c) (map_bytes f r)
  end.

(* [two_to_one a b x s]: replace the byte pair a b by x. *)
Fixpoint two_to_one (a b x : ascii) (s : string) : string :=
  match s with
  | EmptyString => EmptyString
  | String c r =>
      match r with
      | String d r' =>
          if (Ascii.eqb c a && Ascii.eqb d b)%bool
          then String x (two_to_one a b x r')
          else String c (two_to_one a b x r)
      | EmptyString => String c EmptyString
      end
  end.

(* replace the byte triple a b e by x *)
Fixpoint three_to_one (a b e x : ascii) (s : string) : string :=
  match s with
  | EmptyString => EmptyString
  | String c r =>
      match r with
      | String d (String f r') =>
          if (Ascii.eqb c a && Ascii.eqb d b && Ascii.eqb f e)%bool
          then String x (three_to_one a b e x r')
          else String c (three_to_one a b e x r)
      | _ => String c (three_to_one a b e x r)
      end
  end.

(* misc.go:83 lc = strings.ToLower.
   Simplification: of the non-ASCII code points only those whose lower case is
   an ASCII letter (Kelvin sign U+212A -> k, U+0130 -> i) are mapped; the other
   non-ASCII bytes are left alone.  The result is therefore exact whenever it
   is compared with an ASCII text, which is the only use in the package. *)
Definition lc (s : string) : string :=
  map_bytes lower_byte
    (two_to_one xC4 xB0 "i"%char (three_to_one xE2 x84 xAA "k"%char s)).

(* misc.go:84 uc = strings.ToUpper, on ASCII (its only uses in the package are
   on ASCII tables and on the stack kind words). *)
Definition uc (s : string) : string := map_bytes upper_byte s.

(* Fold key: strings.EqualFold compares by Unicode simple folding; the
   only non-ASCII code points folding to ASCII are U+212A (k) and U+017F (s). *)
Definition fold_key (s : string) : string :=
  map_bytes lower_byte
    (two_to_one xC5 xBF "s"%char (three_to_one xE2 x84 xAA "k"%char s)).

(* misc.go:85 eq = strings.EqualFold.  Exact when one side is ASCII;
   between two non-ASCII texts coarser foldings are not equated. *)
Definition eqfold (a b : string) : bool := String.eqb (fold_key a) (fold_key b).

(* s[n:] and s[:n] *)
Fixpoint sdrop (n : nat) (s : string) : string :=
  match n, s with
  | O, _ => s
  | S _, EmptyString => EmptyString
  | S m, String _ r => sdrop m r
  end.
Fixpoint stake (n : nat) (s : string) : string :=
  match n, s with
  | O, _ => EmptyString
  | S _, EmptyString => EmptyString
  | S m, String c r => String c (stake m r)
  end.

(* misc.go:90 hasPfx = strings.HasPrefix *)
Fixpoint has_prefix (p s : string) : bool :=
  match p, s with
  | EmptyString, _ => true
  | String _ _, EmptyString => false
  | String a p', String b s' => (Ascii.eqb a b && has_prefix p' s')%bool
  end.

Fixpoint srev_app (s acc : string) : string :=
  match s with
  | EmptyString => acc
  | String c r => srev_app r (String c acc)
  end.
Definition srev (s : string) : string := srev_app s EmptyString.

(* misc.go:91 hasSfx = strings.HasSuffix *)
Definition has_suffix (p s : string) : bool := has_prefix (srev p) (srev s).

(* misc.go:96 trimPfx = strings.TrimPrefix *)
Definition trim_prefix (s p : string) : string :=
  if has_prefix p s then sdrop (String.length p) s else s.

(* misc.go:88 idxr = strings.IndexRune for an ASCII rune: index of first byte c. *)
Fixpoint idx (c : ascii) (s : string) : option nat :=
  match s with
  | EmptyString => None
  | String d r => if Ascii.eqb c d then Some O else option_map S (idx c r)
  end.

(* misc.go:93 contains = strings.Contains *)
Fixpoint scontains (p s : string) : bool :=
  has_prefix p s ||
  match s with
  | EmptyString => false
  | String _ r => scontains p r
  end.

(* misc.go:94 split = strings.Split for a one byte separator *)
Fixpoint split1 (c : ascii) (s : string) : list string :=
  match s with
  | EmptyString => [EmptyString]
  | String d r =>
      if Ascii.eqb c d then EmptyString :: split1 c r
      else match split1 c r with
           | [] => [String d EmptyString]
           | h :: t => String d h :: t
           end
  end.

(* misc.go:94 split = strings.Split for a two byte separator a b *)
Fixpoint split2 (a b : ascii) (s : string) : list string :=
  match s with
  | EmptyString => [EmptyString]
  | String c r =>
      match r with
      | EmptyString => [String c EmptyString]
      | String d r' =>
          if (Ascii.eqb a c && Ascii.eqb b d)%bool then EmptyString :: split2 a b r'
          else match split2 a b r with
               | [] => [String c EmptyString]
               | h :: t => String c h :: t
               end
      end
  end.

(* misc.go:97 join = strings.Join *)
Fixpoint join (sep : string) (l : list string) : string :=
  match l with
  | [] => EmptyString
  | [x] => x
  | x :: r => x ++ sep ++ join sep r
  end.

(* misc.go:92 repAll(s, c, "") for a one byte c *)
Fixpoint remove_byte (c : ascii) (s : string) : string :=
  match s with
  | EmptyString => EmptyString
  | String d r => if Ascii.eqb c d then remove_byte c r else String d (remove_byte c r)
  end.

(* misc.go:92 repAll(s, a, b) for one byte a, b *)
Definition replace_byte (a b : ascii) (s : string) : string :=
  map_bytes (fun c => if Ascii.eqb c a then b else c) s.

(* misc.go:86 ctstr = strings.Count for a non-empty pattern: number of
   non-overlapping occurrences. [skip] bytes are to be passed over. *)
Fixpoint count_aux (p : string) (skip : nat) (s : string) : nat :=
  match s with
  | EmptyString => O
  | String _ r =>
      match skip with
      | S k => count_aux p k r
      | O => if has_prefix p s then S (count_aux p (pred (String.length p)) r)
             else count_aux p O r
      end
  end.
Definition scount (s p : string) : nat := count_aux p O s.

(* White space as in unicode.IsSpace, each as its UTF-8 bytes. *)
Definition chr (n : N) : ascii := ascii_of_N n.
Definition bytes (l : list N) : string :=
  fold_right (fun n s => String (chr n) s) EmptyString l.
Definition space_seqs : list string :=
  map bytes
    [[9]; [10]; [11]; [12]; [13]; [32];
     [194;133]; [194;160]; [225;154;128];
     [226;128;128]; [226;128;129]; [226;128;130]; [226;128;131]; [226;128;132];
     [226;128;133]; [226;128;134]; [226;128;135]; [226;128;136]; [226;128;137];
     [226;128;138]; [226;128;168]; [226;128;169]; [226;128;175]; [226;129;159];
     [227;128;128]]%N.

(* length of the first sequence of [seqs] that prefixes s *)
Fixpoint first_match (seqs : list string) (s : string) : option nat :=
  match seqs with
  | [] => None
  | q :: r => if has_prefix q s then Some (String.length q) else first_match r s
  end.

(* drop leading members of [seqs]; [skip] bytes belong to a sequence already matched *)
Fixpoint trim_left_aux (seqs : list string) (skip : nat) (s : string) : string :=
  match s with
  | EmptyString => EmptyString
  | String _ r =>
      match skip with
      | S k => trim_left_aux seqs k r
      | O => match first_match seqs s with
             | Some n => trim_left_aux seqs (pred n) r
             | None => s
             end
      end
  end.
Definition trim_left (seqs : list string) (s : string) : string := trim_left_aux seqs O s.

(* misc.go:95 trimS = strings.TrimSpace *)
Definition trim_space (s : string) : string :=
  srev (trim_left (map srev space_seqs) (srev (trim_left space_seqs s))).

(* strconv.Itoa / %d of a natural number, and %04d *)
Definition itoa (n : N) : string := NilZero.string_of_uint (N.to_uint n).
Definition fmt04d (n : N) : string :=
  let s := itoa n in
  match String.length s with
  | 0 => "0000" | 1 => "000" ++ s | 2 => "00" ++ s | 3 => "0" ++ s | _ => s
  end%nat.

Definition digit_val (c : ascii) : option N :=
  if byte_between 48 57 c then Some (byte_of c - 48)%N else None.

(* strconv.ParseUint(s, 10, 64), as called by Atoi (misc.go:101): syntax error,
   range error as soon as the value overflows 64 bits, or the value. *)
Inductive puint := PUsyntax | PUrange | PUok (n : N).
Definition uint64_max : N := 18446744073709551615.
Definition uint64_cutoff : N := 1844674407370955162.
Fixpoint parse_uint_loop (acc : N) (s : string) : puint :=
  match s with
  | EmptyString => PUok acc
  | String c r =>
      match digit_val c with
      | None => PUsyntax
      | Some d =>
          if (uint64_cutoff <=? acc)%N then PUrange
          else if (uint64_max <? acc * 10 + d)%N then PUrange
          else parse_uint_loop (acc * 10 + d) r
      end
  end.
Definition parse_uint (s : string) : puint :=
  match s with EmptyString => PUsyntax | _ => parse_uint_loop 0 s end.

(* misc.go:101 atoi = strconv.Atoi: (value, error?).  Syntax error gives 0,
   range error gives the nearest 64 bit integer. *)
Definition int_cutoff : N := 9223372036854775808.
Definition atoi (s : string) : Z * bool :=
  let neg := match s with String c _ => Ascii.eqb c "-" | _ => false end in
  let body := match s with
              | String c r => if (Ascii.eqb c "-" || Ascii.eqb c "+")%bool then r else s
              | _ => s
              end in
  match parse_uint body with
  | PUsyntax => (0%Z, false)
  | PUrange => ((if neg then - Z.of_N int_cutoff else Z.of_N int_cutoff - 1)%Z, false)
  | PUok n =>
      if neg then
        if (int_cutoff <? n)%N then ((- Z.of_N int_cutoff)%Z, false)
        else ((- Z.of_N n)%Z, true)
      else
        if (int_cutoff <=? n)%N then ((Z.of_N int_cutoff - 1)%Z, false)
        else (Z.of_N n, true)
  end.

(* unicode.IsLetter / IsUpper / IsLower / IsDigit (misc.go:102-105) applied to
   rune(b) for a byte b, i.e. on the Latin-1 range, from Go's unicode tables. *)
Definition is_digit (c : ascii) : bool := byte_between 48 57 c.
Definition is_upper (c : ascii) : bool :=
  byte_between 65 90 c || (byte_between 192 222 c && negb (byte_of c =? 215)%N).
Definition is_lower (c : ascii) : bool :=
  byte_between 97 122 c || (byte_of c =? 181)%N ||
  (byte_between 223 255 c && negb (byte_of c =? 247)%N).
Definition is_letter (c : ascii) : bool :=
  is_upper c || is_lower c || (byte_of c =? 170)%N || (byte_of c =? 186)%N.
