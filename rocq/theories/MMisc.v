(* Model of /repo/misc.go. Definitions only. *)
From Coq Require Import String Ascii List PeanoNat NArith Bool.
From Verif Require Import GoStr.
Import ListNotations.
Open Scope string_scope.

(* misc.go:121-123 isAlnum, on rune(byte) *)
Definition isAlnum (c : ascii) : bool := is_lower c || is_upper c || is_digit c.

Definition first_byte (s : string) : option ascii :=
  match s with EmptyString => None | String c _ => Some c end.
(* s[len(s)-1] *)
Fixpoint last_byte (s : string) : option ascii :=
  match s with
  | EmptyString => None
  | String c EmptyString => Some c
  | String _ r => last_byte r
  end.
(* s[:len(s)-1] *)
Fixpoint drop_last (s : string) : string :=
  match s with
  | EmptyString => EmptyString
  | String _ EmptyString => EmptyString
  | String c r => String c (drop_last r)
  end.

(* misc.go:150-160: the loop body over all bytes of isIdentifier *)
Definition ident_byte (c : ascii) : bool :=
  isAlnum c || Ascii.eqb c ";" || Ascii.eqb c "-".

(* misc.go:135-163 isIdentifier *)
Definition isIdentifier (val : string) : bool :=
  match first_byte val, last_byte val with
  | Some f, Some l => is_letter f && isAlnum l && all_bytes ident_byte val
  | _, _ => false
  end.

(* misc.go:170-177 strInSlice *)
Fixpoint strInSlice (str : string) (slice : list string) : bool :=
  match slice with
  | [] => false
  | x :: r => String.eqb str x || strInSlice str r
  end.

(* misc.go:184-191 strInSliceFold *)
Fixpoint strInSliceFold (str : string) (slice : list string) : bool :=
  match slice with
  | [] => false
  | x :: r => eqfold str x || strInSliceFold str r
  end.

(* misc.go:207-216: the three quotation characters *)
Definition is_quote (c : ascii) : bool :=
  Ascii.eqb c """" || Ascii.eqb c "'" || Ascii.eqb c "`".

(* misc.go:201-219 unquote *)
Definition unquote (str : string) : string :=
  if (String.length str <=? 2)%nat then str
  else
    let s1 := match str with
              | String c r => if is_quote c then r else str
              | EmptyString => str
              end in
    match last_byte s1 with
    | Some c => if is_quote c then drop_last s1 else s1
    | None => s1
    end.

(* string(rune(c)) for a byte c: UTF-8 encoding of the code point c < 256 *)
Definition utf8_of_byte (c : ascii) : string :=
  if ascii_byte c then String c EmptyString
  else bytes [192 + byte_of c / 64; 128 + byte_of c mod 64]%N.

(* misc.go:421-437: the loop of condenseWHSP; [last] is the Go variable *)
Fixpoint condense_loop (last : bool) (s : string) : string :=
  match s with
  | EmptyString => EmptyString
  | String c r =>
      if (Ascii.eqb c "009" || Ascii.eqb c "010" || Ascii.eqb c " ")%bool then
        if last then condense_loop true r
        else String " " (condense_loop true r)
      else utf8_of_byte c ++ condense_loop false r
  end.

(* misc.go:415-441 condenseWHSP *)
Definition condenseWHSP (s : string) : string :=
  trim_space (condense_loop false (replace_byte "010" " " (trim_space s))).

(* misc.go:273-294 hashInstance.  An instance is represented by the text its
   String method returns, None when it has none or is a zero value
   (getStringFunc, misc.go:301-319).  sha1 and the hex printing are one
   arbitrary function. A bare string is hashed even when empty. *)
Inductive hashable := HStr (s : string) | HInst (text : option string).
Definition hashInstance (digest : string -> string) (x : hashable) : option string :=
  match x with
  | HStr s => Some (digest s)
  | HInst None => None
  | HInst (Some s) => if (String.length s =? 0)%nat then None else Some (digest s)
  end.

(* misc.go:250-261 compareHashInstance *)
Definition compareHashInstance (digest : string -> string) (r x : hashable) : bool :=
  match hashInstance digest r with
  | None => false
  | Some rh => match hashInstance digest x with
               | None => false
               | Some xh => String.eqb rh xh
               end
  end.
