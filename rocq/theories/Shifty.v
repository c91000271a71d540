(* go-shifty's BitValue: the library source is not available, so it enters as
   a record of functions and a contract.  The package uses BitValue through
   /repo/shifty.go (newDoW 11-13, newLvls 15-18, newRights 20-23, cast 25-35). *)
From Coq Require Import NArith ZArith Bool.

(* [w] is the width in bits (8 for dayofweek, 16 for rights and levels), the
   first N the current value, the Z the numeric argument. *)
Record shifty := MkShifty {
  sh_shift : N -> N -> Z -> N;
  sh_unshift : N -> N -> Z -> N;
  sh_positive : N -> N -> Z -> bool
}.

(* Contract: for arguments 0 < x < 2^w, Shift is OR and Unshift is AND-NOT; for
   a single in-range bit Positive is the bit test; values never leave the
   width.  Zero, negative, out-of-range arguments and Positive on several bits
   are unspecified. *)
Definition shifty_ok (sh : shifty) : Prop :=
  forall w v : N, (v < 2 ^ w)%N ->
    (forall x : N, (0 < x)%N -> (x < 2 ^ w)%N ->
        sh_shift sh w v (Z.of_N x) = N.lor v x /\
        sh_unshift sh w v (Z.of_N x) = N.ldiff v x) /\
    (forall i : N, (i < w)%N -> sh_positive sh w v (Z.of_N (2 ^ i)) = N.testbit v i) /\
    (forall z : Z, (sh_shift sh w v z < 2 ^ w)%N /\ (sh_unshift sh w v z < 2 ^ w)%N).

(* A concrete instance: zero and out-of-range arguments are ignored, Positive
   means that some bit of the argument is set. *)
Definition shifty_ref : shifty := MkShifty
  (fun w v z => let x := Z.to_N z in
     if ((0 <? z)%Z && (x <? 2 ^ w)%N)%bool then N.lor v x else v)
  (fun w v z => let x := Z.to_N z in
     if ((0 <? z)%Z && (x <? 2 ^ w)%N)%bool then N.ldiff v x else v)
  (fun w v z => let x := Z.to_N z in
     negb (N.land v x =? 0)%N).

(* A second instance that differs outside the contract: Shift of zero clears. *)
Definition shifty_clear : shifty := MkShifty
  (fun w v z => let x := Z.to_N z in
     if (0 <? z)%Z then (if (x <? 2 ^ w)%N then N.lor v x else v) else 0%N)
  (sh_unshift shifty_ref)
  (fun w v z => let x := Z.to_N z in
     (N.land v x =? x)%N).
