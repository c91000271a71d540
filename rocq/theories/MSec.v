(* Model of /repo/sec.go and /repo/scope.go and their readers in parse.go.
   Definitions only. *)
From Coq Require Import String Ascii List PeanoNat NArith ZArith Bool.
From Verif Require Import GoStr MMisc.
Import ListNotations.
Open Scope string_scope.

(* sec.go:31-40 AuthenticationMethod constants *)
Definition noAuth : N := 0.
Definition Anonymous : N := 1.
Definition Simple : N := 2.
Definition SSL : N := 3.
Definition SASL : N := 4.
Definition EXTERNAL : N := 5.
Definition DIGESTMD5 : N := 6.
Definition GSSAPI : N := 7.

(* sec.go:345-353 authMap *)
Definition authMap : list (Z * N) :=
  [ (0, Anonymous); (1, Simple); (2, SSL); (3, SASL); (5, EXTERNAL);
    (4, DIGESTMD5); (6, GSSAPI) ]%Z.
(* sec.go:362-372 authNames *)
Definition authNames : list (string * N) :=
  [ ("none", Anonymous); ("simple", Simple); ("ssl", SSL); ("sasl", SASL);
    ("sasl EXTERNAL", EXTERNAL); ("sasl DIGEST-MD5", DIGESTMD5);
    ("sasl GSSAPI", GSSAPI) ].

(* sec.go:333-338 foldAuthenticationMethod; [low] is the exported variable
   AuthenticationMethodLowerCase *)
Definition foldAuthenticationMethod (low : bool) (x : string) : string :=
  if low then lc x else uc x.

(* sec.go:83-92 AuthenticationMethod.String, ranging over the map in the order of [t] *)
Fixpoint auth_string_in (t : list (string * N)) (low : bool) (r : N) : string :=
  match t with
  | [] => ""
  | (k, v) :: t' => if (v =? r)%N then foldAuthenticationMethod low k else auth_string_in t' low r
  end.
Definition auth_string := auth_string_in authNames.

(* sec.go:307-328 matchAuthenticationMethod; Anonymous is the default *)
Fixpoint auth_match_str (t : list (string * N)) (x : string) : N :=
  match t with
  | [] => Anonymous
  | (k, v) :: t' => if eqfold k x then v else auth_match_str t' x
  end.
Fixpoint auth_match_int (t : list (Z * N)) (x : Z) : N :=
  match t with
  | [] => Anonymous
  | (k, v) :: t' => if (k =? x)%Z then v else auth_match_int t' x
  end.

(* parse.go:210-221 assertBindAuthenticationMethod with badAMErr (err.go) *)
Definition assertBindAuthenticationMethod (t : list (string * N)) (low : bool) (vals : list string) : option N :=
  match vals with
  | [v] =>
      let unq := unquote (condenseWHSP v) in
      let ex := auth_match_str t unq in
      if eqfold (auth_string_in t low ex) unq then Some ex else None
  | _ => None
  end.

(* ---- SecurityStrengthFactor ---- *)
(* sec.go:104-110: nil *ssf, or ssf with nil uint8, or the stored uint8 *)
Definition ssfv := option (option N).

Inductive sarg := SNil | SStr (s : string) | SInt (z : Z) | SOther.

(* sec.go:291-302 stringToIntSSF *)
Definition stringToIntSSF (x : string) : Z :=
  let l := lc x in
  if strInSlice l ["full"; "max"] then 256%Z
  else if strInSlice l ["none"; "off"] then 0%Z
  else fst (atoi x).

(* sec.go:276-285 set, int case, giving the new *uint8 *)
Definition ssf_set_int (tv : Z) : option N :=
  if (256 <? tv)%Z then Some (Z.to_N ((256 - 1) mod 256))
  else if (tv <=? 0)%Z then None
  else Some (Z.to_N ((tv - 1) mod 256)).

(* sec.go:265-289 set *)
Definition ssf_set_inner (cur : option N) (f : sarg) : option N :=
  match f with
  | SNil => None
  | SStr s => let i := stringToIntSSF s in
              if (i =? 0)%Z then None else ssf_set_int i
  | SInt z => ssf_set_int z
  | SOther => cur
  end.

(* sec.go:115-121 SSF, 253-260 Set *)
Definition SSF (x : list sarg) : ssfv :=
  match x with
  | [] => Some None
  | f :: _ => Some (ssf_set_inner None f)
  end.
Definition ssf_set (r : ssfv) (f : sarg) : ssfv :=
  let cur := match r with None => Some 0%N | Some c => c end in
  Some (ssf_set_inner cur f).

(* sec.go:208-213 String *)
Definition ssf_string (r : ssfv) : string :=
  match r with
  | Some (Some v) => itoa (v + 1)
  | _ => "0"
  end.

(* parse.go:223-234 assertBindSecurityStrengthFactor with badSecurityStrengthFactorErr *)
Definition assertBindSSF (vals : list string) : option ssfv :=
  match vals with
  | [v] =>
      let unq := unquote (condenseWHSP v) in
      let ex := SSF [SStr unq] in
      if String.eqb (ssf_string ex) unq then Some ex else None
  | _ => None
  end.

(* ---- SearchScope (scope.go) ---- *)
(* scope.go:38-44 *)
Definition noScope : N := 0.
Definition BaseObject : N := 1.
Definition SingleLevel : N := 2.
Definition Subtree : N := 3.
Definition Subordinate : N := 4.

(* scope.go:56-69 targetScope, 132-134 String, 148-150 Target *)
Definition scope_string (r : N) : string :=
  if (r =? BaseObject)%N then "base" else if (r =? SingleLevel)%N then "onelevel"
  else if (r =? Subtree)%N then "subtree" else if (r =? Subordinate)%N then "subordinate"
  else "".
(* scope.go:74-84 standard *)
Definition scope_standard (r : N) : string :=
  if (r =? SingleLevel)%N then "one" else if (r =? Subtree)%N then "sub" else "base".
(* scope.go:155-169 strToScope *)
Definition strToScope (x : string) : N :=
  let l := lc x in
  if strInSlice l ["base"; "baseobject"] then BaseObject
  else if strInSlice l ["one"; "onelevel"] then SingleLevel
  else if strInSlice l ["sub"; "subtree"] then Subtree
  else if strInSlice l ["children"; "subordinate"] then Subordinate
  else noScope.
(* scope.go:174-186 intToScope *)
Definition intToScope (x : Z) : N :=
  if (x =? 1)%Z then SingleLevel else if (x =? 2)%Z then Subtree
  else if (x =? 3)%Z then Subordinate else BaseObject.
(* scope.go:24-33 Scope *)
Inductive scarg := ScStr (s : string) | ScInt (z : Z) | ScOther.
Definition Scope (x : scarg) : N :=
  match x with ScStr s => strToScope s | ScInt z => intToScope z | ScOther => noScope end.

(* parse.go:780-803 assertTargetScope *)
Definition assertTargetScope (vals : list string) : option N :=
  match vals with
  | [v] =>
      let value := unquote (condenseWHSP v) in
      if (String.length value =? 0)%nat then None
      else let temp := strToScope value in
           if (temp =? noScope)%N then None else Some temp
  | _ => None
  end.
