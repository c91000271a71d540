(* Specification of permissions, in the terms of C01-C04: a permission is a set
   of named rights.  Does not use the bit representation of the model. *)
From Coq Require Import String Ascii List NArith ZArith Bool.
From Verif Require Import GoStr MRights.
Import ListNotations.
Open Scope string_scope.

Inductive right :=
  Read | Write | Add | Delete | Search | Compare | SelfWrite | Proxy | Import | Export.

(* the fixed order of the constants *)
Definition all_rights : list right :=
  [Read; Write; Add; Delete; Search; Compare; SelfWrite; Proxy; Import; Export].

Definition right_name (r : right) : string :=
  match r with
  | Read => "read" | Write => "write" | Add => "add" | Delete => "delete"
  | Search => "search" | Compare => "compare" | SelfWrite => "selfwrite"
  | Proxy => "proxy" | Import => "import" | Export => "export"
  end.

(* the documented constant of each right *)
Definition right_const (r : right) : N :=
  match r with
  | Read => 1 | Write => 2 | Add => 4 | Delete => 8 | Search => 16 | Compare => 32
  | SelfWrite => 64 | Proxy => 128 | Import => 256 | Export => 512
  end.

Definition right_eqb (a b : right) : bool := String.eqb (right_name a) (right_name b).

(* position of the right in a number given as argument: 2^position *)
Definition right_pos (r : right) : N :=
  match r with
  | Read => 0 | Write => 1 | Add => 2 | Delete => 3 | Search => 4 | Compare => 5
  | SelfWrite => 6 | Proxy => 7 | Import => 8 | Export => 9
  end.

(* Does a text name right r? "all" names every right except proxy. *)
Definition text_names (s : string) (r : right) : bool :=
  String.eqb (lc s) (right_name r) ||
  (String.eqb (lc s) "all" && negb (right_eqb r Proxy)).

(* Does an argument mention right r? *)
Definition mentions (x : rarg) (r : right) : bool :=
  match x with
  | AStr s => text_names s r
  | ARight n => N.testbit n (right_pos r)
  | AInt z => N.testbit (Z.to_N z) (right_pos r)
  | AOther => false
  end.

(* Arguments the bit library's contract covers: non-zero 16 bit numbers and
   any text except "none" (which is the number zero). *)
Definition arg_covered (x : rarg) : Prop :=
  match x with
  | AStr s => lc s <> "none"
  | ARight n => (0 < n < 65536)%N
  | AInt z => (0 < z < 65536)%Z
  | AOther => True
  end.
(* ... and that use only the ten named rights *)
Definition arg_named (x : rarg) : Prop :=
  match x with
  | AStr s => lc s <> "none"
  | ARight n => (0 < n < 1024)%N
  | AInt z => (0 < z < 1024)%Z
  | AOther => True
  end.

Definition call_args (c : perm_call) : list rarg :=
  match c with CShift xs => xs | CUnshift xs => xs end.
Definition calls_ok (P : rarg -> Prop) (h : list perm_call) : Prop :=
  forall c x, In c h -> In x (call_args c) -> P x.

(* Is r granted after the history, starting from g?  The last call that
   mentions r decides. *)
Definition is_shift (c : perm_call) : bool :=
  match c with CShift _ => true | CUnshift _ => false end.
Fixpoint granted (g : bool) (h : list perm_call) (r : right) : bool :=
  match h with
  | [] => g
  | c :: t =>
      granted (if existsb (fun x => mentions x r) (call_args c) then is_shift c else g) t r
  end.

(* The text of a set of rights. *)
Definition spec_names (g : right -> bool) : list string :=
  if forallb (fun r => eqb (g r) (negb (right_eqb r Proxy))) all_rights then ["all"]
  else if forallb g all_rights then ["all"; "proxy"]
  else if forallb (fun r => negb (g r)) all_rights then ["none"]
  else map right_name (filter g all_rights).
Definition spec_text (disp : bool) (g : right -> bool) : string :=
  (if disp then "allow" else "deny") ++ "(" ++ join "," (spec_names g) ++ ")".
