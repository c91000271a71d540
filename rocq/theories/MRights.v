(* Model of /repo/rights.go and the permission reader of /repo/parse.go.
   Definitions only. *)
From Coq Require Import String Ascii List NArith ZArith Bool.
From Verif Require Import GoStr Shifty.
Import ListNotations.
Open Scope string_scope.

(* rights.go:10-24 the Right constants (type Right uint16, line 35) *)
Definition ReadAccess : N := 1.
Definition WriteAccess : N := 2.
Definition AddAccess : N := 4.
Definition DeleteAccess : N := 8.
Definition SearchAccess : N := 16.
Definition CompareAccess : N := 32.
Definition SelfWriteAccess : N := 64.
Definition ProxyAccess : N := 128.
Definition ImportAccess : N := 256.
Definition ExportAccess : N := 512.
Definition NoAccess : N := 0.
Definition AllAccess : N := 895.

(* rights.go:303-316 rightsMap.  Go maps have unique keys; lookups below do not
   depend on the order. *)
Definition rightsMap : list (N * string) :=
  [ (NoAccess, "none"); (ReadAccess, "read"); (WriteAccess, "write");
    (AddAccess, "add"); (DeleteAccess, "delete"); (SearchAccess, "search");
    (CompareAccess, "compare"); (SelfWriteAccess, "selfwrite");
    (AllAccess, "all"); (ProxyAccess, "proxy"); (ImportAccess, "import");
    (ExportAccess, "export") ].

(* rights.go:321-324 rightsNames: the inverse map *)
Fixpoint lookup_name (t : list (N * string)) (s : string) : option N :=
  match t with
  | [] => None
  | (k, v) :: r => if String.eqb v s then Some k else lookup_name r s
  end.
Definition rightsNames (s : string) : option N := lookup_name rightsMap s.

Fixpoint lookup_num (t : list (N * string)) (n : N) : option string :=
  match t with
  | [] => None
  | (k, v) :: r => if (k =? n)%N then Some v else lookup_num r n
  end.

(* rights.go:134-146 Right.String; unnamed values give "" *)
Definition right_string (r : N) : string :=
  match lookup_num rightsMap r with Some s => s | None => "" end.

(* The dynamic type of an argument of type any.  AInt is Go's int, ARight is
   Right (uint16), AOther any other type. *)
Inductive rarg := AInt (z : Z) | ARight (n : N) | AStr (s : string) | AOther.

(* rights.go:40-47 Permission / permission: a nil pointer, or a disposition and
   a 16 bit value.  Simplification: the half-initialised struct (one of the two
   embedded pointers nil) is left out; newPermission (66-72) and
   unpackageAntlrPermission (parse.go:817-821), the only constructors, fill both. *)
Inductive permission := PNil | PSome (disp : bool) (bits : N).

Section WithShifty.
Variable sh : shifty.

(* rights.go:74-90 permission.shift, one argument: body of the loop *)
Definition shift1 (v : N) (x : rarg) : N :=
  match x with
  | AInt z => sh_shift sh 16 v z
  | ARight n => sh_shift sh 16 v (Z.of_N n)
  | AStr s => match rightsNames (lc s) with
              | Some p => sh_shift sh 16 v (Z.of_N p)
              | None => v
              end
  | AOther => v
  end.
Definition shift_bits (v : N) (xs : list rarg) : N := fold_left shift1 xs v.

(* rights.go:92-108 permission.unshift *)
Definition unshift1 (v : N) (x : rarg) : N :=
  match x with
  | AInt z => sh_unshift sh 16 v z
  | ARight n => sh_unshift sh 16 v (Z.of_N n)
  | AStr s => match rightsNames (lc s) with
              | Some p => sh_unshift sh 16 v (Z.of_N p)
              | None => v
              end
  | AOther => v
  end.
Definition unshift_bits (v : N) (xs : list rarg) : N := fold_left unshift1 xs v.

(* rights.go:110-129 permission.positive *)
Definition positive_int (v : N) (z : Z) : bool :=
  if ((z =? 0)%Z && (Z.of_N v =? z)%Z)%bool then true
  else sh_positive sh 16 v z.
Definition positive_bits (v : N) (x : rarg) : bool :=
  match x with
  | AInt z => positive_int v z
  | AStr s => match rightsNames (lc s) with
              | Some p => positive_int v (Z.of_N p)
              | None => false
              end
  | ARight n => positive_int v (Z.of_N n)
  | AOther => false
  end.

(* rights.go:66-72 newPermission; 52-61 Allow, Deny *)
Definition newPermission (disp : bool) (xs : list rarg) : permission :=
  PSome disp (shift_bits 0 xs).
Definition Allow (xs : list rarg) : permission := newPermission true xs.
Definition Deny (xs : list rarg) : permission := newPermission false xs.

(* rights.go:275-300 IsZero, Valid *)
Definition perm_is_zero (p : permission) : bool :=
  match p with PNil => true | PSome _ _ => false end.
Definition perm_valid (p : permission) : bool := negb (perm_is_zero p).

(* rights.go:251-258 Permission.Shift, 263-270 Unshift, 241-246 Positive *)
Definition perm_shift (p : permission) (xs : list rarg) : permission :=
  match p with
  | PNil => PNil
  | PSome d v => PSome d (shift_bits v xs)
  end.
Definition perm_unshift (p : permission) (xs : list rarg) : permission :=
  match p with
  | PNil => PNil
  | PSome d v => PSome d (unshift_bits v xs)
  end.
Definition perm_positive (p : permission) (x : rarg) : bool :=
  match p with
  | PNil => false
  | PSome _ v => positive_bits v x
  end.

(* for i := 0; i < Size(); i++ *)
Definition bits16 : list N := [0;1;2;3;4;5;6;7;8;9;10;11;12;13;14;15]%N.

(* rights.go:158-174 Permission.Len *)
Definition perm_len (p : permission) : nat :=
  match p with
  | PNil => 0
  | PSome _ v =>
      List.length (filter (fun i => sh_positive sh 16 v (Z.of_N (2 ^ i))) bits16)
  end%nat.

(* rights.go:221-236 Disposition *)
Definition perm_disposition (p : permission) : string :=
  match p with
  | PNil => "<unknown_disposition>"
  | PSome true _ => "allow"
  | PSome false _ => "deny"
  end.

(* rights.go:214-216 sprintf *)
Definition perm_sprintf (p : permission) (rights : list string) : string :=
  perm_disposition p ++ "(" ++ join "," rights ++ ")".

(* rights.go:183-203 the list of right names printed *)
Definition perm_right_names (v : N) : list string :=
  if (v =? AllAccess)%N then [right_string AllAccess]
  else if (v =? 1023)%N then [right_string AllAccess; right_string ProxyAccess]
  else if (v =? NoAccess)%N then [right_string NoAccess]
  else map (fun i => right_string (2 ^ i))
         (filter (fun i => positive_int v (Z.of_N (2 ^ i))) bits16).

(* rights.go:179-205 Permission.String *)
Definition perm_string (p : permission) : string :=
  match p with
  | PNil => "<invalid_permission>"
  | PSome _ v => perm_sprintf p (perm_right_names v)
  end.

(* go-antlraci's Permission as consumed by the package *)
Record antlr_permission := { ap_allow : option bool; ap_rights : list string }.

(* parse.go:824-831: the loop; the pair is (bits, p.rights) *)
Definition unpack_step (st : N * N) (tok : string) : N * N :=
  match rightsNames (lc tok) with
  | Some r => (N.lor (fst st) r, shift1 (snd st) (AStr tok))
  | None => st
  end.

(* parse.go:817-888 unpackageAntlrPermission: None is a returned error *)
Definition unpackageAntlrPermission (ap : antlr_permission) : option permission :=
  let '(bits, rint) := fold_left unpack_step (ap_rights ap) (0, 0)%N in
  if (bits =? rint)%N then
    match ap_allow ap with
    | Some x => Some (PSome x rint)
    | None => None
    end
  else None.

(* A caller's history of calls on a permission (rights.go:251-270). *)
Inductive perm_call := CShift (xs : list rarg) | CUnshift (xs : list rarg).
Definition perm_step (p : permission) (c : perm_call) : permission :=
  match c with
  | CShift xs => perm_shift p xs
  | CUnshift xs => perm_unshift p xs
  end.
Definition perm_run (p : permission) (h : list perm_call) : permission :=
  fold_left perm_step h p.

End WithShifty.
