(* Model of programs that use the exported fields another package reaches through
   the embedded structures of PermissionBindRule (/repo/pb.go:26-33: P and B) and of
   ObjectIdentifier (/repo/oid.go:37-47: TargetKeyword and DotNotation), together with
   the lists the values are pushed on.  Definitions only. *)
From Coq Require Import String Ascii List PeanoNat NArith ZArith Bool.
From Verif Require Import GoStr Shifty MMisc MAttr MKw MRights MLists MRule MConv MTree MAci MHeap.
Import ListNotations.
Open Scope string_scope.

(* ---- rules ---- *)
(* the statements of MHeap.v, and r.P = x, r.B = b, x := r.P; None: the panic of
   selecting a field of a zero PermissionBindRule (pb.go:26-28) *)
Inductive fcmd := FDo (c : rcmd) | FP (r x : nat) | FB (r : nat) (b : option bctx) | FGet (x r : nat).
Definition cell_put (s : rstate) (r : nat) (f : ptr * option bctx -> ptr * option bctx) : option rstate :=
  match r_rvar s r with
  | Some l => match nth_error (r_cells s) l with
              | Some c => Some (MkR (r_perms s) (wr (r_cells s) l (f c)) (r_pvar s) (r_rvar s) (r_list s))
              | None => None
              end
  | None => None
  end.
Definition fexec (W : world) (s : rstate) (c : fcmd) : option rstate :=
  match c with
  | FDo c => Some (rexec W s c)
  | FP r x => cell_put s r (fun c => (r_pvar s x, snd c))
  | FB r b => cell_put s r (fun c => (fst c, b))
  | FGet x r =>
      match rd (r_cells s) (r_rvar s r) with
      | Some (q, _) => Some (MkR (r_perms s) (r_cells s) (upd (r_pvar s) x q) (r_rvar s) (r_list s))
      | None => None
      end
  end.
Fixpoint frun (W : world) (s : rstate) (p : list fcmd) : option rstate :=
  match p with
  | [] => Some s
  | c :: t => match fexec W s c with Some s' => frun W s' t | None => None end
  end.

(* ---- object identifiers ---- *)
(* cells, variables, and one list of the given category.  The dot notation is taken as
   the text it prints, a value (simplification: its own methods are go-objectid's). *)
Section Ids.
Variable eqf : string -> string -> bool.
Variable dotnot : string -> option string.
Record idst := MkId { id_cells : list oid; id_var : nat -> ptr; id_list : list ptr }.
Inductive idcmd :=
  | IdMake (x : nat) (kw : N) (t : string)   (* x := OID(t, kw), Ctrl(t), ExtOp(t) *)
  | IdCopy (x y : nat)                        (* x := y *)
  | IdKey (x : nat) (k : N)                   (* x.TargetKeyword = k *)
  | IdDot (x : nat) (d : option string)       (* x.DotNotation = d *)
  | IdPush (x : nat).                         (* list.Push(x) *)
Definition id_at (s : idst) (p : ptr) : option oid := rd (id_cells s) p.
Definition id_put (s : idst) (x : nat) (f : oid -> oid) : option idst :=
  match id_var s x with
  | Some l => match nth_error (id_cells s) l with
              | Some c => Some (MkId (wr (id_cells s) l (f c)) (id_var s) (id_list s))
              | None => None
              end
  | None => None
  end.
Definition idexec (lkw : N) (s : idst) (c : idcmd) : option idst :=
  match c with
  | IdMake x kw t =>    (* oid.go:184-236 *)
      match mkOID dotnot kw t with
      | Some o => Some (MkId (id_cells s ++ [o])%list (upd (id_var s) x (Some (List.length (id_cells s)))) (id_list s))
      | None => Some s
      end
  | IdCopy x y => Some (MkId (id_cells s) (upd (id_var s) x (id_var s y)) (id_list s))
  | IdKey x k => id_put s x (fun o => MkOID k (oid_dot o))
  | IdDot x d => id_put s x (fun o => MkOID (oid_kw o) d)
  | IdPush x =>         (* oid.go:316-329, 451-468 *)
      Some (if oid_policy eqf lkw (map (fun p => OOid (id_at s p)) (id_list s)) (OOid (id_at s (id_var s x)))
            then MkId (id_cells s) (id_var s) (id_list s ++ [id_var s x])%list else s)
  end.
Fixpoint idrun (lkw : N) (s : idst) (p : list idcmd) : option idst :=
  match p with
  | [] => Some s
  | c :: t => match idexec lkw s c with Some s' => idrun lkw s' t | None => None end
  end.
Definition idstart : idst := MkId [] (fun _ => None) [].
Definition idlist (s : idst) : list (option oid) := map (id_at s) (id_list s).
End Ids.
