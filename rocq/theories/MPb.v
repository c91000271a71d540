(* One permission-bind rule and several goroutines that call Set and String on it, read by
   read and write by write.  Definitions only.

   Simplifications: the fields P and B (pb.go:30-33) are each read and written as a whole;
   the permissions and bind rules given are values, not changed meanwhile (C149, C150 are about
   a permission that is changed while it is printed); reading a text (MAci.v) uses no state
   of the rule and is done when the call begins; a text on which the reading
   panics, which ends the program, is taken as refused.  The rule of the variable is not
   zero, so that IsZero at the start of Set (pb.go:88) reads P, which is not nil, and
   replaces nothing: that P is never nil is proved (C161_kept). *)
From Coq Require Import String List PeanoNat Bool.
From Verif Require Import GoStr MRights MConv MAci MHeap.
Import ListNotations.
Open Scope string_scope.

Inductive qcall := QSet (xs : list pbarg) | QString.
Inductive qop :=
| QP (p : permission) | QB (b : option bctx)      (* r.P = ..., r.B = ... *)
| QZeroP | QZeroB | QValidP | QValidB | QTextP | QTextB (p : permission).   (* the reads of String *)

Section Pb.
Variable W : world.
(* pb.go:98-123 set: the writes of a call.  *r = ... of a text (106) writes both fields. *)
Fixpoint set_ops (xs : list pbarg) : list qop :=
  match xs with
  | [] => []
  | PAStr s :: t => match parsePBR W s with Gives (Some x) => QP (pb_p x) :: QB (pb_b x) :: set_ops t | _ => [] end
  | PAPerm p :: t => if perm_valid p then QP p :: set_ops t else []
  | PABind b :: t => if bctx_valid b then QB (Some b) :: set_ops t else []
  | PAOther :: t => set_ops t
  end.
Definition call_ops (c : qcall) : list qop := match c with QSet xs => set_ops xs | QString => [QZeroP] end.
(* a goroutine: the calls to come, the rest of the call it is in ([] when in none), the
   texts its calls of String returned *)
Record qgo := MkQg { qtodo : list qcall; qcur : list qop; qtexts : list string }.
Record qstate := MkQs { qrule : pbrec; qgos : list qgo }.
(* what %s of fmt makes of the field B (pb.go:172-174; fmt/print.go for nil) *)
Definition b_text (b : option bctx) : string := match b with Some b => bctx_string W b | None => "%!s(<nil>)" end.
(* pb.go:75-82 IsZero, 135-150 valid, 169-178 string *)
Definition q_gstep (r : pbrec) (g : qgo) : pbrec * qgo :=
  let go k := (r, MkQg (qtodo g) k (qtexts g)) in
  let ret t := (r, MkQg (qtodo g) [] (qtexts g ++ [t])%list) in
  match qcur g with
  | [] => match qtodo g with [] => (r, g) | c :: t => (r, MkQg t (call_ops c) (qtexts g)) end
  | QP p :: k => (MkPB p (pb_b r), MkQg (qtodo g) k (qtexts g))
  | QB b :: k => (MkPB (pb_p r) b, MkQg (qtodo g) k (qtexts g))
  | QZeroP :: _ => if perm_is_zero (pb_p r) then go [QZeroB] else go [QValidP]
  | QZeroB :: _ => match pb_b r with None => ret badPB | Some _ => go [QValidP] end
  | QValidP :: _ => if perm_valid (pb_p r) then go [QValidB] else ret badPB
  | QValidB :: _ => match pb_b r with None => ret badPB | Some _ => go [QTextP] end
  | QTextP :: _ => go [QTextB (pb_p r)]
  | QTextB p :: _ => ret (perm_string (e_shifty (w_env W)) p ++ " " ++ b_text (pb_b r) ++ ";")
  end.
Definition q_step (st : qstate) (i : nat) : qstate :=
  match nth_error (qgos st) i with
  | None => st
  | Some g => let '(r, g') := q_gstep (qrule st) g in MkQs r (wr (qgos st) i g')
  end.
Definition q_sched (st : qstate) (q : list nat) : qstate := fold_left q_step q st.
Definition q_start (r : pbrec) (css : list (list qcall)) : qstate := MkQs r (map (fun cs => MkQg cs [] []) css).
End Pb.
