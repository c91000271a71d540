(* Model of what the embedded structures of /repo let another package reach:
   the attribute part of an Inheritance (its Set and Parse methods and its
   BindKeyword and AttributeBindTypeOrValue fields come from attr.go through
   levels.go:37-47), next to Shift and Unshift, for programs with any number of
   variables.  Definitions only. *)
From Coq Require Import String Ascii List PeanoNat NArith ZArith Bool.
From Verif Require Import GoStr Shifty MMisc MKw MAttr MLevels MHeap.
Import ListNotations.
Open Scope string_scope.

(* attr.go:54-57: a keyword and a pointer to a pair *)
Definition aref : Type := N * ptr.
(* the pairs, the structures of levels.go:44-47 (the levels, never a nil pointer, and
   the attribute part), and the variables of the two types *)
Record emst := MkEm { em_pairs : list pair_t; em_inhs : list (N * aref); em_avar : nat -> aref; em_ivar : nat -> ptr }.
Definition em_start : emst := MkEm [] [] (fun _ => (0%N, None)) (fun _ => None).
(* the values behind the pointers at this moment *)
Definition abtv_at (s : emst) (r : aref) : abtv := MkABTV (fst r) (rd (em_pairs s) (snd r)).
Definition inh_at (s : emst) (p : ptr) : inheritance :=
  match rd (em_inhs s) p with Some (lv, r) => Some (MkInh lv (abtv_at s r)) | None => None end.

(* attr.go:138-144 Set: a new pair if the receiver is zero (72-78), else written in place *)
Definition ref_set (ps : list pair_t) (r : aref) (x : list abarg) : list pair_t * aref :=
  match (if (fst r =? 0)%N then None else snd r) with
  | Some l => match nth_error ps l with
              | Some p => (wr ps l (pair_set p x), r)
              | None => (ps, r)
              end
  | None => ((ps ++ [pair_set pair_nil x])%list, (fst r, Some (List.length ps)))
  end.
(* attr.go:290-298 Parse: the receiver becomes what was read, with a pair of its own *)
Definition ref_parse (ps : list pair_t) (r : aref) (raw : string) (bkw : list (option N)) : list pair_t * aref :=
  match abtv_parse raw bkw with
  | Some (MkABTV k (Some p)) => ((ps ++ [p])%list, (k, Some (List.length ps)))
  | _ => (ps, r)
  end.

(* an AttributeBindTypeOrValue variable, or the one inside an Inheritance variable *)
Inductive place := PA (x : nat) | PI (i : nat).
(* None: the nil pointer dereference of selecting a field of a zero Inheritance
   (levels.go:37-39) *)
Definition place_get (s : emst) (pl : place) : option aref :=
  match pl with
  | PA x => Some (em_avar s x)
  | PI i => match rd (em_inhs s) (em_ivar s i) with Some (_, r) => Some r | None => None end
  end.
Definition place_put (s : emst) (pl : place) (r : aref) : emst :=
  match pl with
  | PA x => MkEm (em_pairs s) (em_inhs s) (upd (em_avar s) x r) (em_ivar s)
  | PI i => match em_ivar s i with
            | Some l => match nth_error (em_inhs s) l with
                        | Some (lv, _) => MkEm (em_pairs s) (wr (em_inhs s) l (lv, r)) (em_avar s) (em_ivar s)
                        | None => s
                        end
            | None => s
            end
  end.
Definition with_pairs (s : emst) (ps : list pair_t) : emst := MkEm ps (em_inhs s) (em_avar s) (em_ivar s).

Inductive emcmd :=
  | EMake (x : nat) (kw : N) (xs : list abarg)             (* x := ABTV(kw, xs), UAT(xs), GAT(xs) *)
  | EInherit (i : nat) (pl : place) (lv : list larg)        (* i := Inherit(pl, lv) *)
  | EZero (i : nat)                                         (* i := Inheritance{} *)
  | ECopy (i j : nat)                                       (* i := j *)
  | EShift (z : option nat) (i : nat) (on : bool) (xs : list larg) (* [z :=] i.Shift(xs), i.Unshift(xs) *)
  | ESet (pl : place) (xs : list abarg)                     (* pl.Set(xs) *)
  | EParse (pl : place) (raw : string) (bkw : list (option N)) (* pl.Parse(raw, bkw) *)
  | EKey (pl : place) (k : N)                               (* pl.BindKeyword = k *)
  | EPut (pl pl' : place).                                  (* pl = pl' *)

Section WithShifty.
Variable sh : shifty.
(* levels.go:309-316 Shift, 403-408 Unshift: value receivers; the heap of structures
   and the returned pointer *)
Definition shift_ref (s : emst) (p : ptr) (on : bool) (xs : list larg) : list (N * aref) * ptr :=
  if inh_isZero (inh_at s p) then
    if on then ((em_inhs s ++ [(lvl_shift sh 0 xs, (0%N, None))])%list, Some (List.length (em_inhs s)))
    else (em_inhs s, p)
  else match p with
       | Some l => match nth_error (em_inhs s) l with
                   | Some (lv, r) => (wr (em_inhs s) l (if on then lvl_shift sh lv xs else lvl_unshift sh lv xs, r), p)
                   | None => (em_inhs s, p)
                   end
       | None => (em_inhs s, p)
       end.
(* one statement; None: a panic *)
Definition emstep (s : emst) (c : emcmd) : option emst :=
  match c with
  | EMake x kw xs =>      (* attr.go:93-133 *)
      let v := ABTV kw xs in
      Some (match ab_pair v with
            | Some p => MkEm (em_pairs s ++ [p])%list (em_inhs s) (upd (em_avar s) x (ab_kw v, Some (List.length (em_pairs s)))) (em_ivar s)
            | None => MkEm (em_pairs s) (em_inhs s) (upd (em_avar s) x (ab_kw v, None)) (em_ivar s)
            end)
  | EInherit i pl lv =>   (* levels.go:52-65 *)
      match place_get s pl with
      | Some r => Some (MkEm (em_pairs s) (em_inhs s ++ [(lvl_shift sh 0 lv, r)])%list (em_avar s) (upd (em_ivar s) i (Some (List.length (em_inhs s)))))
      | None => None
      end
  | EZero i => Some (MkEm (em_pairs s) (em_inhs s) (em_avar s) (upd (em_ivar s) i None))
  | ECopy i j => Some (MkEm (em_pairs s) (em_inhs s) (em_avar s) (upd (em_ivar s) i (em_ivar s j)))
  | EShift z i on xs =>
      let '(h, p) := shift_ref s (em_ivar s i) on xs in
      Some (MkEm (em_pairs s) h (em_avar s) (match z with Some z => upd (em_ivar s) z p | None => em_ivar s end))
  | ESet pl xs =>
      match place_get s pl with
      | Some r => let '(ps, r') := ref_set (em_pairs s) r xs in Some (place_put (with_pairs s ps) pl r')
      | None => None
      end
  | EParse pl raw bkw =>
      match place_get s pl with
      | Some r => let '(ps, r') := ref_parse (em_pairs s) r raw bkw in Some (place_put (with_pairs s ps) pl r')
      | None => None
      end
  | EKey pl k =>
      match place_get s pl with
      | Some r => Some (place_put s pl (k, snd r))
      | None => None
      end
  | EPut pl pl' =>
      match place_get s pl', place_get s pl with
      | Some r, Some _ => Some (place_put s pl r)
      | _, _ => None
      end
  end.
Fixpoint emrun (s : emst) (p : list emcmd) : option emst :=
  match p with
  | [] => Some s
  | c :: t => match emstep s c with Some s' => emrun s' t | None => None end
  end.
End WithShifty.
(* what variables and places show *)
Definition em_inh (s : emst) (i : nat) : inheritance := inh_at s (em_ivar s i).
Definition em_part (s : emst) (pl : place) : option abtv := option_map (abtv_at s) (place_get s pl).
