(* The first call of Set (or Shift) on a variable that holds a nil pointer, when several
   goroutines make it at the same time.  Definitions only.

   Ten types do this the same way: if the pointer is nil (or what it points at counts as
   zero) a new value is made and its address stored in the variable; then the pointer is read
   again and the arguments are put into what it points at.  A record [ftype] says what differs.

   Simplified: the test is one step, and so is putting all arguments of a call in, so that
   what goroutines do to each other within one value is left out here (MWord.v, MSlice.v,
   MLabel.v have that for rights, days, levels, addresses and labels). *)
From Coq Require Import String List PeanoNat Bool NArith.
From Verif Require Import GoStr MHeap MAttr MFilter MNet MSec MTime MUri MRights MAci Shifty.
Import ListNotations.

(* Plain: r.x = new(x), then r.x.set.
   Filled: r.ssf = new(ssf), then r.ssf.uint8 = new(uint8), then r.ssf.set (sec.go:253-259).
   Whole: r.x = newX(arguments), and return (uri.go:427-430, time.go:535). *)
Inductive how := Plain | Filled | Whole.
(* fempty: what a new value holds; fraw: what it holds before it is filled; fzero: what
   counts as zero though the pointer is not nil; fupd: putting the arguments in *)
Record ftype (V C : Type) := MkFt { fhow : how; fempty : V; fraw : V; fzero : V -> bool; fupd : V -> C -> V }.
Arguments MkFt {V C}. Arguments fhow {V C}. Arguments fempty {V C}. Arguments fraw {V C}. Arguments fzero {V C}. Arguments fupd {V C}.

(* FOff: in no call.
   FMake c: the test said zero, before the new value is stored in the variable.
   FFill c: before r.ssf.uint8 = new(uint8).
   FTake c: before the pointer is read for the call of set.
   FDo p c: in set on the value p. *)
Inductive fplace (C : Type) := FOff | FMake (c : C) | FFill (c : C) | FTake (c : C) | FDo (p : nat) (c : C).
Arguments FOff {C}. Arguments FMake {C}. Arguments FFill {C}. Arguments FTake {C}. Arguments FDo {C}.
(* a goroutine: the arguments of the calls left, where it is *)
Record fgo (C : Type) := MkFg { fcalls : list C; fat : fplace C }.
Arguments MkFg {C}. Arguments fcalls {C}. Arguments fat {C}.
(* the values made so far, the pointer in the variable, the goroutines *)
Record fstate (V C : Type) := MkFs { fvals : list V; fvar : option nat; fgos : list (fgo C) }.
Arguments MkFs {V C}. Arguments fvals {V C}. Arguments fvar {V C}. Arguments fgos {V C}.

Section First.
Context {V C : Type}.
Variable T : ftype V C.

(* what the variable shows; None: a nil pointer *)
Definition fshown (st : fstate V C) : option V :=
  match fvar st with None => None | Some p => Some (nth p (fvals st) (fempty T)) end.
(* IsZero, or the test for nil *)
Definition f_isZero (o : option V) : bool := match o with None => true | Some v => fzero T v end.
(* one step of the goroutine g.
   net.go:124-131, 323-330, filter.go:140-147, 237-244, attr.go:138-144, pb.go:87-93,
   time.go:170-190: Plain.  A nil pointer where one is read would be a panic; it cannot be, as
   nothing stores nil (see TFirst.v). *)
Definition f_gstep (st : fstate V C) (g : fgo C) : list V * option nat * fgo C :=
  let vs := fvals st in
  let new x p := ((vs ++ [x])%list, Some (List.length vs), MkFg (fcalls g) p) in
  match fat g with
  | FOff => match fcalls g with
            | [] => (vs, fvar st, g)
            | c :: cs => (vs, fvar st, MkFg cs (if f_isZero (fshown st) then FMake c else FTake c))
            end
  | FMake c => match fhow T with
               | Plain => new (fempty T) (FTake c)
               | Filled => new (fraw T) (FFill c)
               | Whole => new (fupd T (fempty T) c) FOff
               end
  | FFill c => match fvar st with
               | Some p => (wr vs p (fempty T), fvar st, MkFg (fcalls g) (FTake c))
               | None => (vs, fvar st, MkFg (fcalls g) FOff)
               end
  | FTake c => (vs, fvar st, MkFg (fcalls g) (match fvar st with Some p => FDo p c | None => FOff end))
  | FDo p c => (wr vs p (fupd T (nth p vs (fempty T)) c), fvar st, MkFg (fcalls g) FOff)
  end.
Definition f_step (st : fstate V C) (i : nat) : fstate V C :=
  match nth_error (fgos st) i with
  | None => st
  | Some g => let '(vs, v, g') := f_gstep st g in MkFs vs v (wr (fgos st) i g')
  end.
Definition f_sched (st : fstate V C) (q : list nat) : fstate V C := fold_left f_step q st.
(* a variable that shows o; goroutine k is to make the calls nth k css *)
Definition f_start (o : option V) (css : list (list C)) : fstate V C :=
  let gs := map (fun cs => MkFg cs FOff) css in
  match o with None => MkFs [] None gs | Some v => MkFs [v] (Some 0) gs end.
(* one call with nothing in between *)
Definition f_set (o : option V) (c : C) : option V :=
  Some (fupd T (match o with Some v => if fzero T v then fempty T else v | None => fempty T end) c).
End First.

Definition never {V} (_ : V) : bool := false.
(* net.go:124-143 IPAddr *)
Definition ip_first : ftype (list string) (list string) := MkFt Plain [] [] never ip_set.
(* net.go:323-358 FQDN *)
Definition fqdn_first : ftype (list string) (list string) := MkFt Plain [] [] never labels_set.
(* filter.go:140-157 SearchFilter *)
Definition sf_first : ftype string string :=
  MkFt Plain ""%string ""%string never (fun s x => if (String.length x =? 0)%nat then s else x).
(* filter.go:237-244, 278-293 AttributeFilter *)
Definition af_first : ftype atf (list farg) := MkFt Plain (None, None) (None, None) (fun v => af_isZero (Some v)) atf_set.
(* attr.go:138-144, 248-271 AttributeBindTypeOrValue with the keyword kw: its pair *)
Definition pair_first (kw : N) : ftype pair_t (list abarg) := MkFt Plain pair_nil pair_nil (fun _ => (kw =? 0)%N) pair_set.
(* pb.go:87-93 PermissionBindRule, arguments that make no reader panic *)
Definition pbr_first (W : world) : ftype pbrec (list pbarg) :=
  MkFt Plain (MkPB PNil None) (MkPB PNil None) (fun v => pbr_isZero (Some v))
       (fun r xs => match pbrec_set W r xs with Some x => x | None => r end).
(* time.go:170-190 DayOfWeek.Shift *)
Definition dow_first (sh : shifty) : ftype N (list darg) := MkFt Plain 0%N 0%N never (fun v xs => fold_left (dow_shift1 sh) xs v).
(* sec.go:253-289 SecurityStrengthFactor *)
Definition ssf_first : ftype (option N) sarg := MkFt Filled (Some 0%N) None never ssf_set_inner.
(* uri.go:426-434 LDAPURI *)
Definition uri_first : ftype uri (list uarg) := MkFt Whole uri_new uri_new never uri_set.
(* time.go:534-537 TimeOfDay.Set makes a new value every time *)
Definition tod_first : ftype N targ := MkFt Whole 0%N 0%N (fun _ => true) (fun _ t => assertToD 0 t).
