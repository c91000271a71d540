(* Specification for C132-C136: which objects a variable's text is made of, and which
   objects and variables a statement concerns. *)
From Coq Require Import String List PeanoNat Bool.
From Verif Require Import GoStr MMisc MRule MConv MTree MAci MWhole.
Import ListNotations.

(* the objects an object holds: members, fields *)
Definition kids (d : node) : list nat :=
  match d with
  | NPerm _ _ | NBind _ | NTr _ => []
  | NStk _ _ _ _ ks | NPbrs ks | NTrs _ ks | NInss ks => ks
  | NPbr p b => (match p with Some n => [n] | None => [] end ++ match b with Some (BRef n) => [n] | _ => [] end)%list
  | NIns _ t p => [t; p]
  end.
(* m is n itself, something n holds, something that holds, ... *)
Inductive leads (h : heap) : nat -> nat -> Prop :=
| L_here : forall n, leads h n n
| L_down : forall n d k m, nth_error h n = Some d -> In k (kids d) -> leads h k m -> leads h n m.

(* the variables a statement may assign *)
Definition assigned (c : stmt) : list nat :=
  match c with
  | XCall z x BInit | XTCall z x TInit => [z; x]
  | XZero x | XCopy x _ | XPerm x _ _ | XShift x _ _ _ | XRule x _ | XCall x _ _ | XStack x _ _
  | XPop x _ | XIndex x _ _ | XPbr x _ _ | XSetPbr x _ | XPbrs x | XPopPbr x _ | XIndexPbr x _ _
  | XTr x _ | XTCall x _ _ | XTrs x | XTPop x _ | XTIndex x _ _ | XSet x _ | XParse x _
  | XTRsOf x _ | XPBRsOf x _ | XAcis x | XPopIns x _ | XIndexIns x _ _ => [x]
  | XPush _ _ | XReplace _ _ _ | XParen _ _ | XFold _ _ | XNoPad _ _ | XPushPbr _ _ | XTPush _ _
  | XTNoPad _ _ | XPushIns _ _ => []
  end.
(* the receiver of a method that changes its receiver.  Parse is not one: it makes a new
   instruction for its variable. *)
Definition receiver (c : stmt) : option nat :=
  match c with
  | XShift _ x _ _ | XCall _ x _ | XPush x _ | XPop _ x | XReplace x _ _ | XParen x _ | XFold x _
  | XNoPad x _ | XSetPbr x _ | XPushPbr x _ | XPopPbr _ x | XTCall _ x _ | XTPush x _ | XTPop _ x
  | XTNoPad x _ | XSet x _ | XPushIns x _ | XPopIns _ x => Some x
  | _ => None
  end.
(* the objects a statement may change: the one its receiver shows and, for Set on an
   instruction, the two lists that instruction owns *)
Definition touched (s : st) (c : stmt) : list nat :=
  match receiver c with
  | Some x =>
      match s_var s x with
      | Some n => match nth_error (s_heap s) n with
                  | Some (NIns _ t p) => [n; t; p]
                  | _ => [n]
                  end
      | None => []
      end
  | None => []
  end.
(* the statement assigns v or changes something v's text is made of *)
Definition concerns (s : st) (c : stmt) (v : nat) : Prop :=
  In v (assigned c) \/ exists n m, s_var s v = Some n /\ leads (s_heap s) n m /\ In m (touched s c).
(* no statement of the program concerns v *)
Fixpoint unconcerned (W : world) (s : st) (q : list stmt) (v : nat) : Prop :=
  match q with
  | [] => True
  | c :: r => ~ concerns s c v /\ match step W s c with Some s' => unconcerned W s' r v | None => True end
  end.
(* two variables have no object in common *)
Definition apart (s : st) (x y : nat) : Prop :=
  forall n k m, s_var s x = Some n -> s_var s y = Some k -> leads (s_heap s) n m -> ~ leads (s_heap s) k m.

(* the list object n of instructions: the texts of its members *)
Definition texts (W : world) (s : st) (n : nat) : option (list string) :=
  match nth_error (s_heap s) n with Some (NInss ks) => all (map (itext W (s_heap s)) ks) | _ => None end.
(* no text is, case apart, the condensed text of a later one *)
Definition all_different (W : world) (s : st) (n : nat) : Prop :=
  exists ts, texts W s n = Some ts /\
  forall i j y t, (i < j)%nat -> nth_error ts i = Some y -> nth_error ts j = Some t -> e_eqf (w_env W) y (condenseWHSP t) = false.
(* the statement changes nothing the list is made of, or is Push or Pop on the list *)
Definition left_alone (s : st) (c : stmt) (n : nat) : Prop :=
  (forall m, leads (s_heap s) n m -> ~ In m (touched s c)) \/
  (exists l xs, c = XPushIns l xs /\ s_var s l = Some n) \/ (exists i l, c = XPopIns i l /\ s_var s l = Some n).
Fixpoint left_alone_run (W : world) (s : st) (q : list stmt) (n : nat) : Prop :=
  match q with
  | [] => True
  | c :: r => left_alone s c n /\ match step W s c with Some s' => left_alone_run W s' r n | None => True end
  end.

(* the list object n of permission-bind rules: its members *)
Definition rules_in (s : st) (n : nat) : option (list pbrec) :=
  match nth_error (s_heap s) n with Some (NPbrs ks) => all (map (pbr_at (s_heap s)) ks) | _ => None end.
Definition sound_list (W : world) (s : st) (n : nat) : Prop :=
  exists l, rules_in s n = Some l /\ (forall r, In r l -> pbr_valid (Some r) = true) /\
  forall i j x y, (i < j)%nat -> nth_error l i = Some x -> nth_error l j = Some y ->
    e_eqf (w_env W) (pbr_string W (Some x)) (pbr_string W (Some y)) = false.
(* the statement changes nothing the list is made of, or is Push or Pop on the list, or
   Set on the instruction that owns the list *)
Definition left_alone_pbrs (s : st) (c : stmt) (n : nat) : Prop :=
  (forall m, leads (s_heap s) n m -> ~ In m (touched s c)) \/
  (exists l xs, c = XPushPbr l xs /\ s_var s l = Some n) \/ (exists r l, c = XPopPbr r l /\ s_var s l = Some n) \/
  (exists i xs k a t, c = XSet i xs /\ s_var s i = Some k /\ nth_error (s_heap s) k = Some (NIns a t n)).
Fixpoint left_alone_pbrs_run (W : world) (s : st) (q : list stmt) (n : nat) : Prop :=
  match q with
  | [] => True
  | c :: r => left_alone_pbrs s c n /\ match step W s c with Some s' => left_alone_pbrs_run W s' r n | None => True end
  end.

(* an argument of Set, as a value *)
Definition set_value (s : st) (x : sarg) : option iarg :=
  let h := s_heap s in
  match x with
  | AText y => Some (IStr y)
  | ATRs u => Some (ITRs (map (tr_at h) (trs_of s u)))
  | ATR x => Some (ITR (match s_var s x with Some n => tr_at h n | None => None end))
  | APBR r => match s_var s r with Some n => option_map (fun v => IPBR (Some v)) (pbr_at h n) | None => Some (IPBR None) end
  | APBRs l => option_map (fun v => IPBRs (map Some v)) (all (map (pbr_at h) (pbrs_of s l)))
  | AAny => Some IOther
  end.
Definition reached (W : world) (s : st) : Prop := exists p, run W s_start p = Some s.
