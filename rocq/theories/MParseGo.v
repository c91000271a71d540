(* Parse of one variable called by several goroutines, while others call methods that read
   the variable.  Definitions only.

   What a text says is in MView.v.  Here a call of Parse has two parts: the text is read,
   which changes nothing that another goroutine sees; then the result is stored.  A method
   that reads has a value receiver: it works on a copy of the variable made as it is called.

   Simplified: reading a text is one step.  A value that was stored is not changed afterwards:
   only Parse and methods that read are called (for Set see MFirst.v, MPair.v, MUriGo.v,
   MInsGo.v).  A method that reads is a step that keeps the copy. *)
From Coq Require Import String List PeanoNat NArith Bool.
From Verif Require Import GoStr MHeap MKw MAttr MView.
Import ListNotations.
Open Scope list_scope.

(* the calls: Parse with the arguments s; a method that reads *)
Inductive gcall (I : Type) := GParse (s : I) | GRead.
Arguments GParse {I}. Arguments GRead {I}.
(* what they return: whether Parse returned no error; the copy *)
Inductive gres (R : Type) := RDone (ok : bool) | RSeen (v : R).
Arguments RDone {R}. Arguments RSeen {R}.

(* ---- variables of one word: a struct with a pointer, a stack, a condition ---- *)
(* GOff: in no call.
   GStore s v: the text of s gave v, before *r = v.
   GDead s: a panic in Parse, which ends the goroutine. *)
Inductive gplace (I R : Type) := GOff | GStore (s : I) (v : R) | GDead (s : I).
Arguments GOff {I R}. Arguments GStore {I R}. Arguments GDead {I R}.
(* a goroutine: the calls left, where it is, the calls that returned and what *)
Record ggo (I R : Type) := MkGg { gtodo : list (gcall I); gat : gplace I R; gret : list (gcall I * gres R) }.
Arguments MkGg {I R}. Arguments gtodo {I R}. Arguments gat {I R}. Arguments gret {I R}.
Record gstate (I R : Type) := MkGs { gvar : R; ggos : list (ggo I R) }.
Arguments MkGs {I R}. Arguments gvar {I R}. Arguments ggos {I R}.

Section Go.
Context {I R : Type}.
Variable P : R -> I -> option (R * bool).
(* parse.go:25-33, 52-64, 102-109, 416-424, 431-439, 944-952, 959-971, 982-1026, 1033-1041,
   1082-1097, 1102-1109, 1114-1126 *)
Definition g_gstep (r : R) (g : ggo I R) : R * ggo I R :=
  match gat g with
  | GOff => match gtodo g with
            | [] => (r, g)
            | GParse s :: t => (r, match P r s with
                                   | None => MkGg t (GDead s) (gret g)
                                   | Some (_, false) => MkGg t GOff (gret g ++ [(GParse s, RDone false)])
                                   | Some (v, true) => MkGg t (GStore s v) (gret g)
                                   end)
            | GRead :: t => (r, MkGg t GOff (gret g ++ [(GRead, RSeen r)]))
            end
  | GStore s v => (v, MkGg (gtodo g) GOff (gret g ++ [(GParse s, RDone true)]))
  | GDead s => (r, g)
  end.
(* the scheduler: no code of /repo.  Goroutine i makes a step *)
Definition g_step (st : gstate I R) (i : nat) : gstate I R :=
  match nth_error (ggos st) i with
  | None => st
  | Some g => let '(r, g') := g_gstep (gvar st) g in MkGs r (wr (ggos st) i g')
  end.
(* the scheduler: the goroutines of q make a step in turn *)
Definition g_sched (st : gstate I R) (q : list nat) : gstate I R := fold_left g_step q st.
(* the variable holds r; goroutine k is to make the calls nth k css *)
Definition g_start (r : R) (css : list (list (gcall I))) : gstate I R :=
  MkGs r (map (fun cs => MkGg cs GOff []) css).
End Go.

(* ---- AttributeBindTypeOrValue: two words, a keyword and a pointer (attr.go:54-57) ---- *)
(* the arguments of Parse *)
Definition barg : Type := string * list (option N).
(* BOff: in no call.
   BOne s v: before the first word of *r = v is stored (attr.go:296); BTwo s v: before the second.
   BCopy c: in a method that reads, one word has been copied: that of c *)
Inductive bplace := BOff | BOne (s : barg) (v : abtv) | BTwo (s : barg) (v : abtv) | BCopy (c : abtv).
Record bgo := MkBg { btodo : list (gcall barg); bat : bplace; bret : list (gcall barg * gres abtv) }.
Record bstate := MkBs { bvar : abtv; bgos : list bgo }.
(* r with one word of v: the keyword, or the pointer *)
Definition b_put (kw : bool) (v r : abtv) : abtv :=
  if kw then MkABTV (ab_kw v) (ab_pair r) else MkABTV (ab_kw r) (ab_pair v).
(* kf: whether the keyword is stored and copied first; Go does not say *)
Definition b_gstep (kf : bool) (r : abtv) (g : bgo) : abtv * bgo :=
  match bat g with
  | BOff => match btodo g with
            | [] => (r, g)
            (* attr.go:290-298 *)
            | GParse s :: t => (r, match ABTV_Parse r (fst s) (snd s) with
                                   | (_, false) => MkBg t BOff (bret g ++ [(GParse s, RDone false)])
                                   | (v, true) => MkBg t (BOne s v) (bret g)
                                   end)
            | GRead :: t => (r, MkBg t (BCopy r) (bret g))
            end
  | BOne s v => (b_put kf v r, MkBg (btodo g) (BTwo s v) (bret g))
  | BTwo s v => (b_put (negb kf) v r, MkBg (btodo g) BOff (bret g ++ [(GParse s, RDone true)]))
  | BCopy c => (r, MkBg (btodo g) BOff (bret g ++ [(GRead, RSeen (b_put kf c r))]))
  end.
(* the scheduler: no code of /repo.  Goroutine i makes a step *)
Definition b_step (kf : bool) (st : bstate) (i : nat) : bstate :=
  match nth_error (bgos st) i with
  | None => st
  | Some g => let '(r, g') := b_gstep kf (bvar st) g in MkBs r (wr (bgos st) i g')
  end.
(* the scheduler: the goroutines of q make a step in turn *)
Definition b_sched (kf : bool) (st : bstate) (q : list nat) : bstate := fold_left (b_step kf) q st.
(* the variable holds r; goroutine k is to make the calls nth k css *)
Definition b_start (r : abtv) (css : list (list (gcall barg))) : bstate :=
  MkBs r (map (fun cs => MkBg cs BOff []) css).
