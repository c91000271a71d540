(* Set and Parse of one variable called by several goroutines.  Definitions only.

   Set is as in MFirst.v: the pointer is tested, a new value made if it is nil, the pointer
   read again and the arguments put into what it points at.  Parse reads its text and stores
   the address of a new value (MParseGo.v).

   Simplified: as in MFirst.v, putting all arguments of a call of Set in is one step. *)
From Coq Require Import String List PeanoNat Bool.
From Verif Require Import GoStr MHeap MFilter MUri MFirst.
Import ListNotations.
Open Scope list_scope.

(* the calls: Set with the arguments c, Parse of the text s *)
Inductive scall (C : Type) := SSet (c : C) | SParse (s : string).
Arguments SSet {C}. Arguments SParse {C}.
(* SOff: in no call.
   SMake c: Set, the test said zero, before the new value is stored.
   STake c: Set, before the pointer is read for the call of set.
   SDo p c: Set, in set on the value p.
   SPut s v: Parse, the text s gave v, before *r = v. *)
Inductive splace (V C : Type) := SOff | SMake (c : C) | STake (c : C) | SDo (p : nat) (c : C) | SPut (s : string) (v : V).
Arguments SOff {V C}. Arguments SMake {V C}. Arguments STake {V C}. Arguments SDo {V C}. Arguments SPut {V C}.
Record sgo (V C : Type) := MkSg { stodo : list (scall C); sat : splace V C }.
Arguments MkSg {V C}. Arguments stodo {V C}. Arguments sat {V C}.
(* the values made so far, the pointer in the variable, the goroutines *)
Record sstate (V C : Type) := MkSs { svals : list V; svar : option nat; sgos : list (sgo V C) }.
Arguments MkSs {V C}. Arguments svals {V C}. Arguments svar {V C}. Arguments sgos {V C}.

Section SP.
Context {V C : Type}.
Variable T : ftype V C.
(* what a text says; None: an error *)
Variable P : string -> option V.
(* what the variable shows; None: a nil pointer (uri.go:22-24, filter.go:186-188) *)
Definition s_shown (st : sstate V C) : option V :=
  match svar st with None => None | Some p => Some (nth p (svals st) (fempty T)) end.
(* uri.go:426-434 and parse.go:1033-1041 LDAPURI; filter.go:237-244 and parse.go:1114-1126
   AttributeFilter *)
Definition s_gstep (st : sstate V C) (g : sgo V C) : list V * option nat * sgo V C :=
  let vs := svals st in
  let go p := (vs, svar st, MkSg (stodo g) p) in
  let new x p := (vs ++ [x], Some (List.length vs), MkSg (stodo g) p) in
  match sat g with
  | SOff => match stodo g with
            | [] => (vs, svar st, g)
            | SSet c :: t => (vs, svar st, MkSg t (if f_isZero T (s_shown st) then SMake c else STake c))
            | SParse s :: t => (vs, svar st, MkSg t (match P s with Some v => SPut s v | None => SOff end))
            end
  | SMake c => match fhow T with
               | Whole => new (fupd T (fempty T) c) SOff
               | _ => new (fempty T) (STake c)
               end
  | STake c => go (match svar st with Some p => SDo p c | None => SOff end)
  | SDo p c => (wr vs p (fupd T (nth p vs (fempty T)) c), svar st, MkSg (stodo g) SOff)
  | SPut s v => new v SOff
  end.
(* the scheduler: no code of /repo.  Goroutine i makes a step *)
Definition s_step (st : sstate V C) (i : nat) : sstate V C :=
  match nth_error (sgos st) i with
  | None => st
  | Some g => let '(vs, v, g') := s_gstep st g in MkSs vs v (wr (sgos st) i g')
  end.
(* the scheduler: the goroutines of q make a step in turn *)
Definition s_sched (st : sstate V C) (q : list nat) : sstate V C := fold_left s_step q st.
(* a variable that shows o; goroutine k is to make the calls nth k css *)
Definition s_begin (o : option V) (css : list (list (scall C))) : sstate V C :=
  let gs := map (fun cs => MkSg cs SOff) css in
  match o with None => MkSs [] None gs | Some v => MkSs [v] (Some 0) gs end.
(* one call with nothing in between: uri.go:426-434, parse.go:1033-1041 and so on *)
Definition s_call (o : option V) (x : scall C) : option V :=
  match x with SSet c => f_set T o c | SParse s => match P s with Some v => Some v | None => o end end.
End SP.

(* parse.go:1047-1073 *)
Definition uri_text (s : string) : option uri := parseLDAPURI s [].
(* parse.go:1114-1126, 1099-1117 *)
Definition af_text (s : string) : option atf := match af_parse s with Some (Some v) => Some v | _ => None end.
