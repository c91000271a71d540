(* Specification for C163, C164: one LDAP URI and several goroutines that call Set and String
   on it. *)
From Coq Require Import String List PeanoNat NArith Bool.
From Verif Require Import GoStr MMisc MKw MSec MAttr MLevels MLists MFilter MUri MUriGo.
Import ListNotations.

(* a part of a URI; the attribute bind type has two words, its keyword and its pair *)
Inductive upart := PDn (d : dn) | PScope (n : N) | PKw (k : N) | PPair (p : option pair_t) | PAttr (a : attype) | PFilter (f : sfilter).
Definition has_part (u : uri) (p : upart) : Prop :=
  match p with
  | PDn d => u_dn u = d
  | PScope n => u_scope u = n
  | PKw k => ab_kw (u_avbt u) = k
  | PPair p => ab_pair (u_avbt u) = p
  | PAttr a => In a (u_attrs u)
  | PFilter f => u_filter u = f
  end.
(* the parts that an argument of Set stands for *)
Definition arg_part (x : uarg) (p : upart) : Prop :=
  match x, p with
  | UStr s, p => exists u, parseLDAPURI s [] = Some u /\ has_part u p
  | UDn d, PDn e => d = e
  | UScope n, PScope m => n = m
  | UAvbt a, PKw k => ab_kw a = k
  | UAvbt a, PPair p => ab_pair a = p
  | UFilter f, PFilter g => f = g
  | UAttrs l, PAttr a => In a l
  | _, _ => False
  end.
(* an argument after which Set does not stop *)
Definition no_uri (x : uarg) : Prop := match x with UStr s => parseLDAPURI s [] = None | _ => True end.
(* some goroutine gives the part, in a call of Set that does not stop before it *)
Definition v_gives (css : list (list vcall)) (p : upart) : Prop :=
  exists cs a x b, In cs css /\ In (VSet (a ++ x :: b)) cs /\ Forall no_uri a /\ arg_part x p.
(* all calls have returned; no two goroutines are in a call at the same time *)
Definition v_returned (st : vstate) : Prop := forall g, In g (vgos st) -> vtodo g = [] /\ vcur g = [].
Definition v_quiet (st : vstate) : Prop := forall g, In g (vgos st) -> vcur g = [].
Definition v_turns (st : vstate) (q : list nat) : Prop :=
  forall a b, q = (a ++ b)%list -> forall i j gi gj,
    nth_error (vgos (v_sched st a)) i = Some gi -> vcur gi <> [] ->
    nth_error (vgos (v_sched st a)) j = Some gj -> vcur gj <> [] -> i = j.
(* calls one after the other, each with the goroutine that makes it: the URI in the end, the
   texts that one goroutine gets *)
Fixpoint serial (u : uri) (log : list (nat * vcall)) : uri :=
  match log with
  | [] => u
  | (_, VSet xs) :: t => serial (uri_set u xs) t
  | (_, VString) :: t => serial u t
  end.
Fixpoint said (i : nat) (u : uri) (log : list (nat * vcall)) : list string :=
  match log with
  | [] => []
  | (_, VSet xs) :: t => said i (uri_set u xs) t
  | (j, VString) :: t => ((if Nat.eqb i j then [uri_string u] else []) ++ said i u t)%list
  end.
Definition calls_of (i : nat) (log : list (nat * vcall)) : list vcall :=
  map snd (filter (fun p => Nat.eqb i (fst p)) log).
(* each part of w is that of u or that of v *)
Definition mixed (u v w : uri) : Prop :=
  (u_dn w = u_dn u \/ u_dn w = u_dn v) /\ (u_scope w = u_scope u \/ u_scope w = u_scope v) /\
  (ab_kw (u_avbt w) = ab_kw (u_avbt u) \/ ab_kw (u_avbt w) = ab_kw (u_avbt v)) /\
  (ab_pair (u_avbt w) = ab_pair (u_avbt u) \/ ab_pair (u_avbt w) = ab_pair (u_avbt v)) /\
  (u_attrs w = u_attrs u \/ u_attrs w = u_attrs v) /\ (u_filter w = u_filter u \/ u_filter w = u_filter v).
(* calls of String, and of Set with one text that is a URI *)
Definition whole_uris (cs : list vcall) : Prop :=
  forall c, In c cs -> c = VString \/ exists s v, c = VSet [UStr s] /\ parseLDAPURI s [] = Some v.
Definition uri_given (css : list (list vcall)) (v : uri) : Prop :=
  exists cs s, In cs css /\ In (VSet [UStr s]) cs /\ parseLDAPURI s [] = Some v.
