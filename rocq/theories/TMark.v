(* Further theorems for C93: valid lists, names, identifiers and filters show what they hold. *)
From Coq Require Import String Ascii List PeanoNat NArith Bool Lia.
From Verif Require Import GoStr GoStrFacts MMisc MKw MNet MAttr MFilter MLists MInfo SAttr SNet SInfo PTime PAttr PNet PTree TNet.
Import ListNotations.
Open Scope string_scope.

(* whatever calls made them; an identifier with any notion of well-formed dotted number of
   which the marker is none *)
Theorem C93_text_more :
  (forall init h, let a := ip_run (IP init) h in ipaddr_valid a = true ->
     ipaddr_string a <> "<invalid_address_list>" /\ ipaddr_string a <> "") /\
  (forall init h, let f := fqdn_run (DNS init) h in fqdn_valid f = true ->
     fqdn_string f <> "<invalid_fqdn_or_label>" /\ fqdn_string f <> "") /\
  (forall dotnot xs, (forall s t, dotnot s = Some t -> t <> "<invalid_object_identifier>") ->
     (oid_valid (Ctrl dotnot xs) = true -> oid_string (Ctrl dotnot xs) <> "<invalid_object_identifier>") /\
     (oid_valid (ExtOp dotnot xs) = true -> oid_string (ExtOp dotnot xs) <> "<invalid_object_identifier>")) /\
  (forall f, sf_valid f = true <-> sf_string f <> "") /\
  (forall f, af_valid f = true <-> af_string f <> "").
Proof.
  split; [|split; [|split; [|split]]].
  - intros init h. cbv zeta. destruct (C19_defined init h) as [l E]. destruct (C19_history init h l E) as (_ & IN & _).
    rewrite E. cbn [ipaddr_valid ipaddr_string]. destruct l as [|x l]; [discriminate|]. intros _.
    assert (P : plausible x) by (apply IN; now left). destruct P as [L P]. destruct x as [|c x]; [cbn in L; lia|].
    assert (Q : in_text v4_text c \/ in_text v6_text c) by (destruct P as [P|P]; [left|right]; apply P; now left).
    assert (N : c <> "<"%char) by (intros ->; destruct Q as [Q|Q]; apply mem_text_iff in Q; discriminate Q).
    destruct l as [|y l]; cbn [join append]; (split; [intros F; injection F as F _; now apply N|discriminate]).
  - intros init h. cbv zeta. destruct (C20_defined init h) as [l E]. rewrite E. intros V.
    destruct (C20_marker init h l E) as [M _]. split.
    + intros F. apply M in F. congruence.
    + unfold fqdn_string. rewrite V. destruct l as [|x l]; [discriminate V|].
      assert (K := C20_labels init h (x :: l) E x (or_introl eq_refl)). destruct K as (L & _).
      destruct x as [|c x]; [cbn in L; lia|]. destruct l; discriminate.
  - intros dotnot xs OK.
    assert (I : forall xs d e, (forall t, d = Some t -> t <> "<invalid_object_identifier>") ->
      forall t, fst (fold_left (oid_set1 dotnot) xs (d, e)) = Some t -> t <> "<invalid_object_identifier>").
    { clear xs. induction xs as [|x xs IH]; intros d e D; [exact D|].
      assert (F : forall t, fst (oid_set1 dotnot (d, e) x) = Some t -> t <> "<invalid_object_identifier>").
      { destruct x as [s|o|]; cbn [oid_set1].
        - destruct (dotnot s) eqn:Q; cbn [fst]; intros u U; [injection U as <-; now apply (OK s)|discriminate].
        - destruct (oid_valid o); [|exact D]. destruct (dotnot (oid_string o)) eqn:Q; cbn [fst]; intros u U; [injection U as <-; now apply (OK _ _ Q)|discriminate].
        - exact D. }
      cbn [fold_left]. destruct (oid_set1 dotnot (d, e) x) as [d' e']. now apply IH. }
    specialize (I xs None false). cbn in I. assert (J := I (fun t F => ltac:(discriminate F))). clear I.
    unfold Ctrl, ExtOp, newOID. destruct (fold_left (oid_set1 dotnot) xs (None, false)) as [d err]. cbn [fst] in J.
    destruct err; (split; intros V); try (destruct d; discriminate V);
      (destruct d as [t|]; [|discriminate V]); unfold oid_string; cbn; now apply J.
  - intros [s|]; cbn [sf_string]; [|now split; [discriminate|]]. destruct s; cbn; split; try discriminate; easy.
  - intros [[a f]|]; cbn [af_string]; [|now split; [discriminate|]].
    match goal with |- af_valid ?x = true <-> _ => destruct (af_valid x) end; split; [|easy|discriminate|now intros []].
    intros _ F. destruct (at_string a); cbn in F; discriminate F.
Qed.
Print Assumptions C93_text_more.
Example C93_text_more_witness :
  (ipaddr_valid (ip_run (IP ["x"]) [["10.*"]]) = true /\ ipaddr_valid (IP ["x"]) = false) /\
  (fqdn_valid (DNS ["a.b"]) = true /\ fqdn_valid (DNS ["a"]) = false) /\
  (oid_valid (Ctrl (fun s => if String.eqb s "1.2" then Some s else None) [IAStr "x"; IAStr "1.2"]) = true).
Proof. repeat split; reflexivity. Qed.
