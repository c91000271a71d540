(* Theorems for C14 (ssf), C15 (authmethod), C16 (scopes). *)
From Coq Require Import String Ascii List PeanoNat NArith ZArith Bool Permutation Lia.
From Verif Require Import GoStr MMisc MSec SSec PKw PSec.
Import ListNotations.
Open Scope string_scope.

(* C14: after SSF() and any Set calls the value is the last supported argument
   clamped to 0..256, and its text is that number in decimal. *)
Theorem C14_history : forall h,
  ssf_string (fold_left ssf_set h (SSF [])) = itoa (Z.to_N (factor_after 0 h)) /\
  (0 <= factor_after 0 h <= 256)%Z.
Proof.
  intros h. destruct (ssf_run h (SSF [])) as [A B]; [left; discriminate|exact I|].
  change (ssf_num (SSF [])) with 0%Z in A. rewrite <- A. now apply ssf_string_num.
Qed.
(* The same for the zero value of the type, if no argument has an unsupported type. *)
Theorem C14_history_zero_value : forall h, (forall a, In a h -> asked a <> None) ->
  ssf_string (fold_left ssf_set h None) = itoa (Z.to_N (factor_after 0 h)).
Proof.
  intros h H. destruct (ssf_run h None) as [A B]; [now right|exact I|].
  change (ssf_num None) with 0%Z in A. rewrite <- A. now apply ssf_string_num.
Qed.
(* Without that condition it is false: an argument of an unsupported type turns
   the zero value into strength 1. *)
Theorem C14_unsupported_argument_refuted :
  ~ (forall h, ssf_string (fold_left ssf_set h None) = itoa (Z.to_N (factor_after 0 h))).
Proof. intros H. specialize (H [SOther]). discriminate H. Qed.
(* one argument given to SSF itself *)
Theorem C14_constructor : forall a z, asked a = Some z -> ssf_string (SSF [a]) = itoa (Z.to_N z).
Proof.
  intros a z E. destruct (set_inner_num None a z E) as [A B].
  destruct (ssf_string_num _ B) as [C _]. rewrite A in C. exact C.
Qed.
(* a bind rule text is accepted exactly for the decimals of 0..256 ... *)
Theorem C14_accept : forall v,
  (exists x, assertBindSSF [v] = Some x) <->
  exists n, (n <= 256)%N /\ unquote (condenseWHSP v) = itoa n.
Proof. exact ssf_accept. Qed.
(* ... and the value then prints that text. *)
Theorem C14_accepted_text : forall vals x, assertBindSSF vals = Some x ->
  exists v, vals = [v] /\ ssf_string x = unquote (condenseWHSP v).
Proof.
  intros vals x. destruct vals as [|v [|? ?]]; cbn [assertBindSSF]; try discriminate.
  destruct (String.eqb_spec (ssf_string (SSF [SStr (unquote (condenseWHSP v))])) (unquote (condenseWHSP v))) as [E|]; [|discriminate].
  intros H. injection H as <-. now exists v.
Qed.
Print Assumptions C14_history.
Print Assumptions C14_history_zero_value.
Print Assumptions C14_unsupported_argument_refuted.
Print Assumptions C14_constructor.
Print Assumptions C14_accept.
Print Assumptions C14_accepted_text.
Example C14_witness :
  ssf_string (fold_left ssf_set [SInt 300; SOther] (SSF [])) = "256" /\
  ssf_string (SSF [SStr "MAX"]) = "256" /\ ssf_string (SSF [SInt 1]) = "1" /\
  assertBindSSF ["""128"""] = Some (Some (Some 127%N)) /\ assertBindSSF ["""257"""] = None /\
  (forall a, In a [SInt 300; SStr "off"; SNil] -> asked a <> None).
Proof.
  repeat split; try reflexivity. intros a H. cbn [In] in H.
  repeat destruct H as [<-|H]; try contradiction; vm_compute; discriminate.
Qed.

(* C15: for every iteration order of the name table a text gives the method it
   names in any letter case, and Anonymous (the documented default) otherwise. *)
Theorem C15_match : forall t, Permutation t authNames -> forall s,
  (forall m, names_auth s m -> auth_match_str t s = authm_const m) /\
  ((forall m, ~ names_auth s m) -> auth_match_str t s = authm_const MNone).
Proof.
  intros t P s. destruct (auth_match_spec t P s) as [(m & H & E)|[H E]]; split.
  - intros m' H'. rewrite E. f_equal. apply auth_name_inj. unfold names_auth in *.
    apply eqfold_iff in H, H'. congruence.
  - intros H'. now apply H' in H.
  - intros m H'. now apply H in H'.
  - intros _. exact E.
Qed.
(* the printed name does not depend on the order and reads back to the method *)
Theorem C15_round_trip : forall t t' low m, Permutation t authNames -> Permutation t' authNames ->
  names_auth (auth_string_in t low (authm_const m)) m /\
  auth_match_str t' (auth_string_in t low (authm_const m)) = authm_const m.
Proof.
  intros t t' low m P P'. rewrite auth_string_spec by easy.
  assert (H : names_auth (foldAuthenticationMethod low (low_name m)) m) by apply auth_string_fold.
  split; [exact H|]. now apply C15_match.
Qed.
(* with the default setting it is the documented upper case name *)
Theorem C15_default_text : forall t m, Permutation t authNames ->
  auth_string_in t false (authm_const m) = authm_name m.
Proof. intros t m P. rewrite auth_string_spec by easy. now destruct m. Qed.
(* a bind rule text is accepted exactly for the names, in any letter case *)
Theorem C15_accept : forall t low v, Permutation t authNames ->
  (forall m, assertBindAuthenticationMethod t low [v] = Some (authm_const m) <->
             names_auth (unquote (condenseWHSP v)) m) /\
  (assertBindAuthenticationMethod t low [v] = None <->
   forall m, ~ names_auth (unquote (condenseWHSP v)) m).
Proof.
  intros t low v P. cbn [assertBindAuthenticationMethod]. set (u := unquote (condenseWHSP v)).
  assert (INJ : forall m m', names_auth u m -> names_auth u m' -> m = m').
  { intros m m' H H'. apply auth_name_inj. unfold names_auth in *. apply eqfold_iff in H, H'. congruence. }
  destruct (auth_match_spec t P u) as [(m & H & E)|[H E]]; rewrite E.
  - rewrite auth_string_spec by easy.
    assert (F : eqfold (foldAuthenticationMethod low (low_name m)) u = true).
    { assert (A := auth_string_fold low m). unfold names_auth in H. apply eqfold_iff in A, H.
      apply eqfold_iff. congruence. }
    rewrite F. split; [intros m'|].
    + split; intros H'.
      * injection H' as H'. apply authm_const_inj in H' as <-. exact H.
      * do 2 f_equal. now apply INJ.
    + split; [discriminate|]. intros H'. now apply H' in H.
  - change 1%N with (authm_const MNone). rewrite auth_string_spec by easy.
    destruct (eqfold _ u) eqn:F.
    + exfalso. apply (H MNone). assert (A := auth_string_fold low MNone). unfold names_auth.
      apply eqfold_iff in A, F. apply eqfold_iff. congruence.
    + split; [intros m'; split; [discriminate|intros H'; now apply H in H']|easy].
Qed.
Print Assumptions C15_match.
Print Assumptions C15_round_trip.
Print Assumptions C15_default_text.
Print Assumptions C15_accept.
Example C15_witness : Permutation (rev authNames) authNames /\
  auth_match_str (rev authNames) "Sasl External" = 5%N /\
  names_auth "Sasl External" MExternal /\
  assertBindAuthenticationMethod (rev authNames) true ["""bogus"""] = None.
Proof. split; [apply Permutation_sym, Permutation_rev|]. repeat split; reflexivity. Qed.

(* C16 *)
Theorem C16_read : forall s,
  (forall c, strToScope s = scope_const c <-> names_scope s c) /\
  (strToScope s = 0%N <-> forall c, ~ names_scope s c).
Proof. exact scope_iff. Qed.
Theorem C16_target_name : forall c, names_scope (scope_string (scope_const c)) c /\
  strToScope (scope_string (scope_const c)) = scope_const c.
Proof. intros []; split; try reflexivity; vm_compute; tauto. Qed.
(* The name used in LDAP URIs reads back, except for the subordinate scope,
   which is written as base there. *)
Theorem C16_standard_name : forall c, c <> ScChildren ->
  strToScope (scope_standard (scope_const c)) = scope_const c.
Proof. now intros []. Qed.
Theorem C16_standard_name_refuted :
  ~ (forall c, strToScope (scope_standard (scope_const c)) = scope_const c).
Proof. intros H. specialize (H ScChildren). discriminate H. Qed.
Theorem C16_accept : forall v,
  (forall c, assertTargetScope [v] = Some (scope_const c) <-> names_scope (unquote (condenseWHSP v)) c) /\
  (assertTargetScope [v] = None <-> forall c, ~ names_scope (unquote (condenseWHSP v)) c).
Proof.
  intros v. cbn [assertTargetScope]. set (u := unquote (condenseWHSP v)).
  destruct (scope_iff u) as [A B].
  destruct (String.length u =? 0)%nat eqn:L.
  - apply Nat.eqb_eq in L. destruct u; [|discriminate].
    assert (Z : forall c, ~ names_scope "" c) by (intros []; vm_compute; intuition discriminate).
    split; [intros c; split; [discriminate|intros H; now apply Z in H]|easy].
  - destruct (scope_cases u) as [(c & H & E)|[H E]]; rewrite E in *.
    + replace (scope_const c =? noScope)%N with false by now destruct c.
      split.
      * intros c'. rewrite <- A. split; [intros H'; now injection H'|now intros ->].
      * split; [discriminate|]. intros H'. now apply H' in H.
    + change (0 =? noScope)%N with true. split; [|easy].
      intros c. split; [discriminate|]. intros H'. now apply H in H'.
Qed.
Print Assumptions C16_read.
Print Assumptions C16_target_name.
Print Assumptions C16_standard_name.
Print Assumptions C16_standard_name_refuted.
Print Assumptions C16_accept.
Example C16_witness : names_scope "OneLevel" ScOne /\ strToScope "OneLevel" = 2%N /\
  assertTargetScope ["""children"""] = Some 4%N /\ strToScope "level" = 0%N.
Proof. repeat split; try reflexivity. vm_compute. tauto. Qed.
