(* C126: what error messages tell. *)
From Coq Require Import String Ascii List PeanoNat NArith ZArith Bool Lia.
From Verif Require Import GoStr GoStrFacts MMisc MLists MKw Shifty MAttr MLevels MTime MSec MNet MErr SErr STime PTime.
Import ListNotations.
Open Scope string_scope.

Lemma quotes_mid m a x b : m = a ++ "'" ++ x ++ "'" ++ b -> quotes m x.
Proof. intros ->. now exists a, b. Qed.

(* ---- the texts of the errors that quote what they were given; the given text may
   contain anything, % included ---- *)
Theorem C126_quoted : forall x y,
  badInhErr x = Some ("Bad Inheritance value '" ++ x ++ "'; must conform to 'parent[0-9+].<at>#<bt_or_av>'") /\
  badAttributeBindTypeOrValueErr x = Some ("Invalid AttributeBindTyoeOrValue instance: must conform to '<at>#<bt_or_av>', got '" ++ x ++ "'") /\
  badObjectIdentifierErr x = Some ("Invalid ObjectIdentifier instance: must conform to 'N[.N]+', got '" ++ x ++ "'") /\
  rightNotfound x = Some ("Right '" ++ x ++ "' unknown") /\
  bogusValueErr y x = Some ("Bogus " ++ y ++ " value: '" ++ x ++ "'").
Proof. intros x y. repeat split. Qed.
(* the errors that compare two values: none exactly when they agree, else both are quoted *)
Definition differ_text (start want got hint : string) : string := start ++ "; want '" ++ want ++ "', got '" ++ got ++ "'" ++ hint.
Lemma differ_quotes start want got hint : quotes (differ_text start want got hint) want /\ quotes (differ_text start want got hint) got.
Proof.
  split.
  - exists (start ++ "; want "), (", got '" ++ got ++ "'" ++ hint). unfold differ_text. now rewrite !app_assoc'.
  - exists (start ++ "; want '" ++ want ++ "', got "), hint. unfold differ_text. now rewrite !app_assoc'.
Qed.
Theorem C126_compared : forall want got,
  badClockTimeErr want got = (if String.eqb want got then None else Some (differ_text
     "Unexpected timeofday clock time parsing result" want got " (hint: use military time; 0000 through 2400)")) /\
  badSecurityStrengthFactorErr want got = (if String.eqb want got then None else Some (differ_text
     "Unexpected security strength factor parsing result" want got " (hint: valid range is 0-256)")) /\
  badDNSErr want got = (if String.eqb want got then None else Some (differ_text "Unexpected 'dns' values parsed" want got "")) /\
  badAMErr want got = (if eqfold got want then None else Some (differ_text "Unexpected authmethod auth method parsing result" want got "")).
Proof.
  intros want got. unfold badClockTimeErr, badSecurityStrengthFactorErr, badDNSErr, badAMErr. rewrite (String.eqb_sym got want).
  repeat split; [destruct (String.eqb want got)|destruct (String.eqb want got)|destruct (String.eqb want got)|destruct (eqfold got want)]; reflexivity.
Qed.
(* the same for numbers *)
Theorem C126_counted : forall key want got,
  unexpectedBindConditionValueErr key want got = (if Nat.eqb want got then None else
     Some ("Unexpected number of " ++ bkw_string key ++ " values; want " ++ count want ++ ", got " ++ count got)) /\
  badIPErr want got = (if Nat.eqb want got then None else
     Some (differ_text "Unexpected 'ip' values parsed" (count want) (count got) "")).
Proof.
  intros key want got. unfold unexpectedBindConditionValueErr, badIPErr.
  split; destruct (Nat.eqb want got); cbn [negb]; try reflexivity.
  rewrite <- (app_nil_r' (count got)). reflexivity.
Qed.

(* ---- the readers: an error exactly when they refuse, and what it says ---- *)
(* attribute#value *)
Theorem C126_attribute : forall x bkw,
  (atbtv_error x = None <-> exists a, parseATBTV x bkw = Some a) /\
  (forall m, atbtv_error x = Some m -> m = "Invalid AttributeBindTyoeOrValue instance: must conform to '<at>#<bt_or_av>', got '" ++ x ++ "'").
Proof.
  intros x bkw. unfold atbtv_error, parseATBTV. destruct (idx "#" x) as [i|].
  - destruct (String.eqb _ badAT).
    + split; [split; [discriminate|now intros (a & A)]|]. intros m [= <-]. reflexivity.
    + split; [|discriminate]. split; [|reflexivity]. intros _. destruct (negb _); eexists; reflexivity.
  - split; [split; [discriminate|now intros (a & A)]|]. intros m [= <-]. reflexivity.
Qed.
Lemma get_sdrop : forall s n c, String.get n s = Some c -> sdrop n s = String c (sdrop (S n) s).
Proof.
  induction s as [|x s IH]; intros [|n] c H; cbn [String.get sdrop] in *; try discriminate.
  - injection H as ->. now destruct s.
  - now apply IH.
Qed.
(* inheritance: the whole text is quoted, or its part after "].", or the levels are missing *)
Theorem C126_inheritance : forall sh s,
  (inh_error sh s = None <-> parseInheritance sh s = IPanic) /\
  (inh_error sh s = Some None <-> exists i, parseInheritance sh s = IOk i) /\
  (forall m, inh_error sh s = Some (Some m) ->
     quotes m s \/ m = "No level identifiers parsed; aborting" \/ exists a t, s = a ++ "]." ++ t /\ quotes m t).
Proof.
  intros sh s. unfold inh_error, parseInheritance.
  assert (Q : forall m, badInhErr s = Some m -> quotes m s).
  { intros m [= <-]. exists "Bad Inheritance value ", "; must conform to 'parent[0-9+].<at>#<bt_or_av>'". reflexivity. }
  destruct (negb (has_prefix "parent[" (lc s))).
  { split; [split; discriminate|]. split; [split; [discriminate|now intros (i & I)]|]. intros m [= H]. left. apply Q. now rewrite <- H. }
  cbv zeta. destruct (idx "]" (sdrop 7 s)) as [i|] eqn:I.
  2: { split; [split; discriminate|]. split; [split; [discriminate|now intros (j & J)]|]. intros m [= H]. left. apply Q. now rewrite <- H. }
  destruct (String.get (i + 1) (sdrop 7 s)) as [c|] eqn:G.
  2: { split; [easy|]. split; [split; [discriminate|now intros (j & J)]|discriminate]. }
  destruct (Ascii.eqb_spec c ".") as [-> |N]; cbn [negb].
  2: { split; [split; discriminate|]. split; [split; [discriminate|now intros (j & J)]|]. intros m [= H]. left. apply Q. now rewrite <- H. }
  destruct (_ =? 0)%N.
  { split; [split; discriminate|]. split; [split; [discriminate|now intros (j & J)]|]. intros m [= <-]. right. left. reflexivity. }
  destruct (C126_attribute (sdrop (i + 2) (sdrop 7 s)) []) as [A B].
  destruct (parseATBTV (sdrop (i + 2) (sdrop 7 s)) []) as [a|].
  - destruct A as [_ A]. rewrite A by (eexists; reflexivity).
    split; [split; discriminate|]. split; [split; [intros _; eexists; reflexivity|reflexivity]|discriminate].
  - split; [split; discriminate|]. split.
    + split; [|now intros (j & J)]. intros [= H]. apply A in H as (a & H). discriminate H.
    + intros m [= H]. right. right. exists (stake 7 s ++ stake i (sdrop 7 s)), (sdrop (i + 2) (sdrop 7 s)). split.
      * destruct (idx_some _ _ _ I) as (E & _). rewrite <- (stake_sdrop 7 s) at 1. rewrite E at 1.
        replace (i + 1)%nat with (S i) in G by lia. rewrite (get_sdrop _ _ _ G). replace (i + 2)%nat with (S (S i)) by lia.
        now rewrite app_assoc'.
      * rewrite (B m H). exists "Invalid AttributeBindTyoeOrValue instance: must conform to '<at>#<bt_or_av>', got ", "". reflexivity.
Qed.

(* days: the message shows the first entry that is no day *)
Lemma dow_loop_first : forall X m, dow_loop_error X = Some m ->
  exists l x r, X = (l ++ x :: r)%list /\ Forall (fun y => matchStrDoW y <> noDay) l /\ matchStrDoW x = noDay /\
    m = "aci.DayOfWeek instance describes invalid dayofweek: " ++ x.
Proof.
  induction X as [|x X IH]; intros m H; [discriminate|]. cbn [dow_loop_error] in H. destruct (N.eqb_spec (matchStrDoW x) noDay) as [E|E].
  - injection H as <-. exists [], x, X. repeat split; trivial. rewrite <- (app_nil_r' x) at 2. reflexivity.
  - destruct (IH m H) as (l & y & r & -> & F & Y & M). exists (x :: l)%list, y, r. repeat split; trivial. now constructor.
Qed.
Lemma dow_loop_none sh : forall X v, (dow_loop_error X = None <-> exists w, parseDoW_loop sh v X = Some w).
Proof.
  induction X as [|x X IH]; intros v; cbn [dow_loop_error parseDoW_loop]; [split; [now exists v|reflexivity]|].
  destruct (matchStrDoW x =? noDay)%N; [split; [discriminate|now intros (w & W)]|apply IH].
Qed.
Theorem C126_days : forall sh, shifty_ok sh -> forall s,
  (dow_error sh s = None <-> exists d, parseDoW sh s = Some d) /\
  (forall m, dow_error sh s = Some m -> exists l x r, split1 "," (remove_byte " " s) = (l ++ x :: r)%list /\
     Forall (fun y => exists d, names_day y d) l /\ (forall d, ~ names_day x d) /\
     m = "aci.DayOfWeek instance describes invalid dayofweek: " ++ x).
Proof.
  intros sh OK s. unfold dow_error, parseDoW. cbv zeta. set (X := split1 "," (remove_byte " " s)).
  assert (V : forall w, parseDoW_loop sh 0 X = Some w -> dow_valid sh (Some w) = true).
  { intros w W. assert (P := parse_spec sh OK s). unfold parseDoW in P. fold X in P. rewrite W in P.
    destruct (dow_valid sh (Some w)); [reflexivity|]. exfalso. apply P.
    assert (L := parse_loop sh OK X 0%N (conj eq_refl eq_refl)). rewrite W in L. exact (proj1 L). }
  destruct (dow_loop_error X) as [e|] eqn:E.
  - assert (W : parseDoW_loop sh 0 X = None).
    { destruct (parseDoW_loop sh 0 X) as [w|] eqn:W; [|reflexivity]. exfalso.
      assert (dow_loop_error X = None) by (apply (dow_loop_none sh X 0%N); now exists w). congruence. }
    rewrite W. split; [split; [discriminate|now intros (d & D)]|]. intros m [= <-].
    apply dow_loop_first in E as (l & x & r & -> & F & N & M). exists l, x, r. repeat split; trivial.
    + revert F. apply Forall_impl. intros y Y. destruct (matchStr_some y) as [(d & D & _)|[_ Z]]; [now exists d|unfold noDay in Y; congruence].
    + intros d D. destruct (matchStr_some x) as [(d' & _ & Z)|[Z _]]; [rewrite Z in N; now destruct d'|exact (Z d D)].
  - apply (dow_loop_none sh X 0%N) in E as (w & W). rewrite W. assert (Vw := V w W). unfold dow_valid_error. unfold dow_valid in Vw.
    unfold dow_valid. destruct (String.eqb (dow_string sh (Some w)) badDoW); [discriminate Vw|]. cbn [negb].
    split; [|discriminate]. split; [intros _; eexists; reflexivity|reflexivity].
Qed.

(* the values of a rule: how many there must be, and the value as it was read *)
Definition value_of (v : string) : string := unquote (condenseWHSP v).
Theorem C126_number : forall sh t low vals, List.length vals <> 1%nat ->
  let m kw := Some ("Unexpected number of " ++ kw ++ " values; want 1, got " ++ count (List.length vals)) in
  tod_error vals = m "timeofday" /\ dow_value_error sh vals = m "dayofweek" /\ am_error t low vals = m "authmethod" /\
  ssf_error vals = m "ssf" /\ ip_error vals = m "ip" /\ dns_error vals = m "dns" /\ scope_error vals = m "targetscope".
Proof.
  intros sh t low vals N. cbv zeta.
  assert (A : forall key err, one_value key vals err =
    Some ("Unexpected number of " ++ bkw_string key ++ " values; want 1, got " ++ count (List.length vals))).
  { intros key err. unfold one_value. rewrite (proj1 (C126_counted key 1 (List.length vals))).
    destruct (Nat.eqb_spec 1 (List.length vals)); [congruence|reflexivity]. }
  unfold tod_error, dow_value_error, am_error, ssf_error, ip_error, dns_error. rewrite !A. repeat split.
  unfold scope_error. destruct vals as [|v [|w vals]]; [reflexivity|now destruct N|].
  rewrite <- (app_nil_r' (count (List.length (v :: w :: vals)))). reflexivity.
Qed.
Theorem C126_values : forall sh t low v, let x := value_of v in
  tod_error [v] = (if String.eqb x (tod_string (ToD [TStr x])) then None else Some (differ_text
    "Unexpected timeofday clock time parsing result" x (tod_string (ToD [TStr x])) " (hint: use military time; 0000 through 2400)")) /\
  dow_value_error sh [v] = dow_error sh x /\
  am_error t low [v] = (let a := auth_string_in t low (auth_match_str t x) in
    if eqfold a x then None else Some (differ_text "Unexpected authmethod auth method parsing result" x a "")) /\
  ssf_error [v] = (if String.eqb x (ssf_string (SSF [SStr x])) then None else Some (differ_text
    "Unexpected security strength factor parsing result" x (ssf_string (SSF [SStr x])) " (hint: valid range is 0-256)")) /\
  dns_error [v] = (if String.eqb x (fqdn_string (DNS [x])) then None else Some (differ_text
    "Unexpected 'dns' values parsed" x (fqdn_string (DNS [x])) "")) /\
  scope_error [v] = (if String.eqb x "" then Some "aci.SearchScope instance is nil"
                     else if (strToScope x =? noScope)%N then Some ("Bogus targetscope value: '" ++ x ++ "'") else None).
Proof.
  intros sh t low v. cbv zeta. unfold tod_error, dow_value_error, am_error, ssf_error, dns_error, one_value, scope_error.
  change (unexpectedBindConditionValueErr ?k 1 (List.length [v])) with (@None string). cbv iota. fold (value_of v).
  destruct (C126_compared (value_of v) (tod_string (ToD [TStr (value_of v)]))) as (A & _).
  destruct (C126_compared (value_of v) (ssf_string (SSF [SStr (value_of v)]))) as (_ & B & _).
  destruct (C126_compared (value_of v) (fqdn_string (DNS [value_of v]))) as (_ & _ & C & _).
  destruct (C126_compared (value_of v) (auth_string_in t low (auth_match_str t (value_of v)))) as (_ & _ & _ & D).
  rewrite A, B, C, D. repeat split.
  destruct (value_of v); reflexivity.
Qed.
Ltac fin := split; intros K; first [reflexivity|discriminate|now destruct K].
(* and these errors are there exactly when conversion refuses the values *)
Theorem C126_refusals : forall sh t low vals, shifty_ok sh ->
  (tod_error vals = None <-> assertBindTimeOfDay vals <> None) /\
  (dow_value_error sh vals = None <-> assertBindDayOfWeek sh vals <> None) /\
  (am_error t low vals = None <-> assertBindAuthenticationMethod t low vals <> None) /\
  (ssf_error vals = None <-> assertBindSSF vals <> None) /\
  (ip_error vals = None <-> assertBindIP vals <> None) /\
  (dns_error vals = None <-> assertBindDNS vals <> None) /\
  (scope_error vals = None <-> assertTargetScope vals <> None).
Proof.
  intros sh t low vals OK.
  destruct (Nat.eq_dec (List.length vals) 1) as [E|E].
  - destruct vals as [|v [|w vals]]; try discriminate E. clear E.
    destruct (C126_values sh t low v) as (A & B & C & D & F & G). cbv zeta in *.
    rewrite A, B, C, D, F, G. unfold assertBindTimeOfDay, assertBindDayOfWeek, assertBindAuthenticationMethod, assertBindSSF, assertBindDNS, assertTargetScope.
    cbv zeta. fold (value_of v).
    rewrite (String.eqb_sym (tod_string _)), (String.eqb_sym (ssf_string _)).
    repeat match goal with |- _ /\ _ => split end.
    + destruct (String.eqb _ _); fin.
    + destruct (C126_days sh OK (value_of v)) as [H _]. rewrite H. destruct (parseDoW sh (value_of v)); split; intros K; try congruence; [eexists; reflexivity|now destruct K].
    + destruct (eqfold _ _); fin.
    + destruct (String.eqb (value_of v) (ssf_string (SSF [SStr (value_of v)]))); fin.
    + unfold ip_error, one_value. change (unexpectedBindConditionValueErr ?k 1 (List.length [v])) with (@None string). cbv iota zeta. fold (value_of v).
      rewrite (proj2 (C126_counted 0%N _ _)). unfold assertBindIP. cbv zeta. fold (value_of v). destruct (Nat.eqb _ _); fin.
    + destruct (String.eqb (value_of v) (fqdn_string (DNS [value_of v]))); fin.
    + destruct (value_of v) as [|c x]; [fin|]. cbn [String.eqb String.length Nat.eqb].
      destruct (strToScope (String c x) =? noScope)%N; fin.
  - destruct (C126_number sh t low vals E) as (A & B & C & D & F & G & H). cbv zeta in *. rewrite A, B, C, D, F, G, H.
    destruct vals as [|v [|w vals]]; [|now destruct E|]; repeat split; (discriminate || (intros K; now destruct K)).
Qed.

(* ---- refused pushes ---- *)
(* With the cause a zero value is reported with, or no cause for the two others, the message
   names the candidate's type, the list's type, the keyword and the cause. *)
Theorem C126_push : forall receiver candidate key cause,
  pushErrorNotUnique receiver candidate key None =
    Some (push_report "Cannot push non-unique or ineligible " (f_type candidate) " into " (f_type receiver) (keyword_text key) "") /\
  pushErrorBadType receiver candidate key None =
    Some ("Push request of " ++ f_type candidate ++ " type violates " ++ f_type receiver ++ " [" ++ keyword_text key ++ "] PushPolicy") /\
  pushErrorNilOrZero receiver candidate key (Some cause) =
    Some (push_report "Cannot push zero-length or nil " (f_type candidate) " into " (f_type receiver) (keyword_text key) (": " ++ cause)).
Proof.
  intros receiver candidate key cause. split; [reflexivity|]. split; [reflexivity|].
  rewrite <- (app_nil_r' cause) at 2. reflexivity.
Qed.
(* A zero value that is refused without a cause (an AttributeType, an empty string among
   attribute filters, a target rule) and a target rule whose keyword is taken: the message
   ends in a complaint of package fmt. *)
Theorem C126_push_exact : forall receiver candidate key,
  pushErrorNilOrZero receiver candidate key None =
    Some (push_report "Cannot push zero-length or nil " (f_type candidate) " into " (f_type receiver) (keyword_text key) ": %!v(MISSING)").
Proof. reflexivity. Qed.
Theorem C126_push_refuted : ~ (forall receiver candidate key m, pushErrorNilOrZero receiver candidate key None = Some m ->
  mentions m complaint -> mentions (f_type receiver ++ f_type candidate ++ keyword_text key) complaint).
Proof.
  intros H.
  destruct (H (MkF "aci.TargetRules" "") (MkF "aci.TargetRule" "") (Some "target") _ (C126_push_exact _ _ _)) as (a & b & E).
  - exists "Cannot push zero-length or nil aci.TargetRule into aci.TargetRules [target]: ", "v(MISSING)". reflexivity.
  - assert (N : no_byte "%" (a ++ complaint ++ b) = true) by (rewrite <- E; reflexivity).
    rewrite !no_byte_app in N. apply andb_true_iff in N as [_ N]. discriminate N.
Qed.
(* The check of a day list without days speaks of the time of day. *)
Theorem C126_days_check : forall sh d,
  (dow_valid_error sh d = None <-> dow_valid sh d = true) /\
  (forall v, dow_valid sh (Some v) = false -> dow_valid_error sh (Some v) = Some "aci.TimeOfDay instance describes invalid timeofday").
Proof.
  intros sh d. split.
  - destruct d as [v|]; cbn [dow_valid dow_valid_error]; [|easy]. destruct (String.eqb _ _); cbn [negb]; split; easy.
  - intros v V. unfold dow_valid in V. unfold dow_valid_error. destruct (String.eqb _ _); [reflexivity|discriminate V].
Qed.
(* errorf: a message is given exactly for a format that is not empty, and a format without
   verbs is the message *)
Theorem C126_errorf : forall msg args,
  (errorf msg args = None <-> msg = "") /\ (msg <> "" -> no_byte "%" msg = true -> errorf msg [] = Some msg).
Proof.
  intros msg args. unfold errorf. split.
  - destruct msg; [easy|]. split; discriminate.
  - intros N P. destruct (String.length msg =? 0)%nat eqn:L; [apply Nat.eqb_eq in L; now destruct msg|]. f_equal. clear N L.
    induction msg as [|c s IH]; [reflexivity|]. unfold no_byte in P. cbn [all_bytes] in P. apply andb_true_iff in P as [C P].
    fold (no_byte "%" s) in P. specialize (IH P). destruct (Ascii.eqb_spec "%" c) as [<-|N]; [discriminate C|].
    cbn [sprintf]. destruct c as [[] [] [] [] [] [] [] []]; try (now rewrite IH). now destruct N.
Qed.
Print Assumptions C126_quoted.
Print Assumptions C126_compared.
Print Assumptions C126_counted.
Print Assumptions C126_attribute.
Print Assumptions C126_inheritance.
Print Assumptions C126_days.
Print Assumptions C126_number.
Print Assumptions C126_values.
Print Assumptions C126_refusals.
Print Assumptions C126_push.
Print Assumptions C126_push_exact.
Print Assumptions C126_push_refuted.
Print Assumptions C126_days_check.
Print Assumptions C126_errorf.
(* texts with a percent sign *)
Example C126_witness :
  atbtv_error "100%s" = Some "Invalid AttributeBindTyoeOrValue instance: must conform to '<at>#<bt_or_av>', got '100%s'" /\
  inh_error shifty_ref "parent[0,1]%" = Some (Some "Bad Inheritance value 'parent[0,1]%'; must conform to 'parent[0-9+].<at>#<bt_or_av>'") /\
  dow_error shifty_ref "Sun, Mo%n, x" = Some "aci.DayOfWeek instance describes invalid dayofweek: Mo%n" /\
  ssf_error ["300"] = Some "Unexpected security strength factor parsing result; want '300', got '256' (hint: valid range is 0-256)" /\
  tod_error ["1200"] = None /\ ip_error ["a"; "b"] = Some "Unexpected number of ip values; want 1, got 2".
Proof. repeat split. Qed.
