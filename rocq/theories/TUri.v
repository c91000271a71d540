(* C35, C36, C52, C55: LDAP URIs. *)
From Coq Require Import String Ascii List PeanoNat NArith Bool Lia.
From Verif Require Import GoStr GoStrFacts MMisc MKw MSec MAttr MLevels MLists MFilter MUri SMisc SAttr SLists SFilter SUri PMisc PAttr PNet PLists PFilter PUri.
Import ListNotations.
Open Scope string_scope.

Definition printed_scope (n : N) : string := if (n =? SingleLevel)%N then "one" else if (n =? Subtree)%N then "sub" else "base".

Lemma dn_text_of d : uri_dn d -> UDN d = Some (MkDN BindUDN (Some d)).
Proof.
  intros (N & _ & S). unfold UDN, newDistinguishedName. rewrite (proj2 (len0f d) N), scheme_chop by exact S. reflexivity.
Qed.
Lemma names_no_q names : (forall x, In x names -> attr_name x) -> ~ has_char "?" (join "," names).
Proof.
  intros H. apply no_byte_chars. apply no_byte_join; [reflexivity|]. intros x Hx. apply attr_name_no; [now apply H|reflexivity|discriminate].
Qed.
Lemma names_no_hash names : (forall x, In x names -> attr_name x) -> ~ has_char "#" (join "," names).
Proof.
  intros H. apply no_byte_chars. apply no_byte_join; [reflexivity|]. intros x Hx. apply attr_name_no; [now apply H|reflexivity|discriminate].
Qed.
Lemma names_listed names : (forall x, In x names -> attr_name x) -> names <> [] -> listed (join "," names) names.
Proof.
  intros H N. exists names. split; [|split; [|split; [exact N|now apply keeps_all]]].
  - intros x Hx. apply no_byte_chars. apply attr_name_no; [now apply H|reflexivity|discriminate].
  - symmetry. apply remove_none, no_byte_join; [reflexivity|]. intros x Hx. apply attr_name_no; [now apply H|reflexivity|discriminate].
Qed.
Lemma names_join_nonempty names : (forall x, In x names -> attr_name x) -> names <> [] -> join "," names <> "".
Proof.
  intros H N. destruct names as [|x names]; [easy|]. assert (Nx := attr_name_nonempty x (H x (or_introl eq_refl))).
  destruct names; [exact Nx|]. rewrite join_cons. destruct x; [easy|discriminate].
Qed.
Lemma atb_any r names kws : (forall x, In x names -> attr_name x) ->
  uriAssertATB r (join "," names) kws = Some (MkURI (u_dn r) (u_scope r) (u_avbt r) (u_attrs r ++ map Some names)%list (u_filter r)).
Proof.
  intros H. destruct names as [|x names].
  - cbn [join map]. rewrite app_nil_r. now destruct r.
  - apply atb_names; [now apply names_no_hash|now apply names_join_nonempty|now apply names_listed].
Qed.

(* ---- C35 ---- *)
Theorem C35_rejected : forall x kws, ~ (exists r, x = "ldap:///" ++ r) -> parseLDAPURI x kws = None.
Proof.
  intros x kws H. unfold parseLDAPURI. destruct (has_prefix LocalScheme x) eqn:E; [|reflexivity]. apply has_prefix_spec in E. contradiction.
Qed.
(* exactly which texts are accepted *)
Theorem C35_accepted : forall comps kws, components_ok comps ->
  (exists u, parseLDAPURI (uri_text comps) kws = Some u) <->
  (has_char "#" (comp comps 1) -> exists a v, comp comps 1 = a ++ "#" ++ v /\ attr_name a).
Proof.
  intros comps kws C. rewrite parse_text by exact C. destruct C as [N C].
  destruct (components_four comps kws N) as (f & _ & ->). set (r := MkURI _ _ _ _ _). set (s := comp comps 1).
  destruct (in_dec ascii_dec "#"%char (chars s)) as [I|I].
  - split.
    + intros [u H] _. destruct (idx "#" s) as [n|] eqn:E; [|apply idx_none, no_byte_chars in E; contradiction].
      destruct (idx_split "#" s n E) as (a & v & Es & Na & _). exists a, v. split; [exact Es|].
      destruct (AT_iff a) as [[_ A]|[_ A]]; [exact A|]. rewrite atb_bad in H; [discriminate|exact I|].
      intros a' v' E' A'. assert (a = a'); [|congruence]. cbn [append] in E'. rewrite E' in Es. 
      assert (N' := attr_name_no_hash a' A'). apply (f_equal (idx "#")) in Es as L. rewrite !idx_app in L by assumption. injection L as L.
      now apply app_inj_len in Es as [-> _].
    + intros H. destruct (H I) as (a & v & -> & A). rewrite atb_pair by exact A. eauto.
  - split; [intros _ X; contradiction|]. intros _. destruct (String.string_dec s "") as [->|Ne]; [cbn; eauto|].
    destruct (listed_ex s) as [names L]. rewrite (atb_names r s names kws I Ne L). eauto.
Qed.
(* a URI with attributes, scope and filter *)
Theorem C35_search_form : forall d names n f kws,
  uri_dn d -> (forall x, In x names -> attr_name x) -> In n [BaseObject; SingleLevel; Subtree] ->
  f <> "" -> ~ has_char "?" f ->
  let u := URI [UDn (UDN d); UAttrs (map AT names); UScope n; UFilter (Filter [f])] in
  uri_string u = "ldap:///" ++ d ++ "?" ++ join "," names ++ "?" ++ printed_scope n ++ "?" ++ f /\
  parseLDAPURI (uri_string u) kws = Some u.
Proof.
  intros d names n f kws D A S F Q. cbn zeta.
  assert (E : URI [UDn (UDN d); UAttrs (map AT names); UScope n; UFilter (Filter [f])] = MkURI (Some (MkDN BindUDN (Some d))) n abtv_zero (map Some names) (Some f)).
  { unfold URI. cbn [uri_set]. cbn [uri_new u_dn u_scope u_avbt u_attrs u_filter]. rewrite (dn_text_of d D), filter_some by exact F.
    replace (map AT names) with (map (@Some string) names) by (apply map_ext_in; intros x Hx; symmetry; apply AT_name, A, Hx).
    rewrite transfer_names; [reflexivity|]. intros x Hx. now apply attr_name_nonempty, A. }
  rewrite E.
  assert (T : uri_string (MkURI (Some (MkDN BindUDN (Some d))) n abtv_zero (map Some names) (Some f)) =
    "ldap:///" ++ d ++ "?" ++ join "," names ++ "?" ++ printed_scope n ++ "?" ++ f).
  { unfold uri_string, uri_valid. cbn [u_dn dn_isZero negb u_filter sf_isZero]. rewrite (proj2 (len0f f) F). cbn [negb u_attrs u_scope sf_string dn_string].
    rewrite map_map, map_id. unfold LocalScheme. rewrite app_assoc'. reflexivity. }
  split; [exact T|]. rewrite T.
  assert (P : "ldap:///" ++ d ++ "?" ++ join "," names ++ "?" ++ printed_scope n ++ "?" ++ f = uri_text [d; join "," names; printed_scope n; f]) by reflexivity.
  rewrite P, parse_text.
  - cbn [uri_components uri_component]. cbn [uri_new u_scope u_avbt u_attrs u_filter]. rewrite atb_any by exact A.
    cbn [u_dn u_scope u_avbt u_attrs u_filter app]. rewrite (dn_text_of d D), filter_some by exact F.
    destruct S as [<-|[<-|[<-|[]]]]; reflexivity.
  - split; [discriminate|]. intros c [<-|[<-|[<-|[<-|[]]]]]; [apply D|now apply names_no_q| |exact Q].
    unfold has_char. rewrite <- contains1. destruct S as [<-|[<-|[<-|[]]]]; discriminate.
Qed.
(* a URI with an attribute and a value or bind type *)
Theorem C35_attr_value_form : forall d a w,
  uri_dn d -> attr_name a -> what_ok w -> ~ has_char "?" (what_text w) ->
  let u := URI [UDn (UDN d); UAvbt (UAT [BStr a; BStr (what_text w)])] in
  uri_string u = "ldap:///" ++ d ++ "?" ++ a ++ "#" ++ what_text w /\ parseLDAPURI (uri_string u) [] = Some u.
Proof.
  intros d a w D A W Q. cbn zeta.
  assert (E : URI [UDn (UDN d); UAvbt (UAT [BStr a; BStr (what_text w)])] =
    MkURI (Some (MkDN BindUDN (Some d))) noScope (MkABTV BindUAT (Some (pair_of a w))) [] None).
  { unfold URI. cbn [uri_set]. cbn [uri_new u_dn u_scope u_avbt u_attrs u_filter]. rewrite (dn_text_of d D). do 2 f_equal.
    unfold UAT, userOrGroupAttr, pair_set, pair_nil. cbn [fold_left pair_set1]. rewrite (AT_name a A). do 2 f_equal.
    assert (R := what_read w W). destruct (matchBT (what_text w) =? 0)%N; cbn [negb] in R; rewrite R; reflexivity. }
  rewrite E.
  assert (T : uri_string (MkURI (Some (MkDN BindUDN (Some d))) noScope (MkABTV BindUAT (Some (pair_of a w))) [] None) =
    "ldap:///" ++ d ++ "?" ++ a ++ "#" ++ what_text w).
  { unfold uri_string, uri_valid, avbt_s. cbn [u_dn dn_isZero negb u_filter sf_isZero u_avbt abtv_isZero ab_pair ab_kw dn_string abtv_string].
    rewrite pair_text by exact W. cbn [N.eqb BindUAT negb]. unfold LocalScheme. now rewrite app_assoc'. }
  split; [exact T|]. rewrite T.
  assert (P : "ldap:///" ++ d ++ "?" ++ a ++ "#" ++ what_text w = uri_text [d; a ++ "#" ++ what_text w]) by reflexivity.
  rewrite P, parse_text.
  - cbn [uri_components uri_component]. rewrite atb_pair by exact A. cbn [uri_new u_dn u_scope u_avbt u_attrs u_filter].
    rewrite what_read by exact W. now rewrite (dn_text_of d D).
  - split; [discriminate|]. intros c [<-|[<-|[]]]; [apply D|]. unfold has_char. rewrite !chars_app. intros H.
    apply in_app_iff in H as [H|H]; [|apply in_app_iff in H as [[H|[]]|H]; [discriminate|contradiction]].
    assert (X : no_byte "?" a = true) by (apply attr_name_no; [exact A|reflexivity|discriminate]). apply no_byte_chars in X. contradiction.
Qed.
(* a URI with a DN and a scope only *)
Theorem C35_plain_form : forall d n kws, uri_dn d -> In n [BaseObject; SingleLevel; Subtree] ->
  let u := URI [UDn (UDN d); UScope n] in
  uri_string u = "ldap:///" ++ d ++ "??" ++ printed_scope n ++ "?" /\
  exists u', parseLDAPURI (uri_string u) kws = Some u' /\ uri_string u' = uri_string u /\
    u_dn u' = UDN d /\ u_scope u' = n /\ u_attrs u' = [] /\ abtv_isZero (u_avbt u') = true /\ sf_isZero (u_filter u') = true.
Proof.
  intros d n kws D S. cbn zeta. unfold URI. cbn [uri_set]. cbn [uri_new u_dn u_scope u_avbt u_attrs u_filter]. rewrite (dn_text_of d D).
  assert (T : uri_string (MkURI (Some (MkDN BindUDN (Some d))) n abtv_zero [] None) = uri_text [d; ""; printed_scope n; ""]).
  { unfold uri_string, uri_valid, uri_text. cbn [u_dn dn_isZero negb u_filter sf_isZero u_avbt abtv_isZero abtv_zero ab_pair dn_string u_scope].
    unfold LocalScheme. cbn [join]. now rewrite !app_assoc'. }
  split; [rewrite T; unfold uri_text; cbn [join]; reflexivity|]. rewrite T, parse_text.
  - cbn [uri_components uri_component]. cbn [uriAssertATB String.length Nat.eqb]. cbn [uri_new u_dn u_scope u_avbt u_attrs u_filter].
    rewrite (dn_text_of d D). eexists. split; [reflexivity|]. 
    destruct S as [<-|[<-|[<-|[]]]]; (split; [|repeat split; reflexivity]);
    unfold uri_string, uri_valid, uri_text; cbn; now rewrite !app_assoc'.
  - split; [discriminate|]. intros c [<-|[<-|[<-|[<-|[]]]]]; try (now intros []); [apply D|].
    unfold has_char. rewrite <- contains1. destruct S as [<-|[<-|[<-|[]]]]; discriminate.
Qed.

(* ---- C36 ---- *)
(* What an accepted URI prints, from its components (the DN component not empty). *)
Definition dn_printed (c : string) : string := if has_prefix "ldap:///" c then sdrop 8 c else c.
Lemma dn_printed_id d : uri_dn d -> dn_printed d = d.
Proof.
  intros (_ & _ & S). unfold dn_printed. destruct (has_prefix "ldap:///" d) eqn:E; [|reflexivity]. apply has_prefix_spec in E. contradiction.
Qed.
Lemma parse_shape comps kws u : components_ok comps -> parseLDAPURI (uri_text comps) kws = Some u ->
  u_dn u = UDN (comp comps 0) /\ scope_standard (u_scope u) = scope_word (comp comps 2) /\
  sf_isZero (u_filter u) = String.eqb (comp comps 3) "" /\ (comp comps 3 <> "" -> u_filter u = Some (comp comps 3)) /\
  ((has_char "#" (comp comps 1) /\ u_attrs u = [] /\ exists a v, comp comps 1 = a ++ "#" ++ v /\ attr_name a /\
     u_avbt u = MkABTV (atb_kw kws) (Some (Some (Some a), if negb (matchBT v =? 0)%N then SBT (matchBT v) else SAV (AV v)))) \/
   (~ has_char "#" (comp comps 1) /\ u_avbt u = abtv_zero /\ exists names, (comp comps 1 = "" /\ names = [] \/ comp comps 1 <> "" /\ listed (comp comps 1) names) /\
     (forall x, In x names -> attr_name x) /\ u_attrs u = map Some names)).
Proof.
  intros C P. assert (AC := proj1 (C35_accepted comps kws C) (ex_intro _ u P)). rewrite parse_text in P by exact C. destruct C as [N C].
  destruct (components_four comps kws N) as (f & Hf & E). rewrite E in P. clear E. set (r := MkURI _ _ _ _ _) in P. set (s := comp comps 1) in *.
  assert (FF : sf_isZero f = String.eqb (comp comps 3) "" /\ (comp comps 3 <> "" -> f = Some (comp comps 3))).
  { destruct Hf as [[-> L]|Hf].
    - unfold comp. rewrite nth_overflow by exact L. split; [reflexivity|easy].
    - rewrite Hf. unfold Filter, sf_set. destruct (comp comps 3) as [|c t]; [split; [reflexivity|easy]|]. split; [reflexivity|reflexivity]. }
  destruct (in_dec ascii_dec "#"%char (chars s)) as [I|I].
  - destruct (AC I) as (a & v & Es & A). rewrite Es, atb_pair in P by exact A. injection P as <-. cbn [u_dn u_scope u_avbt u_attrs u_filter r].
    split; [reflexivity|]. split; [apply scope_word_spec|]. split; [apply FF|]. split; [apply FF|]. left. split; [exact I|]. split; [reflexivity|].
    exists a, v. split; [exact Es|]. split; [exact A|reflexivity].
  - assert (X : exists names, (s = "" /\ names = [] \/ s <> "" /\ listed s names) /\ (forall x, In x names -> attr_name x) /\
        uriAssertATB r s kws = Some (MkURI (u_dn r) (u_scope r) (u_avbt r) (map Some names) (u_filter r))).
    { destruct (String.string_dec s "") as [E|Ne].
      - exists []. split; [now left|]. split; [easy|]. now rewrite E.
      - destruct (listed_ex s) as [names L]. exists names. split; [now right|]. split.
        + destruct L as (all & _ & _ & _ & K). exact (keeps_good _ _ _ K).
        + apply (atb_names r s names kws I Ne L). }
    destruct X as (names & X1 & X2 & X3). rewrite X3 in P. injection P as <-. cbn [u_dn u_scope u_avbt u_attrs u_filter r].
    split; [reflexivity|]. split; [apply scope_word_spec|]. split; [apply FF|]. split; [apply FF|]. right. split; [exact I|]. split; [reflexivity|].
    now exists names.
Qed.
Lemma udn_string c : c <> "" -> dn_isZero (UDN c) = false /\ dn_string badBDN (UDN c) = "ldap:///" ++ dn_printed c.
Proof.
  intros N. unfold UDN, newDistinguishedName. rewrite (proj2 (len0f c) N). split; [reflexivity|]. reflexivity.
Qed.
(* with a filter: attribute names, scope word and filter are printed *)
Theorem C36_exact_filter : forall comps kws u, components_ok comps -> parseLDAPURI (uri_text comps) kws = Some u ->
  comp comps 0 <> "" -> comp comps 3 <> "" ->
  exists names,
    (has_char "#" (comp comps 1) /\ names = [] \/ comp comps 1 = "" /\ names = [] \/
     ~ has_char "#" (comp comps 1) /\ comp comps 1 <> "" /\ listed (comp comps 1) names) /\
    uri_string u = uri_text [dn_printed (comp comps 0); join "," names; scope_word (comp comps 2); comp comps 3].
Proof.
  intros comps kws u C P N0 N3. destruct (parse_shape comps kws u C P) as (D & S & _ & F & B). destruct (udn_string _ N0) as [Z T].
  assert (Q : forall names, u_attrs u = map Some names ->
    uri_string u = uri_text [dn_printed (comp comps 0); join "," names; scope_word (comp comps 2); comp comps 3]).
  { intros names E. unfold uri_string, uri_valid. rewrite D, Z, T, (F N3), E, S. cbn [negb sf_isZero sf_string]. rewrite (proj2 (len0f _) N3). cbn [negb].
    rewrite map_map, map_id. unfold uri_text. cbn [join]. now rewrite !app_assoc'. }
  destruct B as [(I & A & _)|(I & _ & names & L & _ & A)].
  - exists []. split; [left; now split|]. now apply Q.
  - exists names. split; [|now apply Q]. right. destruct L as [[L ->]|[Ne L]]; [left|right]; now repeat split.
Qed.
(* without one: the attribute and value if there is one, ... *)
Theorem C36_exact_value : forall comps kws u a v, components_ok comps -> parseLDAPURI (uri_text comps) kws = Some u ->
  comp comps 0 <> "" -> comp comps 3 = "" -> comp comps 1 = a ++ "#" ++ v -> attr_name a ->
  uri_string u = uri_text [dn_printed (comp comps 0);
    if (1 <=? matchBT v)%N then a ++ "#" ++ bt_string (matchBT v) else if String.eqb v "" then fmt_panic else a ++ "#" ++ v].
Proof.
  intros comps kws u a v C P N0 N3 E1 A. destruct (parse_shape comps kws u C P) as (D & S & F0 & _ & B). destruct (udn_string _ N0) as [Z T].
  assert (I : has_char "#" (comp comps 1)) by (rewrite E1; unfold has_char; rewrite !chars_app; apply in_app_iff; right; now left).
  destruct B as [(_ & _ & a' & v' & E' & A' & Hu)|(I' & _)]; [|contradiction].
  assert (X : a = a' /\ v = v').
  { rewrite E' in E1. cbn [append] in E1. assert (N1 := attr_name_no_hash a A). assert (N2 := attr_name_no_hash a' A').
    apply (f_equal (idx "#")) in E1 as L. rewrite !idx_app in L by assumption. injection L as L.
    apply app_inj_len in E1 as [-> E1]; [|exact L]. now injection E1 as ->. }
  destruct X as [<- <-]. unfold uri_string, uri_valid. rewrite D, Z, T, F0, N3, String.eqb_refl, Hu. cbn [negb].
  replace (abtv_isZero _) with false.
  2: { unfold abtv_isZero, atb_kw. cbn [ab_pair ab_kw]. destruct kws as [|k kws]; [reflexivity|]. now destruct (k =? BindGAT)%N. }
  cbn [negb]. unfold uri_text, avbt_s, abtv_string. cbn [join ab_pair]. rewrite !app_assoc'. do 3 f_equal.
  destruct (N.eqb_spec (matchBT v) 0) as [M|M]; cbn [negb pair_string].
  - rewrite M. cbn [N.leb N.compare]. unfold AV. destruct v as [|c v]; reflexivity.
  - replace (1 <=? matchBT v)%N with true by (symmetry; apply N.leb_le; lia). destruct (N.eqb_spec (matchBT v) 0); [easy|]. reflexivity.
Qed.
(* ... and otherwise the scope word only *)
Theorem C36_exact_plain : forall comps kws u, components_ok comps -> parseLDAPURI (uri_text comps) kws = Some u ->
  comp comps 0 <> "" -> comp comps 3 = "" -> ~ has_char "#" (comp comps 1) ->
  uri_string u = uri_text [dn_printed (comp comps 0); ""; scope_word (comp comps 2); ""].
Proof.
  intros comps kws u C P N0 N3 I. destruct (parse_shape comps kws u C P) as (D & S & F0 & _ & B). destruct (udn_string _ N0) as [Z T].
  destruct B as [(I' & _)|(_ & Hu & _)]; [contradiction|].
  unfold uri_string, uri_valid. rewrite D, Z, T, F0, N3, String.eqb_refl, Hu, S. cbn [negb abtv_isZero abtv_zero ab_pair].
  unfold uri_text. cbn [join]. now rewrite !app_assoc'.
Qed.
(* False in general: attributes without a filter are lost, an unknown scope becomes
   base, components after the fourth are lost. *)
Theorem C36_kept_refuted :
  ~ (forall x u, parseLDAPURI x [] = Some u -> uri_string u = x) /\
  ~ (forall d names s u, (forall x, In x names -> attr_name x) -> In s ["base"; "one"; "sub"] ->
       parseLDAPURI (uri_text [d; join "," names; s; ""]) [] = Some u -> uri_string u = uri_text [d; join "," names; s; ""]) /\
  ~ (forall d s f u, uri_dn d -> f <> "" -> parseLDAPURI (uri_text [d; ""; s; f]) [] = Some u -> uri_string u = uri_text [d; ""; s; f]).
Proof.
  split; [|split].
  - intros H. specialize (H "ldap:///dc=x?cn?sub" _ eq_refl). discriminate.
  - intros H. specialize (H "dc=x" ["cn"; "sn"] "sub"). specialize (H (MkURI (UDN "dc=x") Subtree abtv_zero [Some "cn"; Some "sn"] (Some ""))).
    assert (A : forall x, In x ["cn"; "sn"] -> attr_name x) by (intros x [<-|[<-|[]]]; left; apply identifier_iff; reflexivity).
    specialize (H A ltac:(cbn; tauto) eq_refl). vm_compute in H. discriminate.
  - intros H. specialize (H "dc=x" "tree" "(a=b)" (MkURI (UDN "dc=x") noScope abtv_zero [] (Some "(a=b)"))).
    assert (D : uri_dn "dc=x").
    { split; [discriminate|]. split; [unfold has_char; rewrite <- contains1; discriminate|]. intros [r E]. discriminate. }
    specialize (H D ltac:(discriminate) eq_refl). vm_compute in H. discriminate.
Qed.
(* What is kept: names, scope and filter of a URI that has a filter, attribute
   names only, and one of the three scope words. *)
Theorem C36_kept_partial : forall d names s f kws,
  uri_dn d -> (forall x, In x names -> attr_name x) -> In s ["base"; "one"; "sub"] -> f <> "" -> ~ has_char "?" f ->
  exists u, parseLDAPURI (uri_text [d; join "," names; s; f]) kws = Some u /\
    u_attrs u = map Some names /\ uri_string u = uri_text [d; join "," names; s; f].
Proof.
  intros d names s f kws D A S F Q.
  assert (S' : exists n, In n [BaseObject; SingleLevel; Subtree] /\ s = printed_scope n).
  { destruct S as [<-|[<-|[<-|[]]]]; [exists BaseObject|exists SingleLevel|exists Subtree]; cbn; tauto. }
  destruct S' as (n & Hn & ->). destruct (C35_search_form d names n f kws D A Hn F Q) as [E P]. cbn zeta in *.
  replace (uri_text [d; join "," names; printed_scope n; f]) with ("ldap:///" ++ d ++ "?" ++ join "," names ++ "?" ++ printed_scope n ++ "?" ++ f) by reflexivity.
  rewrite E in P. eexists. split; [exact P|]. split; [|exact E].
  unfold URI. cbn [uri_set u_attrs uri_new]. replace (map AT names) with (map (@Some string) names) by (apply map_ext_in; intros x Hx; symmetry; apply AT_name, A, Hx).
  rewrite transfer_names; [reflexivity|]. intros x Hx. now apply attr_name_nonempty, A.
Qed.
(* Parsing what was printed gives the same text again. *)
Theorem C35_stable : forall comps kws u, components_ok comps -> uri_dn (comp comps 0) ->
  parseLDAPURI (uri_text comps) kws = Some u ->
  (forall a v, comp comps 1 = a ++ "#" ++ v -> attr_name a -> v <> "") ->
  exists u', parseLDAPURI (uri_string u) kws = Some u' /\ uri_string u' = uri_string u.
Proof.
  intros comps kws u C D P V. assert (N0 : comp comps 0 <> "") by apply D.
  assert (CQ : forall i, ~ has_char "?" (comp comps i)).
  { intros i. unfold comp. destruct (Nat.lt_ge_cases i (List.length comps)) as [L|L].
    - apply C. now apply nth_In.
    - rewrite nth_overflow by exact L. intros []. }
  assert (SW : forall s, In (scope_word s) ["base"; "one"; "sub"]).
  { intros s. unfold scope_word. destruct (existsb _ ["one"; "onelevel"]); [cbn; tauto|]. destruct (existsb _ _); cbn; tauto. }
  destruct (String.string_dec (comp comps 3) "") as [E3|N3].
  - destruct (in_dec ascii_dec "#"%char (chars (comp comps 1))) as [I|I].
    + destruct (parse_shape comps kws u C P) as (_ & _ & _ & _ & [(_ & _ & a & v & E1 & A & _)|(I' & _)]); [|contradiction].
      rewrite (C36_exact_value comps kws u a v C P N0 E3 E1 A), dn_printed_id by exact D.
      assert (Nv := V a v E1 A). destruct (String.eqb_spec v "") as [|_]; [contradiction|].
      assert (W : exists w, what_ok w /\ (if (1 <=? matchBT v)%N then a ++ "#" ++ bt_string (matchBT v) else a ++ "#" ++ v) = a ++ "#" ++ what_text w /\
                 ~ has_char "?" (what_text w)).
      { assert (M5 : (matchBT v <= 5)%N) by apply matchBT_le. destruct (N.leb_spec 1 (matchBT v)) as [L|L].
        - exists (WType (matchBT v)). split; [cbn; lia|]. split; [reflexivity|]. cbn [what_text].
          assert (E : (matchBT v = 1 \/ matchBT v = 2 \/ matchBT v = 3 \/ matchBT v = 4 \/ matchBT v = 5)%N) by lia.
          unfold has_char. rewrite <- contains1. destruct E as [->|[->|[->|[->| ->]]]]; discriminate.
        - exists (WValue v). split; [cbn; split; [exact Nv|lia]|]. split; [reflexivity|]. cbn [what_text]. intros Hq. apply (CQ 1%nat).
          rewrite E1. unfold has_char. rewrite !chars_app. apply in_app_iff. right. now right. }
      destruct W as (w & W & -> & Q). set (t := uri_text [comp comps 0; a ++ "#" ++ what_text w]).
      assert (Cc : components_ok [comp comps 0; a ++ "#" ++ what_text w]).
      { split; [discriminate|]. intros c [<-|[<-|[]]]; [apply D|]. unfold has_char. rewrite !chars_app. intros H.
        apply in_app_iff in H as [H|H]; [|apply in_app_iff in H as [[H|[]]|H]; [discriminate|contradiction]].
        assert (X : no_byte "?" a = true) by (apply attr_name_no; [exact A|reflexivity|discriminate]). apply no_byte_chars in X. contradiction. }
      destruct (proj2 (C35_accepted [comp comps 0; a ++ "#" ++ what_text w] kws Cc)) as [u' P']; [intros _; now exists a, (what_text w)|].
      exists u'. split; [exact P'|]. rewrite (C36_exact_value _ kws u' a (what_text w) Cc P' N0 eq_refl eq_refl A).
      unfold t. cbn [comp nth]. rewrite dn_printed_id by exact D. do 3 f_equal.
      destruct w as [n|x]; cbn [what_text what_ok] in *.
      * assert (E : matchBT (bt_string n) = n).
        { assert (E : (n = 1 \/ n = 2 \/ n = 3 \/ n = 4 \/ n = 5)%N) by lia. destruct E as [->|[->|[->|[->| ->]]]]; reflexivity. }
        rewrite E. replace (1 <=? n)%N with true by (symmetry; apply N.leb_le; lia). reflexivity.
      * destruct W as [Nx ->]. cbn [N.leb N.compare]. now destruct (String.eqb_spec x "").
    + rewrite (C36_exact_plain comps kws u C P N0 E3 I), dn_printed_id by exact D.
      assert (Cc : components_ok [comp comps 0; ""; scope_word (comp comps 2); ""]).
      { split; [discriminate|]. intros c [<-|[<-|[<-|[<-|[]]]]]; try (now intros []); [apply D|].
        unfold has_char. rewrite <- contains1. destruct (SW (comp comps 2)) as [<-|[<-|[<-|[]]]]; discriminate. }
      destruct (proj2 (C35_accepted _ kws Cc)) as [u' P']; [intros []|]. exists u'. split; [exact P'|].
      rewrite (C36_exact_plain _ kws u' Cc P' N0 eq_refl) by (intros []). cbn [comp nth]. rewrite dn_printed_id by exact D. do 4 f_equal.
      destruct (SW (comp comps 2)) as [<-|[<-|[<-|[]]]]; reflexivity.
  - destruct (C36_exact_filter comps kws u C P N0 N3) as (names & L & T). rewrite T, dn_printed_id by exact D.
    assert (A : forall x, In x names -> attr_name x).
    { destruct L as [[_ ->]|[[_ ->]|(_ & _ & (all & _ & _ & _ & K))]]; [easy|easy|]. exact (keeps_good _ _ _ K). }
    destruct (C36_kept_partial (comp comps 0) names (scope_word (comp comps 2)) (comp comps 3) kws D A (SW _) N3 (CQ 3%nat)) as (u' & P' & _ & T').
    now exists u'.
Qed.
Print Assumptions C35_rejected.
Print Assumptions C35_accepted.
Print Assumptions C35_search_form.
Print Assumptions C35_attr_value_form.
Print Assumptions C35_plain_form.
Print Assumptions C35_stable.
Print Assumptions C36_exact_filter.
Print Assumptions C36_exact_value.
Print Assumptions C36_exact_plain.
Print Assumptions C36_kept_refuted.
Print Assumptions C36_kept_partial.
Example C35_witness :
  uri_dn "ou=People,dc=example,dc=com" /\
  uri_string (URI [UDn (UDN "ou=People,dc=example,dc=com"); UAttrs [AT "cn"; AT "sn"]; UScope SingleLevel; UFilter (Filter ["(&(a=b)(c=d))"])])
    = "ldap:///ou=People,dc=example,dc=com?cn,sn?one?(&(a=b)(c=d))" /\
  option_map uri_string (parseLDAPURI "ldap:///dc=x?manager#selfdn" []) = Some "ldap:///dc=x?manager#SELFDN" /\
  option_map uri_string (parseLDAPURI "ldap:///dc=x? cn , 9 ,sn?SUBTREE?(a=b)?more" []) = Some "ldap:///dc=x?cn,sn?sub?(a=b)" /\
  option_map uri_string (parseLDAPURI "ldap:///dc=x?cn,sn?sub" []) = Some "ldap:///dc=x??sub?" /\
  parseLDAPURI "ldap:///dc=x?#SELFDN" [] = None.
Proof.
  split; [|repeat split; reflexivity].
  split; [discriminate|]. split; [unfold has_char; rewrite <- contains1; discriminate|]. intros [r E]. discriminate.
Qed.

(* ---- C55 ---- *)
(* False: a URI whose attribute is followed by # and nothing is accepted and prints
   the text of the panic that formatting it causes. *)
Theorem C55_printable_refuted :
  ~ (forall x kws u, parseLDAPURI x kws = Some u -> ~ occurs "PANIC" (uri_string u)).
Proof.
  intros H. specialize (H "ldap:///dc=x?cn#" [] _ eq_refl). rewrite <- scontains_occurs in H. apply H. reflexivity.
Qed.
Theorem C55_exact : forall d a kws u, uri_dn d -> attr_name a -> parseLDAPURI (uri_text [d; a ++ "#"]) kws = Some u ->
  uri_string u = uri_text [d; fmt_panic].
Proof.
  intros d a kws u D A P. assert (C : components_ok [d; a ++ "#"]).
  { split; [discriminate|]. intros c [<-|[<-|[]]]; [apply D|]. unfold has_char. rewrite chars_app. intros H.
    apply in_app_iff in H as [H|[H|[]]]; [|discriminate].
    assert (X : no_byte "?" a = true) by (apply attr_name_no; [exact A|reflexivity|discriminate]). apply no_byte_chars in X. contradiction. }
  assert (N : d <> "") by apply D.
  rewrite (C36_exact_value _ kws u a "" C P N eq_refl eq_refl A). cbn [comp nth]. now rewrite dn_printed_id.
Qed.
Print Assumptions C55_printable_refuted.
Print Assumptions C55_exact.

(* ---- C52 ---- *)
(* False: a URI with a groupattr pair reports groupattr, and one whose DN is a role
   DN reports roledn, but the rules made from them are userdn rules. *)
Theorem C52_keyword_refuted :
  ~ (forall u k, uri_keyword u = Some k -> uri_rule_keyword u = Some k) /\
  uri_keyword (URI [UDn (RDN "dc=x"); UScope Subtree]) = Some BindRDN /\
  uri_rule_keyword (URI [UDn (RDN "dc=x"); UScope Subtree]) = Some BindUDN /\
  uri_keyword (URI [UDn (UDN "dc=x"); UAvbt (GAT [BStr "owner"; BStr "GROUPDN"])]) = Some BindGAT /\
  uri_rule_keyword (URI [UDn (UDN "dc=x"); UAvbt (GAT [BStr "owner"; BStr "GROUPDN"])]) = Some BindUDN.
Proof.
  split; [|repeat split; reflexivity]. intros H.
  specialize (H (URI [UDn (RDN "dc=x"); UScope Subtree]) BindRDN eq_refl). discriminate.
Qed.
(* The rule's keyword, exactly *)
Theorem C52_exact : forall d t u, u_dn u = Some (MkDN d (Some t)) ->
  uri_rule_keyword u = Some (
    if (negb (abtv_isZero (u_avbt u)) && (ab_kw (u_avbt u) =? BindUAT)%N)%bool then BindUAT
    else if (d =? BindGDN)%N then BindGDN else BindUDN).
Proof.
  intros d t u D. unfold uri_rule_keyword, uri_valid. rewrite D. cbn [dn_isZero negb dn_kw].
  now destruct (abtv_isZero (u_avbt u)), (ab_kw (u_avbt u) =? BindUAT)%N.
Qed.
(* so it is the reported one for userdn and groupdn URIs, and for userattr pairs *)
Theorem C52_same_partial : forall d t n a l f, In d [BindUDN; BindGDN] ->
  (ab_pair a = None \/ (ab_kw a = BindUAT /\ exists x w, ab_pair a = Some (pair_of x w))) ->
  let u := MkURI (Some (MkDN d (Some t))) n a l f in
  exists k, uri_keyword u = Some k /\ uri_rule_keyword u = Some k /\ k = match ab_pair a with None => d | Some _ => BindUAT end.
Proof.
  intros d t n a l f D [E|[K (x & w & E)]]; cbn zeta; unfold uri_keyword, uri_rule_keyword, uri_valid; cbn [u_dn u_avbt dn_isZero negb dn_kw].
  - rewrite E. cbn [pair_isZero negb]. unfold abtv_isZero. rewrite E. cbn [negb]. exists d. destruct D as [<-|[<-|[]]]; repeat split.
  - rewrite E, K. cbn [pair_isZero pair_of negb]. unfold abtv_isZero. rewrite E, K. exists BindUAT. now repeat split.
Qed.
Print Assumptions C52_keyword_refuted.
Print Assumptions C52_exact.
Print Assumptions C52_same_partial.
Example C52_witness :
  uri_keyword (URI [UDn (GDN "dc=x"); UScope Subtree]) = Some BindGDN /\
  uri_rule_keyword (URI [UDn (GDN "dc=x"); UScope Subtree]) = Some BindGDN.
Proof. split; reflexivity. Qed.
