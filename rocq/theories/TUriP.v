(* C36, C55: what every accepted URI text prints. *)
From Coq Require Import String Ascii List PeanoNat NArith Bool Lia.
From Verif Require Import GoStr GoStrFacts MMisc MKw MSec MAttr MLevels MLists MFilter MUri SMisc SAttr SLists SFilter SUri PMisc PAttr PNet PLists PFilter PUri TUri.
Import ListNotations.
Open Scope string_scope.

(* without a DN the text is the marker of invalid URIs *)
Theorem C36_exact_no_dn : forall comps kws u, components_ok comps -> parseLDAPURI (uri_text comps) kws = Some u ->
  comp comps 0 = "" -> uri_string u = "<invalid_ldap_uri>".
Proof.
  intros comps kws u C P E. destruct (parse_shape comps kws u C P) as (D & _). unfold uri_string, uri_valid. rewrite D, E. reflexivity.
Qed.
Lemma comp_no_q comps i : components_ok comps -> ~ has_char "?" (comp comps i).
Proof.
  intros C. unfold comp. destruct (Nat.lt_ge_cases i (List.length comps)) as [L|L].
  - apply C. now apply nth_In.
  - rewrite nth_overflow by exact L. intros [].
Qed.
Lemma sdrop_no_q n s : ~ has_char "?" s -> ~ has_char "?" (sdrop n s).
Proof.
  revert s. induction n as [|n IH]; intros s H; [exact H|]. destruct s as [|c s]; [exact H|]. cbn [sdrop]. apply IH. intros X. apply H. now right.
Qed.
Lemma printed_no_q comps : components_ok comps -> ~ has_char "?" (dn_printed (comp comps 0)).
Proof. intros C. unfold dn_printed. destruct (has_prefix _ _); [apply sdrop_no_q|]; now apply comp_no_q. Qed.
Lemma scope_no_q s : ~ has_char "?" (scope_word s).
Proof.
  unfold scope_word. destruct (existsb _ ["one"; "onelevel"]); [cbn; intuition discriminate|].
  destruct (existsb _ _); cbn; intuition discriminate.
Qed.
Lemma uri_text_inj a b : components_ok a -> components_ok b -> uri_text a = uri_text b -> a = b.
Proof.
  intros [Na A] [Nb B] E. unfold uri_text in E.
  assert (J : join "?" a = join "?" b) by (apply (f_equal (sdrop 8)) in E; exact E).
  apply (f_equal (split1 "?")) in J. rewrite !split1_join in J; try assumption; intros x Hx; apply no_byte_chars; [now apply B|now apply A].
Qed.
Lemma panic_no_q : ~ has_char "?" fmt_panic.
Proof. unfold has_char. rewrite <- no_byte_chars. reflexivity. Qed.
Lemma attr_starts a : attr_name a -> has_prefix "%" a = false.
Proof.
  intros A. destruct a as [|c a]; [reflexivity|]. assert (N : no_byte "%" (String c a) = true) by (apply attr_name_no; [exact A|reflexivity|discriminate]).
  cbn [no_byte] in N. cbn [has_prefix]. destruct (Ascii.eqb_spec c "%") as [->|E]; [discriminate N|]. cbn.
  destruct (Ascii.eqb_spec "%" c) as [<-|]; [now destruct E|reflexivity].
Qed.
Lemma attr_no_q a : attr_name a -> ~ has_char "?" a.
Proof. intros A. apply no_byte_chars. apply attr_name_no; [exact A|reflexivity|discriminate]. Qed.

(* The text of a recovered panic is printed for exactly these accepted texts: a DN, an
   attribute name with "#" and nothing after it, no filter. *)
Theorem C55_exact_all : forall x kws u, parseLDAPURI x kws = Some u ->
  (exists d, ~ has_char "?" d /\ uri_string u = uri_text [d; fmt_panic]) <->
  exists comps a, components_ok comps /\ x = uri_text comps /\
    comp comps 0 <> "" /\ comp comps 3 = "" /\ attr_name a /\ comp comps 1 = a ++ "#".
Proof.
  intros x kws u P. split.
  - intros (d & Qd & E). destruct (parse_is_text x kws u P) as (comps & C & ->).
    assert (Cr : components_ok [d; fmt_panic]) by (split; [discriminate|]; intros c [<-|[<-|[]]]; [exact Qd|exact panic_no_q]).
    exists comps. destruct (String.string_dec (comp comps 0) "") as [E0|N0].
    { rewrite (C36_exact_no_dn comps kws u C P E0) in E. discriminate E. }
    destruct (String.string_dec (comp comps 3) "") as [E3|N3].
    + destruct (in_dec ascii_dec "#"%char (chars (comp comps 1))) as [I|I].
      * destruct (TUri.parse_shape comps kws u C P) as (_ & _ & _ & _ & [(_ & _ & a & v & E1 & A & _)|(I' & _)]); [|contradiction].
        exists a. split; [exact C|]. split; [reflexivity|]. split; [exact N0|]. split; [exact E3|]. split; [exact A|].
        rewrite (C36_exact_value comps kws u a v C P N0 E3 E1 A) in E.
        assert (Qv : ~ has_char "?" (comp comps 1)) by now apply comp_no_q.
        rewrite E1 in Qv. destruct (String.eqb_spec v "") as [Ev|Nv]; [rewrite Ev in E1; exact E1|].
        apply uri_text_inj in E; [|split; [discriminate|]|exact Cr].
        -- assert (X := f_equal (fun l => has_prefix "%" (nth 1 l "")) E). cbn [nth] in X. exfalso.
           assert (S : forall t, has_prefix "%" (a ++ "#" ++ t) = false).
           { intros t. assert (K := attr_starts a A). destruct a as [|c a]; [reflexivity|]. cbn in K |- *. destruct (Ascii.eqb "%" c); [discriminate|reflexivity]. }
           destruct (1 <=? matchBT v)%N; rewrite S in X; discriminate X.
        -- intros c [<-|[<-|[]]]; [now apply printed_no_q|]. destruct (N.leb_spec 1 (matchBT v)) as [L|L]; [|exact Qv].
           unfold has_char. rewrite !chars_app. intros H. apply in_app_iff in H as [H|H]; [now apply (attr_no_q a A)|].
           apply in_app_iff in H as [[H|[]]|H]; [discriminate|]. assert (M5 := matchBT_le v).
           assert (Z : (matchBT v = 1 \/ matchBT v = 2 \/ matchBT v = 3 \/ matchBT v = 4 \/ matchBT v = 5)%N) by lia.
           rewrite <- contains1 in H. destruct Z as [Z|[Z|[Z|[Z|Z]]]]; rewrite Z in H; discriminate H.
      * exfalso. rewrite (C36_exact_plain comps kws u C P N0 E3 I) in E. apply uri_text_inj in E; [discriminate E| |exact Cr].
        split; [discriminate|]. intros c [<-|[<-|[<-|[<-|[]]]]]; try (now intros []); [now apply printed_no_q|apply scope_no_q].
    + exfalso. destruct (C36_exact_filter comps kws u C P N0 N3) as (names & L & E'). rewrite E' in E.
      apply uri_text_inj in E; [discriminate E| |exact Cr].
      split; [discriminate|]. intros c [<-|[<-|[<-|[<-|[]]]]]; [now apply printed_no_q| |apply scope_no_q|now apply comp_no_q].
      apply names_no_q. destruct L as [[_ ->]|[[_ ->]|(_ & _ & L)]]; [intros ? []|intros ? []|].
      destruct L as (all & _ & _ & _ & K). exact (keeps_good _ _ _ K).
  - intros (comps & a & C & -> & N0 & E3 & A & E1). exists (dn_printed (comp comps 0)). split; [now apply printed_no_q|].
    now rewrite (C36_exact_value comps kws u a "" C P N0 E3 E1 A).
Qed.
Print Assumptions C36_exact_no_dn.
Print Assumptions C55_exact_all.
Example C55_witness :
  (exists u, parseLDAPURI "ldap:///dc=x?cn#?sub" [] = Some u /\ uri_string u = uri_text ["dc=x"; fmt_panic]) /\
  (exists u, parseLDAPURI "ldap:///dc=x?cn#?sub?(a=*)" [] = Some u /\ uri_string u = "ldap:///dc=x??sub?(a=*)") /\
  components_ok ["dc=x"; "cn#"; "sub"].
Proof.
  split; [|split].
  - eexists. split; [vm_compute; reflexivity|vm_compute; reflexivity].
  - eexists. split; [vm_compute; reflexivity|vm_compute; reflexivity].
  - split; [discriminate|]. intros c [<-|[<-|[<-|[]]]]; cbn; intuition discriminate.
Qed.
