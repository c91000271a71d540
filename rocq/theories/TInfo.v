(* C89-C94: Compare and Hash, keywords, F, validity, object identifier constructors. *)
From Coq Require Import String Ascii List PeanoNat NArith ZArith Bool Lia.
From Verif Require Import GoStr GoStrFacts Shifty MMisc MLists MAttr MLevels MSec MTime MNet MFilter MUri MRule MKw MRights
  MConv MTree MAci MMeth MInfo SMisc TMisc SLists PLists SRights PRights TRights STime TTime SKw PKw SAci PAci TAci TLists TNet TMore SInfo.
Import ListNotations.
Open Scope string_scope.

(* ---- C90: the digits ---- *)
Definition hexdigits : list ascii := list_ascii_of_string "0123456789ABCDEF".
Lemma uc_cons c s : uc (String c s) = String (upper_byte c) (uc s).
Proof. reflexivity. Qed.
Lemma digit_cases n : (n < 16)%N -> In n [0;1;2;3;4;5;6;7;8;9;10;11;12;13;14;15]%N.
Proof. intros H. cbn [In]. lia. Qed.
Lemma digit_in n : (n < 16)%N -> In (upper_byte (hex_digit n)) hexdigits.
Proof.
  intros H. apply digit_cases in H. repeat destruct H as [<-|H]; try destruct H; vm_compute; tauto.
Qed.
Lemma digit_inj n m : (n < 16)%N -> (m < 16)%N -> upper_byte (hex_digit n) = upper_byte (hex_digit m) -> n = m.
Proof.
  intros H H'. apply digit_cases in H. apply digit_cases in H'.
  repeat destruct H as [<-|H]; try destruct H; repeat destruct H' as [<-|H']; try destruct H'; intros E;
    try reflexivity; vm_compute in E; discriminate E.
Qed.
Lemma nibbles c : (N_of_ascii c / 16 < 16)%N /\ (N_of_ascii c mod 16 < 16)%N.
Proof.
  assert (H := N_ascii_bounded c). split; [apply N.div_lt_upper_bound; lia|apply N.mod_lt; lia].
Qed.
Lemma hex_shape s : String.length (uc (hex s)) = (2 * String.length s)%nat /\
  forall c, In c (list_ascii_of_string (uc (hex s))) -> In c hexdigits.
Proof.
  induction s as [|c s [L IH]]; [split; [reflexivity|intros c []]|].
  destruct (nibbles c) as [A B]. cbn [hex]. rewrite !uc_cons. split.
  - cbn [String.length]. rewrite L. lia.
  - intros x [E|[E|E]]; [rewrite <- E; now apply digit_in|rewrite <- E; now apply digit_in|now apply IH].
Qed.
Lemma hex_inj : forall s t, uc (hex s) = uc (hex t) -> s = t.
Proof.
  induction s as [|c s IH]; intros [|d t]; cbn [hex]; rewrite ?uc_cons; [reflexivity|discriminate|discriminate|].
  intros H. injection H as A B E. destruct (nibbles c) as [C1 C2], (nibbles d) as [D1 D2].
  apply digit_inj in A; [|easy|easy]. apply digit_inj in B; [|easy|easy]. f_equal; [|now apply IH].
  rewrite <- (ascii_N_embedding c), <- (ascii_N_embedding d). f_equal.
  rewrite (N.div_mod' (N_of_ascii c) 16), (N.div_mod' (N_of_ascii d) 16). now rewrite A, B.
Qed.
Lemma digest_iff sha1 s t : digest sha1 s = digest sha1 t <-> sha1 s = sha1 t.
Proof. unfold digest. split; [apply hex_inj|congruence]. Qed.

(* ---- C89 ---- *)
Lemma ptr_prints {A} (f : option A -> string) (o : option A) s :
  prints (of_ptr (fun v => f (Some v)) o) s <-> ptr_shows f o s /\ s <> "".
Proof.
  unfold prints, of_ptr, ptr_shows. destruct o as [a|]; split.
  - intros [E|[E N]]; [discriminate E|]. injection E as <-. repeat split; [discriminate|easy].
  - intros [[_ ->] N]. right. now split.
  - intros [E|[E N]]; discriminate E.
  - intros [[E _] _]. now destruct E.
Qed.
Lemma opt_prints {A} (f : A -> string) (o : option A) s :
  prints (of_ptr f o) s <-> (exists v, o = Some v /\ s = f v) /\ s <> "".
Proof.
  unfold prints, of_ptr. destruct o as [a|]; split.
  - intros [E|[E N]]; [discriminate E|]. injection E as <-. split; [eauto|easy].
  - intros [(v & E & ->) N]. injection E as <-. right. now split.
  - intros [E|[E N]]; discriminate E.
  - intros [(v & E & _) _]. discriminate E.
Qed.
Lemma num_prints f n s : prints (of_num f n) s <-> num_shows f n s /\ s <> "".
Proof.
  unfold prints, of_num, num_shows. destruct (n =? 0)%N eqn:E.
  - apply N.eqb_eq in E as ->. split; [intros [F|[F _]]; discriminate F|intros [[F _] _]; now destruct F].
  - apply N.eqb_neq in E. split.
    + intros [F|[F N]]; [discriminate F|]. injection F as <-. now repeat split.
    + intros [[_ ->] N]. right. now split.
Qed.
Lemma abtv_zero_iff a :
  ((ab_kw a =? 0)%N && match ab_pair a with None => true | Some _ => false end)%bool = true <-> a = abtv_zero.
Proof.
  destruct a as [k [p|]]; cbn; rewrite ?andb_false_r, ?andb_true_r; split; try discriminate.
  - intros H. apply N.eqb_eq in H as ->. reflexivity.
  - intros H. injection H as ->. reflexivity.
Qed.
Lemma gtext_none W x : gtext W x = None <-> breaks x.
Proof.
  unfold breaks. split.
  - destruct x; cbn [gtext]; try discriminate.
    destruct (_ && _)%bool; [discriminate|]. destruct (abtv_string a) eqn:E; [discriminate|]. intros _.
    destruct a as [k [[[v|] [|[w|]|n]]|]]; cbn in E; try discriminate E; eauto.
    + destruct (String.length w =? 0)%nat; discriminate E.
    + destruct (n =? 0)%N; discriminate E.
  - intros (k & a & ->). cbn. now rewrite andb_false_r.
Qed.
Lemma some_inj {A} (a b : A) : Some a = Some b -> a = b.
Proof. congruence. Qed.
(* what is hashed of a value is the text it shows *)
Lemma gtext_shows W x h : gtext W x = Some h -> forall s, prints h s <-> shows W x s.
Proof.
  intros H s. unfold shows.
  destruct x; cbn [gtext shows_text] in H |- *; try (apply some_inj in H; subst h);
    try (rewrite (ptr_prints (_ : option _ -> string)); split; [now right|intros [F|F]; [discriminate F|exact F]]);
    try (rewrite num_prints; split; [now right|intros [F|F]; [discriminate F|exact F]]);
    try (rewrite opt_prints; split; [now right|intros [F|F]; [discriminate F|exact F]]).
  - unfold prints. split; [intros [F|[F _]]; [injection F as ->; now left|discriminate F]|intros [F|[[] _]]; injection F as ->; now left].
  - unfold prints. destruct p as [|b v].
    + split; [intros [F|[F _]]; discriminate F|intros [F|[[F _] _]]; [discriminate F|now destruct F]].
    + split; [intros [F|[F N]]; [discriminate F|injection F as <-; right; repeat split; [discriminate|easy]]|].
      intros [F|[[_ ->] N]]; [discriminate F|now right].
  - rewrite opt_prints. split; [intros [([k0 m0] & -> & E) N]; right; split; [exists k0, m0; now split|exact N]|].
    intros [F|[(k0 & m0 & -> & E) N]]; [discriminate F|split; [exists (k0, m0); now split|exact N]].
  - rewrite opt_prints. split; [intros [([k0 m0] & -> & E) N]; right; split; [exists k0, m0; now split|exact N]|].
    intros [F|[(k0 & m0 & -> & E) N]]; [discriminate F|split; [exists (k0, m0); now split|exact N]].
  - rewrite opt_prints. split; [intros [([k0 m0] & -> & E) N]; right; split; [exists k0, m0; now split|exact N]|].
    intros [F|[(k0 & m0 & -> & E) N]]; [discriminate F|split; [exists (MkOL k0 m0); now split|exact N]].
  - rewrite opt_prints. split; [intros [([k0 m0] & -> & E) N]; right; split; [exists k0, m0; now split|exact N]|].
    intros [F|[(k0 & m0 & -> & E) N]]; [discriminate F|split; [exists (k0, m0); now split|exact N]].
  - unfold prints. destruct (_ && _)%bool eqn:Z.
    + injection H as <-. apply abtv_zero_iff in Z.
      split; [intros [F|[F _]]; discriminate F|intros [F|[[F _] _]]; [discriminate F|now destruct F]].
    + assert (Z' : a <> abtv_zero) by (intros E; apply abtv_zero_iff in E; congruence).
      destruct (abtv_string a) as [t|] eqn:E; [|discriminate H]. injection H as <-. split.
      * intros [F|[F N]]; [discriminate F|]. injection F as ->. right. now repeat split.
      * intros [F|[[_ F] N]]; [discriminate F|]. injection F as ->. right. now split.
  - unfold prints. split; [intros [F|[F N]]; [discriminate F|right; split; [congruence|exact N]]|].
    intros [F|[F N]]; [discriminate F|right; split; [congruence|exact N]].
  - unfold prints. split; [intros [F|[F _]]; discriminate F|intros [F|[[] _]]; discriminate F].
Qed.
Lemma hash_some dg h s : prints h s -> hashInstance dg h = Some (dg s).
Proof. apply prints_hash. Qed.
Lemma hash_none dg h : (forall s, ~ prints h s) -> hashInstance dg h = None.
Proof.
  intros H. destruct (hashInstance dg h) as [g|] eqn:E; [|reflexivity].
  apply hash_prints in E as (s & P & _). now destruct (H s).
Qed.

(* Compare holds exactly when both values show a text and the texts have the same
   SHA-1 sum; it depends on nothing else of the two values. *)
Theorem C89_exact : forall W sha1 x y, ~ breaks x -> ~ breaks y ->
  exists b, gcompare W sha1 x y = Some b /\
    (b = true <-> exists s t, shows W x s /\ shows W y t /\ sha1 s = sha1 t).
Proof.
  intros W sha1 x y Bx By. unfold gcompare.
  destruct (gtext W x) as [hx|] eqn:Ex; [|now apply gtext_none in Ex].
  destruct (gtext W y) as [hy|] eqn:Ey; [|now apply gtext_none in Ey].
  assert (Px := gtext_shows W x hx Ex). assert (Py := gtext_shows W y hy Ey).
  assert (K : compareHashInstance (digest sha1) hx hy = true <->
              exists s t, shows W x s /\ shows W y t /\ sha1 s = sha1 t).
  { rewrite C45_exact. split; intros (s & t & A & B & C); exists s, t.
    - apply Px in A. apply Py in B. apply (proj1 (digest_iff sha1 s t)) in C. split; [exact A|]. split; [exact B|exact C].
    - apply Px in A. apply Py in B. apply (proj2 (digest_iff sha1 s t)) in C. split; [exact A|]. split; [exact B|exact C]. }
  destruct (hashInstance (digest sha1) hx) as [g|] eqn:G; [eexists; split; [reflexivity|exact K]|].
  exists false. split; [reflexivity|]. rewrite <- K. unfold compareHashInstance. now rewrite G.
Qed.
(* It panics exactly when it has to print a pair whose value is the zero value. *)
Theorem C89_panics : forall W sha1 x y,
  gcompare W sha1 x y = None <-> breaks x \/ (exists s, shows W x s) /\ breaks y.
Proof.
  intros W sha1 x y. unfold gcompare. destruct (gtext W x) as [hx|] eqn:Ex.
  - assert (Bx : ~ breaks x) by (rewrite <- (gtext_none W); congruence).
    assert (Px := gtext_shows W x hx Ex).
    destruct (hashInstance (digest sha1) hx) as [g|] eqn:G.
    + apply hash_prints in G as (s & P & _). apply Px in P.
      destruct (gtext W y) as [hy|] eqn:Ey.
      * split; [discriminate|]. intros [B|[_ B]]; [now destruct Bx|]. apply (gtext_none W) in B. congruence.
      * split; [intros _; right; split; [now exists s|now apply gtext_none in Ey]|reflexivity].
    + split; [discriminate|]. intros [B|[[s S] _]]; [now destruct Bx|].
      apply Px in S. rewrite (hash_some _ _ _ S) in G. discriminate G.
  - apply gtext_none in Ex. split; [now left|reflexivity].
Qed.
(* False: values of different types compare equal, a value may differ from itself. *)
Theorem C89_refuted :
  (forall W sha1, gcompare W sha1 (GBdn (UDN "cn=a")) (GBdn (GDN "cn=a")) = Some true /\
     gcompare W sha1 (GBdn (UDN "cn=a")) (GTdn (TDN "cn=a")) = Some true /\
     gcompare W sha1 (GSsf (SSF [SInt 9])) (GStr "9") = Some true /\
     gcompare W sha1 (GRight NoAccess) (GRight NoAccess) = Some false /\
     gcompare W sha1 (GAt (AT "a b")) (GAt (AT "a b")) = Some false) /\
  (forall W sha1 kw a y, gcompare W sha1 (GAbtv (MkABTV kw (Some (Some a, SAV (AV ""))))) y = None).
Proof.
  split.
  - intros W sha1.
    assert (E : forall s, Some (String.eqb (digest sha1 s) (digest sha1 s)) = Some true) by (intros s; now rewrite String.eqb_refl).
    repeat split; [exact (E "ldap:///cn=a")|exact (E "ldap:///cn=a")|exact (E "9")].
  - intros W sha1 kw a y. apply C89_panics. left. now exists kw, a.
Qed.
(* Where sha1 does not give the two texts the same sum, Compare tells the
   difference between ... permissions, *)
Definition no_collision (sha1 : string -> string) (s t : string) : Prop := sha1 s = sha1 t -> s = t.
Lemma compare_texts W sha1 x y s t : shows W x s -> shows W y t -> no_collision sha1 s t ->
  (forall s', shows W x s' -> s' = s) -> (forall t', shows W y t' -> t' = t) -> ~ breaks x -> ~ breaks y ->
  (gcompare W sha1 x y = Some true <-> s = t) /\ (gcompare W sha1 x y = Some false <-> s <> t).
Proof.
  intros X Y C UX UY BX BY. destruct (C89_exact W sha1 x y BX BY) as (b & E & K). rewrite E.
  assert (B : b = true <-> s = t).
  { rewrite K. split; [|intros <-; now exists s, s].
    intros (s' & t' & A & B & D). apply UX in A as ->. apply UY in B as ->. now apply C. }
  destruct b; split; split; try easy.
  - intros _. now apply B.
  - intros N. destruct N. now apply B.
  - intros ->. destruct (proj2 B eq_refl). reflexivity.
  - intros _ F. apply B in F. discriminate F.
Qed.
Lemma perm_run_some sh d init h : exists v, perm_run sh (newPermission sh d init) h = PSome d v.
Proof.
  unfold newPermission. generalize (shift_bits sh 0 init). unfold perm_run.
  induction h as [|c h IH]; intros v; [now exists v|]. destruct c; apply IH.
Qed.
Theorem C89_permissions : forall W sha1, shifty_ok (e_shifty (w_env W)) ->
  forall disp init h disp' init' h', calls_ok arg_named (CShift init :: h) -> calls_ok arg_named (CShift init' :: h') ->
  let sh := e_shifty (w_env W) in
  let p := perm_run sh (newPermission sh disp init) h in
  let q := perm_run sh (newPermission sh disp' init') h' in
  no_collision sha1 (perm_string sh p) (perm_string sh q) ->
  (gcompare W sha1 (GPerm p) (GPerm q) = Some true <->
   disp = disp' /\ forall r, granted false (CShift init :: h) r = granted false (CShift init' :: h') r).
Proof.
  intros W sha1 OK disp init h disp' init' h' H H' sh p q C.
  assert (X : forall disp init h, calls_ok arg_named (CShift init :: h) ->
    let p := perm_run sh (newPermission sh disp init) h in shows W (GPerm p) (perm_string sh p)).
  { clear. intros disp init h H p. right. destruct (perm_run_some sh disp init h) as [v E]. subst p. rewrite E.
    split; [split; [discriminate|reflexivity]|]. now destruct disp. }
  rewrite <- (C02_text_determines sh OK disp init h disp' init' h' H H'). fold p q.
  apply (compare_texts W sha1 (GPerm p) (GPerm q) _ _ (X _ _ _ H) (X _ _ _ H') C).
  - intros s [F|[[_ F] _]]; [discriminate F|exact F].
  - intros s [F|[[_ F] _]]; [discriminate F|exact F].
  - intros (kw & a & F). discriminate F.
  - intros (kw & a & F). discriminate F.
Qed.
(* days of the week, *)
Theorem C89_days : forall W sha1, shifty_ok (e_shifty (w_env W)) ->
  forall h h', dcalls_ok h -> dcalls_ok h' ->
  (exists d, day_in false h d = true) -> (exists d, day_in false h' d = true) ->
  let sh := e_shifty (w_env W) in
  let p := dow_run sh None h in let q := dow_run sh None h' in
  no_collision sha1 (dow_string sh p) (dow_string sh q) ->
  (gcompare W sha1 (GDow p) (GDow q) = Some true <-> forall d, day_in false h d = day_in false h' d).
Proof.
  intros W sha1 OK h h' H H' NE NE' sh p q C.
  assert (R := C10_round_trip sh OK h H NE). assert (R' := C10_round_trip sh OK h' H' NE'). fold p in R. fold q in R'.
  assert (X : forall h, dcalls_ok h -> (exists d, day_in false h d = true) ->
    let p := dow_run sh None h in shows W (GDow p) (dow_string sh p)).
  { clear - OK. intros h H [d D] p. assert (E := C10_history sh OK h d H). fold p in E. rewrite D in E.
    assert (T := C10_text sh OK h H). fold p in T. right. destruct p as [v|] eqn:EP; [|discriminate E].
    split; [split; [discriminate|reflexivity]|].
    assert (NE : In d (filter (day_in false h) all_days)) by (apply filter_In; split; [destruct d; cbn; tauto|exact D]).
    rewrite T by (intros F; rewrite F in NE; destruct NE).
    destruct (filter (day_in false h) all_days) as [|d0 l]; [destruct NE|]. destruct d0, l; discriminate. }
  assert (K : dow_string sh p = dow_string sh q <-> forall d, day_in false h d = day_in false h' d).
  { split.
    - intros E d. rewrite E in R. rewrite R in R'. injection R' as R'.
      rewrite <- (C10_history sh OK h d H), <- (C10_history sh OK h' d H'). now fold p q; rewrite R'.
    - intros E. assert (F : filter (day_in false h) all_days = filter (day_in false h') all_days)
        by (apply filter_ext; exact E).
      destruct NE as [d D]. assert (I : In d (filter (day_in false h) all_days))
        by (apply filter_In; split; [destruct d; cbn; tauto|exact D]).
      unfold p, q. rewrite !C10_text; try easy; [now rewrite F| |]; intros G;
        (assert (G' : filter (day_in false h) all_days = []) by congruence); rewrite G' in I; destruct I. }
  rewrite <- K.
  apply (compare_texts W sha1 (GDow p) (GDow q) _ _ (X _ H NE) (X _ H' NE') C).
  - intros s [F|[[_ F] _]]; [discriminate F|exact F].
  - intros s [F|[[_ F] _]]; [discriminate F|exact F].
  - intros (kw & a & F). discriminate F.
  - intros (kw & a & F). discriminate F.
Qed.
(* clock times *)
Theorem C89_clock : forall W sha1 h m h' m', clock h m -> clock h' m' ->
  no_collision sha1 (clock_text h m) (clock_text h' m') ->
  (gcompare W sha1 (GTod (ToD [TStr (clock_text h m)])) (GTod (ToD [TStr (clock_text h' m')])) = Some true <->
   h = h' /\ m = m').
Proof.
  intros W sha1 h m h' m' H H' C.
  destruct (C11_round_trip h m H) as [E _]. destruct (C11_round_trip h' m' H') as [E' _].
  assert (K : clock_text h m = clock_text h' m' <-> h = h' /\ m = m').
  { split; [|intros [-> ->]; reflexivity]. intros T.
    destruct (C11_order h m h' m' H H') as (n & n' & A & B & _ & D). rewrite T, B in A.
    assert (N : n = n') by congruence. apply D in N. destruct H as [[? ?]|[-> ->]], H' as [[? ?]|[-> ->]]; lia. }
  rewrite <- K.
  assert (X : forall h m, clock h m -> tod_string (ToD [TStr (clock_text h m)]) = clock_text h m ->
     shows W (GTod (ToD [TStr (clock_text h m)])) (clock_text h m)).
  { clear. intros h m H E. right. split; [split; [discriminate|now rewrite E]|discriminate]. }
  apply (compare_texts W sha1 _ _ _ _ (X _ _ H E) (X _ _ H' E') C).
  - intros s [F|[[_ F] _]]; [discriminate F|congruence].
  - intros s [F|[[_ F] _]]; [discriminate F|congruence].
  - intros (kw & a & F). discriminate F.
  - intros (kw & a & F). discriminate F.
Qed.
(* and distinguished names, by what follows the scheme, whatever their types. *)
Theorem C89_names : forall W sha1 x y mk mk' kw kw' bad bad', In (mk, kw) dn_makers -> In (mk', kw') dn_makers ->
  x <> "" -> y <> "" ->
  In bad [GBdn; GTdn] -> In bad' [GBdn; GTdn] ->
  no_collision sha1 ("ldap:///" ++ chopDNPfx x) ("ldap:///" ++ chopDNPfx y) ->
  (gcompare W sha1 (bad (mk x)) (bad' (mk' y)) = Some true <-> chopDNPfx x = chopDNPfx y).
Proof.
  intros W sha1 x y mk mk' kw kw' g g' M M' X Y G G' C.
  assert (S : forall mk kw g x, In (mk, kw) dn_makers -> In g [GBdn; GTdn] -> x <> "" ->
    shows W (g (mk x)) ("ldap:///" ++ chopDNPfx x) /\ ~ breaks (g (mk x)) /\
    forall s, shows W (g (mk x)) s -> s = "ldap:///" ++ chopDNPfx x).
  { clear. intros mk kw g x M G X. destruct x as [|c x]; [now destruct X|].
    assert (E : exists k, mk (String c x) = Some (MkDN k (Some (chopDNPfx (String c x))))).
    { cbn [In dn_makers] in M. repeat destruct M as [M|M]; try (destruct M; fail);
        injection M as <- <-; eexists; reflexivity. }
    destruct E as [k ->]. destruct G as [<-|[<-|[]]].
    - split; [right; split; [split; [discriminate|reflexivity]|discriminate]|]. split.
      + intros (? & ? & F). discriminate F.
      + intros s [F|[[_ F] _]]; [discriminate F|exact F].
    - split; [right; split; [split; [discriminate|reflexivity]|discriminate]|]. split.
      + intros (? & ? & F). discriminate F.
      + intros s [F|[[_ F] _]]; [discriminate F|exact F]. }
  destruct (S mk kw g x M G X) as (A & B & D). destruct (S mk' kw' g' y M' G' Y) as (A' & B' & D').
  rewrite (proj1 (compare_texts W sha1 _ _ _ _ A A' C D D' B B')). split; [|now intros ->].
  intros H. injection H as H. exact H.
Qed.
Print Assumptions C89_exact.
Print Assumptions C89_panics.
Print Assumptions C89_refuted.
Print Assumptions C89_permissions.
Print Assumptions C89_days.
Print Assumptions C89_clock.
Print Assumptions C89_names.
Example C89_witness :
  gcompare W0 (fun s => s) (GPerm (Allow shifty_ref [ARight 1])) (GStr "allow(read)") = Some true /\
  gcompare W0 (fun s => s) (GPerm (Allow shifty_ref [ARight 1])) (GPerm (Deny shifty_ref [ARight 1])) = Some false /\
  gcompare W0 (fun s => s) (GBdn (UDN "cn=a")) (GTdn (TFDN "ldap:///cn=a")) = Some true /\
  gcompare W0 (fun s => s) (GBdn (UDN "cn=a")) (GBdn (UDN "cn=b")) = Some false.
Proof. vm_compute. auto. Qed.

(* ---- C90 ---- *)
Theorem C90_shape : forall W sha1, (forall s, String.length (sha1 s) = 20%nat) ->
  forall x h, ghash W sha1 x = Some (Some h) -> is_hash h.
Proof.
  intros W sha1 L x h H. unfold ghash in H. destruct (gtext W x) as [t|]; [|discriminate H].
  injection H as H. apply hash_prints in H as (s & _ & ->). unfold digest, is_hash.
  destruct (hex_shape (sha1 s)) as [A B]. rewrite A, L. split; [reflexivity|exact B].
Qed.
(* a hash is given exactly for the values that show a text ... *)
Theorem C90_given : forall W sha1 x, ~ breaks x ->
  (exists r, ghash W sha1 x = Some r /\ (r = None <-> forall s, ~ shows W x s)).
Proof.
  intros W sha1 x B. unfold ghash. destruct (gtext W x) as [t|] eqn:E; [|now apply gtext_none in E].
  assert (P := gtext_shows W x t E). eexists. split; [reflexivity|]. split.
  - intros H s S. apply P in S. rewrite (hash_some _ _ _ S) in H. discriminate H.
  - intros H. apply hash_none. intros s S. apply P in S. now apply H in S.
Qed.
(* ... and two hashes are equal exactly when the SHA-1 sums of the texts are. *)
Theorem C90_equal : forall W sha1 x y s t, shows W x s -> shows W y t ->
  ~ breaks x -> ~ breaks y ->
  (ghash W sha1 x = ghash W sha1 y <-> sha1 s = sha1 t) /\
  (gcompare W sha1 x y = Some true <-> ghash W sha1 x = ghash W sha1 y).
Proof.
  intros W sha1 x y s t X Y BX BY. unfold ghash, gcompare.
  destruct (gtext W x) as [a|] eqn:Ex; [|now apply gtext_none in Ex].
  destruct (gtext W y) as [b|] eqn:Ey; [|now apply gtext_none in Ey].
  apply (gtext_shows W x a Ex) in X. apply (gtext_shows W y b Ey) in Y.
  unfold compareHashInstance. rewrite (hash_some _ _ _ X), (hash_some _ _ _ Y).
  rewrite <- (digest_iff sha1 s t). split; [split; congruence|].
  destruct (String.eqb_spec (digest sha1 s) (digest sha1 t)) as [E|E]; split; try congruence.
Qed.
Print Assumptions C90_shape.
Print Assumptions C90_given.
Print Assumptions C90_equal.
Example C90_witness : let sha1 := fun s => String.substring 0 20 (s ++ "....................") in
  ghash W0 sha1 (GPerm (Allow shifty_ref [ARight 1])) = Some (Some "616C6C6F772872656164292E2E2E2E2E2E2E2E2E") /\
  ghash W0 sha1 (GPerm PNil) = Some None /\ ghash W0 sha1 (GStr "") <> Some None.
Proof. vm_compute. repeat split; discriminate. Qed.

(* ---- C91: the keyword a value names is that of the rules made from it ---- *)
Lemma bkw_back k : In k [1;2;3;4;5;6;7;8;9;10;11]%N -> matchBKW (bkw_string k) = k.
Proof. intros H. repeat destruct H as [<-|H]; try destruct H; reflexivity. Qed.
Lemma btext_kw pad kw op s : In kw [1;2;3;4;5;6;7;8;9;10;11]%N -> In op [1;2;3;4;5;6]%N ->
  br_keyword (btext pad kw op s) = kw.
Proof.
  intros K O. assert (B := bkw_back kw K). unfold btext, BR. cbn [br_init br_set_keyword with_kw cond_init].
  unfold br_set_operator. destruct (_ && _)%bool; [exact B|]. cbn [op_arg]. destruct (op =? 0)%N; exact B.
Qed.
Lemma ttext_kw pad kw op s : In kw [1;2;3;4;5;6;7;8;9]%N -> tr_keyword (ttext pad kw op s) = kw.
Proof.
  intros K. assert (B : matchTKW (tkw_string (matchTKW (tkw_string kw))) = kw)
    by (repeat destruct K as [<-|K]; try destruct K; reflexivity).
  unfold ttext, TR. cbn [tr_init br_init tr_set_keyword on_cond].
  unfold tr_set_operator. destruct (_ =? 0)%N; [exact B|]. destruct (_ && _)%bool; exact B.
Qed.
Theorem C91_bind : forall sh pad fmt,
  (forall f, bind_kw_agrees (fqdn_Eq pad f) (Some (fqdn_Keyword f)) /\ bind_kw_agrees (fqdn_Ne pad f) (Some (fqdn_Keyword f))) /\
  (forall a, bind_kw_agrees (ip_Eq pad a) (Some (ip_Keyword a)) /\ bind_kw_agrees (ip_Ne pad a) (Some (ip_Keyword a))) /\
  (forall s r, In r [ssf_Eq pad s; ssf_Ne pad s; ssf_Lt pad s; ssf_Le pad s; ssf_Gt pad s; ssf_Ge pad s] ->
     bind_kw_agrees r (Some (ssf_Keyword s))) /\
  (forall t r, In r [tod_Eq pad t; tod_Ne pad t; tod_Lt pad t; tod_Le pad t; tod_Gt pad t; tod_Ge pad t] ->
     bind_kw_agrees r (Some (tod_Keyword t))) /\
  (forall d, bind_kw_agrees (dow_Eq sh pad d) (Some (dow_Keyword d)) /\ bind_kw_agrees (dow_Ne sh pad d) (Some (dow_Keyword d))) /\
  (forall k t, In k [BindUDN; BindRDN; BindGDN] -> let d := Some (MkDN k t) in
     bind_kw_agrees (bdn_Eq pad d) (dn_Keyword d) /\ bind_kw_agrees (bdn_Ne pad d) (dn_Keyword d)) /\
  (forall k m, In k [BindUDN; BindRDN; BindGDN] -> let l := Some (k, m) in
     bind_kw_agrees (bdns_Eq pad l) (bdns_Keyword l) /\ bind_kw_agrees (bdns_Ne pad l) (bdns_Keyword l)) /\
  (forall v a, In (ab_kw a) [BindUAT; BindGAT] -> let i := Some (MkInh v a) in
     bind_kw_agrees (inh_Eq sh pad fmt i) (inh_Keyword i) /\ bind_kw_agrees (inh_Ne sh pad fmt i) (inh_Keyword i)).
Proof.
  intros sh pad fmt. unfold bind_kw_agrees.
  assert (O1 : In Eq [1;2;3;4;5;6]%N) by (cbn; tauto). assert (O2 : In Ne [1;2;3;4;5;6]%N) by (cbn; tauto).
  repeat apply conj.
  - intros f. unfold fqdn_Eq, fqdn_Ne. destruct (negb _); split; intros N; try (now destruct N); rewrite btext_kw; cbn; tauto.
  - intros f. unfold ip_Eq, ip_Ne. destruct (negb _); split; intros N; try (now destruct N); rewrite btext_kw; cbn; tauto.
  - intros s r H N. repeat destruct H as [<-|H]; try destruct H; reflexivity.
  - intros t r H N. destruct t as [t|]; repeat destruct H as [<-|H]; try destruct H; try reflexivity; now destruct N.
  - intros d. unfold dow_Eq, dow_Ne. destruct (dow_valid sh d); split; intros N; try (now destruct N); rewrite btext_kw; cbn; tauto.
  - intros k t K. set (d := Some (MkDN k t)). unfold bdn_Eq, bdn_Ne, bdn_cond, dn_Keyword. destruct (dn_isZero d); split; intros N; try (now destruct N);
      cbn [dn_keyword d dn_kw]; rewrite btext_kw; try easy; cbn in K |- *; tauto.
  - intros k m K. cbn in K. split; intros _; repeat destruct K as [<-|K]; try destruct K; reflexivity.
  - intros v a K. set (i := Some (MkInh v a)). unfold inh_Eq, inh_Ne, inh_Keyword. destruct (inh_valid i); split; intros N; try (now destruct N);
      cbn [inh_kw i in_abtv]; rewrite btext_kw; try easy; destruct K as [<-|[<-|[]]]; cbn; tauto.
Qed.
Theorem C91_target : forall pad,
  (forall f, target_kw_agrees (sf_Eq pad f) (Some (sf_Keyword f)) /\ target_kw_agrees (sf_Ne pad f) (Some (sf_Keyword f))) /\
  (forall o, target_kw_agrees (afo_Eq pad o) (Some (afo_Keyword o))) /\
  (forall o, target_kw_agrees (afos_Eq pad o) (Some (afos_Keyword o))) /\
  (forall n, target_kw_agrees (scope_Eq pad n) (Some (scope_Keyword n))) /\
  (forall k t, In k [Target; TargetTo; TargetFrom] -> let d := Some (MkDN k t) in
     target_kw_agrees (tdn_Eq pad d) (dn_Keyword d) /\ target_kw_agrees (tdn_Ne pad d) (dn_Keyword d)) /\
  (forall k m, In k [Target; TargetTo; TargetFrom] -> let l := Some (k, m) in
     target_kw_agrees (tdns_Eq pad l) (tdns_Keyword l) /\ target_kw_agrees (tdns_Ne pad l) (tdns_Keyword l)) /\
  (forall k t, In k [TargetCtrl; TargetExtOp] -> let o := Some (MkOID k t) in
     target_kw_agrees (oid_Eq pad o) (oid_Keyword o) /\ target_kw_agrees (oid_Ne pad o) (oid_Keyword o)) /\
  (forall k m, In k [TargetCtrl; TargetExtOp] -> let l := Some (MkOL k m) in
     target_kw_agrees (oids_Eq pad l) (Some (oids_Keyword l)) /\ target_kw_agrees (oids_Ne pad l) (Some (oids_Keyword l))) /\
  (forall m, let l := Some (true, m) in
     target_kw_agrees (ats_Eq pad l) (Some (ats_Keyword l)) /\ target_kw_agrees (ats_Ne pad l) (Some (ats_Keyword l))).
Proof.
  intros pad. unfold target_kw_agrees. repeat apply conj.
  - intros f. unfold sf_Eq, sf_Ne. destruct (sf_isZero f); split; intros N; try (now destruct N); rewrite ttext_kw; cbn; tauto.
  - intros [o|] N; [|now destruct N]. unfold afo_Eq. rewrite ttext_kw; cbn; tauto.
  - intros [o|] N; [|now destruct N]. unfold afos_Eq. rewrite ttext_kw; cbn; tauto.
  - intros n. unfold scope_Eq. destruct (_ =? _)%N; intros N; [now destruct N|]. rewrite ttext_kw; cbn; tauto.
  - intros k t K. set (d := Some (MkDN k t)). unfold tdn_Eq, tdn_Ne, tdn_cond, dn_Keyword. destruct (dn_isZero d); split; intros N; try (now destruct N);
      cbn [dn_keyword d dn_kw]; rewrite ttext_kw; try easy; cbn in K |- *; tauto.
  - intros k m K. cbn in K. split; intros _; repeat destruct K as [<-|K]; try destruct K; reflexivity.
  - intros k t K. set (o := Some (MkOID k t)). unfold oid_Eq, oid_Ne, oid_Keyword. destruct (oid_valid o); split; intros N; try (now destruct N);
      cbn [oid_kwd o oid_kw]; rewrite ttext_kw; try easy; cbn in K |- *; tauto.
  - intros k m K. cbn in K. split; intros _; repeat destruct K as [<-|K]; try destruct K; reflexivity.
  - intros m. split; intros _; reflexivity.
Qed.
(* uninitialised names, identifiers, levels and lists of them name no keyword (nil, or
   the number 0); the types that stand for one keyword only always name it *)
Theorem C91_uninitialised :
  dn_Keyword None = None /\ inh_Keyword None = None /\ oid_Keyword None = None /\ bdns_Keyword None = None /\ tdns_Keyword None = None /\
  oids_Keyword None = 0%N /\ ats_Keyword None = 0%N /\
  fqdn_Keyword None = 7%N /\ ip_Keyword None = 6%N /\ ssf_Keyword None = 11%N /\ dow_Keyword None = 8%N /\ tod_Keyword None = 9%N /\
  sf_Keyword None = 7%N /\ af_Keyword None = 8%N /\ afo_Keyword None = 8%N /\ afos_Keyword None = 8%N /\ scope_Keyword 0 = 6%N.
Proof. repeat split. Qed.
Print Assumptions C91_uninitialised.
(* False of attribute types, which name no keyword, and of a list of attribute types
   made for a URI, which names targetfilter. *)
Theorem C91_refuted : forall pad,
  ~ target_kw_agrees (at_Eq pad (AT "cn")) (at_Keyword (AT "cn")) /\
  (forall m, ~ target_kw_agrees (ats_Eq pad (Some (false, m))) (Some (ats_Keyword (Some (false, m))))) /\
  (forall m, tr_keyword (ats_Eq pad (Some (false, m))) = TargetAttr /\ ats_Keyword (Some (false, m)) = TargetFilter).
Proof.
  intros pad. repeat apply conj.
  - intros H. assert (N : at_Eq pad (AT "cn") <> None) by discriminate. specialize (H N). discriminate H.
  - intros m H. assert (N : ats_Eq pad (Some (false, m)) <> None) by discriminate. specialize (H N). discriminate H.
  - intros m. split; reflexivity.
Qed.
Print Assumptions C91_bind.
Print Assumptions C91_target.
Print Assumptions C91_refuted.
Example C91_witness :
  tdn_Eq true (TTDN "cn=a") <> None /\ dn_Keyword (TTDN "cn=a") = Some TargetTo /\
  bdns_Keyword (Some (BindRDN, [MDN (RDN "cn=a")])) = Some BindRDN /\ dn_Keyword (UDN "") = None.
Proof. repeat split. discriminate. Qed.

(* ---- C92: F gives the maker of the members of a list ---- *)
Theorem C92_names : forall eqf l s,
  (forall k m, In k [BindUDN; BindRDN; BindGDN] -> l = Some (k, m) ->
     dn_push eqf badBDN true k m [MLists.DDN (bdns_F l s)] = dn_push eqf badBDN true k m [MLists.DStr s]) /\
  (forall k m, In k [Target; TargetTo; TargetFrom] -> l = Some (k, m) ->
     dn_push eqf badTDN false k m [MLists.DDN (tdns_F l s)] = dn_push eqf badTDN false k m [MLists.DStr s]).
Proof.
  intros eqf l s. split; intros k m K ->; cbn in K; repeat destruct K as [<-|K]; try destruct K; destruct s; reflexivity.
Qed.
Theorem C92_oids : forall eqf dotnot k m s, In k [TargetCtrl; TargetExtOp] ->
  oid_push eqf dotnot (MkOL k m) [OOID (oids_F dotnot (Some (MkOL k m)) [IAStr s])] =
  oid_push eqf dotnot (MkOL k m) [MLists.OStr s].
Proof.
  intros eqf dotnot k m s K. assert (E : oids_F dotnot (Some (MkOL k m)) [IAStr s] = mkOID dotnot k s).
  { destruct K as [<-|[<-|[]]]; [change (oids_F dotnot (Some (MkOL TargetCtrl m))) with (Ctrl dotnot)
      |change (oids_F dotnot (Some (MkOL TargetExtOp m))) with (ExtOp dotnot)];
    unfold Ctrl, ExtOp, newOID, mkOID, newObjectID; cbn [fold_left oid_set1]; now destruct (dotnot s). }
  rewrite E. destruct K as [<-|[<-|[]]]; reflexivity.
Qed.
Theorem C92_attributes : forall b m s,
  at_push m [AType (ats_F (Some (b, m)) s)] = at_push m [MLists.AStr s].
Proof. reflexivity. Qed.
(* False of the other lists: their Push reads a text, F does not. *)
Theorem C92_refuted :
  afo_push (MkAFO AddOp []) [AOFilter (afo_F (Some (MkAFO AddOp [])) [FStr "cn:(cn=a)"])] <>
  afo_push (MkAFO AddOp []) [AOStr "cn:(cn=a)"] /\
  afos_push AFOs0 [ASOp (afos_F (Some AFOs0) [AOStr "add=cn:(cn=a)"])] <> afos_push AFOs0 [ASStr "add=cn:(cn=a)"] /\
  inss_push W0 [] [JIns (inss_F W0 [] [IStr "none"])] <> inss_push W0 [] [JStr "none"] /\
  (forall W s, exists i, inss_F W [] [IStr s] = Some i /\ i_trs i = [] /\ i_pbrs i = []).
Proof.
  repeat apply conj.
  - vm_compute. discriminate.
  - vm_compute. discriminate.
  - vm_compute. discriminate.
  - intros W s. eexists. split; [reflexivity|]. unfold instr_set. cbn [fold_left assertInstruction].
    unfold setLabel. destruct (_ <? _)%nat; split; reflexivity.
Qed.
Print Assumptions C92_names.
Print Assumptions C92_oids.
Print Assumptions C92_attributes.
Print Assumptions C92_refuted.
Example C92_witness :
  dn_push eqfold badBDN true BindGDN [] [MLists.DDN (bdns_F (Some (BindGDN, [])) "cn=a")] = [MDN (GDN "cn=a")].
Proof. reflexivity. Qed.

(* ---- C93: IsZero, Valid, Len and the text agree ---- *)
(* Valid means not zero, for these types *)
Theorem C93_valid :
  (forall p, perm_valid p = negb (perm_is_zero p)) /\
  (forall d, dn_valid d = negb (dn_isZero d)) /\
  (forall o, oid_valid o = negb (oid_isZero o)) /\
  (forall a, at_valid a = negb (at_isZero a)) /\
  (forall a, abtv_valid a = negb (abtv_isZero a)) /\
  (forall f, sf_valid f = negb (sf_isZero f)) /\
  (forall t, tod_valid t = negb (tod_isZero t)) /\
  (forall i, ins_valid i = negb (ins_isZero i)) /\
  (forall i, inh_valid i = negb (inh_isZero i)).
Proof.
  repeat apply conj; try reflexivity.
  - intros o. unfold oid_isZero. now rewrite negb_involutive.
  - now intros [t|].
  - now intros [i|].
  - intros [i|]; [|reflexivity]. unfold inh_valid, inh_isZero. now destruct (abtv_isZero _).
Qed.
(* and for these it asks for more: some address, 2 to 15 labels, some day, both
   parts of a filter, a name in a URI. *)
Theorem C93_valid_more :
  (forall a, ipaddr_valid a = true <-> ip_isZero a = false /\ ipaddr_len a <> O) /\
  (forall f, fqdn_valid f = true <-> fqdn_isZero f = false /\ (2 <= fqdn_Len f <= 15)%nat) /\
  (forall sh, shifty_ok sh -> forall h, dcalls_ok h -> let d := dow_run sh None h in
     dow_valid sh d = true <-> dow_isZero d = false /\ dow_len sh d <> O) /\
  (forall f, af_valid f = true <-> af_isZero f = false /\ exists a s, f = Some (a, s) /\ at_isZero a = false /\ sf_isZero s = false) /\
  (forall u, luri_valid u = true <-> exists x, u = Some x /\ dn_isZero (u_dn x) = false).
Proof.
  repeat apply conj.
  - intros [[|x l]|]; cbn; split; try easy; intros [_ H]; now destruct H.
  - intros [l|]; [rewrite C21_exact; cbn; tauto|]. split; [discriminate|intros [F _]; discriminate F].
  - intros sh OK h H d. assert (L := C10_len sh OK h H). fold d in L.
    destruct (existsb (day_in false h) all_days) eqn:X.
    + apply existsb_exists in X as (x & I & X).
      assert (R := C10_round_trip sh OK h H (ex_intro _ x X)). fold d in R.
      assert (P := C10_history sh OK h x H). fold d in P. rewrite X in P.
      destruct d as [v|] eqn:Ed; [|discriminate P]. split; [|].
      * intros _. split; [reflexivity|]. rewrite L. intros F. apply length_zero_iff_nil in F.
        assert (G : In x (filter (day_in false h) all_days)) by (apply filter_In; now split). rewrite F in G. destruct G.
      * intros _. cbn [dow_valid]. apply negb_true_iff, String.eqb_neq. intros F. rewrite F in R. vm_compute in R. discriminate R.
    + assert (Z : forall x, day_in false h x = false).
      { intros x. destruct (day_in false h x) eqn:D; [|reflexivity]. rewrite <- X. symmetry. apply existsb_exists.
        exists x. split; [destruct x; cbn; tauto|exact D]. }
      destruct (C10_empty sh OK h H Z) as [_ V]. fold d in V. rewrite V. split; [discriminate|].
      intros [_ F]. rewrite L in F. destruct F. unfold all_days. cbn [filter]. now rewrite !Z.
  - intros [[a s]|]; cbn [af_valid af_isZero].
    + destruct (at_isZero a) eqn:A, (sf_isZero s) eqn:S; cbn; split; try easy; try (intros [F _]; discriminate F).
      * intros [_ (a' & s' & E & A' & S')]. injection E as <- <-. congruence.
      * intros [_ (a' & s' & E & A' & S')]. injection E as <- <-. congruence.
      * intros _. split; [reflexivity|]. exists a, s. now repeat split.
    + split; [discriminate|intros [F _]; discriminate F].
  - intros [x|]; cbn [luri_valid]; unfold uri_valid.
    + rewrite negb_true_iff. split; [eauto|]. intros (y & E & D). injection E as <-. exact D.
    + split; [discriminate|]. intros (y & E & _). discriminate E.
Qed.
(* A zero value has length 0, and prints the text that marks it (a rule and a filter
   print nothing). *)
Theorem C93_zero : forall sh fmt,
  (forall p, perm_is_zero p = true -> perm_len sh p = O /\ perm_string sh p = "<invalid_permission>") /\
  (forall d bad, dn_isZero d = true -> dn_Len d = O /\ dn_string bad d = bad) /\
  (forall d, dn_isZero d = true -> dn_string badBDN d = "<invalid_bind_distinguished_name>" /\ dn_string badTDN d = "<invalid_target_distinguished_name>") /\
  (forall o, oid_isZero o = true -> oid_Len o = O /\ oid_string o = "<invalid_object_identifier>") /\
  (forall x, at_isZero (AT x) = true -> at_Len (AT x) = O /\ at_string (AT x) = "<invalid_attribute_type>") /\
  (forall i, inh_isZero i = true -> inh_len sh i = O /\ inh_string sh fmt i = "<invalid_inheritance>") /\
  (forall d, dow_isZero d = true -> dow_len sh d = O /\ dow_string sh d = "<invalid_days>") /\
  (forall t, tod_isZero t = true -> tod_string t = "<invalid_timeofday>") /\
  (forall a, ip_isZero a = true -> ipaddr_len a = O /\ ipaddr_string a = "<invalid_address_list>") /\
  (forall f, fqdn_isZero f = true -> fqdn_Len f = O /\ fqdn_string f = "<invalid_fqdn_or_label>") /\
  (forall r, rule_isZero r = true -> rule_Len r = O /\ br_string r = "" /\ tr_string r = "") /\
  (forall f, sf_isZero f = true -> sf_string f = "").
Proof.
  intros sh fmt. repeat apply conj.
  - intros [|d v]; [split; reflexivity|discriminate].
  - intros [[k [t|]]|] bad H; try discriminate H; split; reflexivity.
  - intros [[k [t|]]|] H; try discriminate H; split; reflexivity.
  - intros [[k [t|]]|] H; try (split; reflexivity). unfold oid_isZero, oid_Len in *. cbn in *.
    destruct (k =? 0)%N; [split; reflexivity|discriminate H].
  - intros x. unfold AT. destruct (isIdentifier x || String.eqb x "*")%bool eqn:E; [|split; reflexivity].
    intros H. destruct x; [vm_compute in E; discriminate E|discriminate H].
  - intros i H. assert (P : forall x, inh_positive sh i x = false).
    { intros x. unfold inh_positive. destruct i as [i|]; [|reflexivity]. cbn [inh_isZero] in H. now rewrite H. }
    split.
    + unfold inh_len, bits12. cbn [filter]. now rewrite !P.
    + destruct i as [i|]; [|reflexivity]. cbn [inh_isZero] in H. unfold inh_string. now rewrite H.
  - intros [d|] H; [discriminate H|split; reflexivity].
  - intros [d|] H; [discriminate H|reflexivity].
  - intros [d|] H; [discriminate H|split; reflexivity].
  - intros [d|] H; [discriminate H|split; reflexivity].
  - intros [d|] H; [discriminate H|repeat split].
  - intros [[|c s]|] H; [reflexivity|discriminate H|reflexivity].
Qed.
(* A value with length 1 is a valid one, for the types that count 0 or 1; a valid
   value does not print the mark of an invalid one. *)
Theorem C93_length_one :
  (forall d, dn_Len d = 1%nat <-> dn_valid d = true) /\
  (forall o, oid_Len o = 1%nat <-> oid_valid o = true) /\
  (forall a, at_Len a = 1%nat <-> at_valid a = true) /\
  (forall r, rule_Len r = 1%nat <-> rule_isZero r = false).
Proof.
  unfold dn_Len, oid_Len, at_Len, rule_Len. repeat apply conj; intros x;
    [destruct (dn_valid x)|destruct (oid_valid x)|destruct (at_valid x)|destruct (rule_isZero x)]; split; easy.
Qed.
Theorem C93_text : forall sh,
  (forall p, perm_valid p = true -> perm_string sh p <> "<invalid_permission>") /\
  (forall d, dn_valid d = true -> dn_string badBDN d <> "<invalid_bind_distinguished_name>" /\
                                   dn_string badTDN d <> "<invalid_target_distinguished_name>") /\
  (forall x, at_valid (AT x) = true -> at_string (AT x) <> "<invalid_attribute_type>") /\
  (forall i fmt, inh_valid i = true -> inh_string sh fmt i <> "<invalid_inheritance>") /\
  (forall d, dow_valid sh d = true -> dow_string sh d <> "<invalid_days>") /\
  (forall x, uri_valid x = true -> uri_string x <> "<invalid_ldap_uri>") /\
  (forall t : N, tod_string (Some t) <> "<invalid_timeofday>").
Proof.
  intros sh. repeat apply conj.
  - intros [|[|] v] H; discriminate.
  - intros [[k [t|]]|] H; try discriminate H; split; discriminate.
  - intros x V E. unfold at_valid in V. unfold AT in *. destruct (isIdentifier x || String.eqb x "*")%bool eqn:I; [|discriminate V].
    cbn [at_string] in E. subst x. vm_compute in I. discriminate I.
  - intros i fmt V. destruct i as [i|]; [|discriminate V]. unfold inh_valid in V. cbn [inh_isZero] in V. unfold inh_string.
    destruct (abtv_isZero (in_abtv i)); [discriminate V|]. discriminate.
  - intros [d|] V; [|discriminate V]. cbn [dow_valid] in V. apply negb_true_iff, String.eqb_neq in V. exact V.
  - intros x V. assert (D : exists k t, u_dn x = Some (MkDN k (Some t))).
    { unfold uri_valid in V. destruct (u_dn x) as [[k [t|]]|]; try discriminate V. eauto. }
    destruct D as (k & t & D). unfold uri_string. rewrite V, D. cbn [negb dn_string].
    destruct (negb (sf_isZero _)); [discriminate|]. destruct (negb (abtv_isZero _)); discriminate.
  - intros t E. cbn [tod_string] in E. unfold fmt04d in E. set (z := itoa t) in E.
    assert (D : forall c r, z = String c r -> c <> "<"%char).
    { intros c r F. subst z. unfold itoa in F. destruct (N.to_uint t) as [|u|u|u|u|u|u|u|u|u|u]; cbn in F;
        injection F as <- _; discriminate. }
    destruct z as [|c r]; [discriminate E|]. specialize (D c r eq_refl).
    destruct (String.length (String c r)) as [|[|[|[|n]]]]; try discriminate E. injection E as -> _. now apply D.
Qed.
(* False of three types as they stand. *)
Theorem C93_refuted :
  (ssf_isZero None = true /\ ssf_valid None = true) /\
  (exists u, luri_valid (Some u) = true /\ luri_isZero (Some u) = false /\ luri_Len (Some u) = O) /\
  (forall sh, shifty_ok sh -> let p := Allow sh [] in perm_valid p = true /\ perm_is_zero p = false /\ perm_len sh p = O).
Proof.
  repeat apply conj; try reflexivity.
  - exists (MkURI (UDN "cn=a") 1%N abtv_zero [] None). repeat split.
  - intros sh OK p. repeat split. apply (C01_len sh OK true [] []). intros c x [<-|[]] [].
Qed.
Print Assumptions C93_valid.
Print Assumptions C93_valid_more.
Print Assumptions C93_zero.
Print Assumptions C93_length_one.
Print Assumptions C93_text.
Print Assumptions C93_refuted.
(* values on both sides of each line of C93_valid_more *)
Example C93_witness :
  fqdn_valid (DNS ["www"; "example"]) = true /\ fqdn_isZero (DNS ["www"]) = false /\ fqdn_valid (DNS ["www"]) = false /\
  dn_valid (UDN "cn=a") = true /\ dn_valid (UDN "") = false /\ dn_valid None = false /\
  af_isZero (AF [FStr "cn"]) = false /\ af_valid (AF [FStr "cn"]) = false.
Proof. repeat split. Qed.

(* ---- C94: object identifiers from several arguments ---- *)
Definition Dn0 (s : string) : option string := if String.eqb s "bad" then None else Some s.
Lemma oid_others dotnot xs st : (forall x, In x xs -> x = IAOther) -> fold_left (oid_set1 dotnot) xs st = st.
Proof.
  induction xs as [|x xs IH]; intros H; [reflexivity|]. cbn [fold_left]. rewrite (H x (or_introl eq_refl)).
  cbn [oid_set1]. apply IH. intros y I. apply H. now right.
Qed.
(* Every argument list falls under the rule ... *)
Theorem C94_total : forall dotnot xs, exists r, last_decides dotnot xs r.
Proof.
  intros dotnot xs. induction xs as [|x xs IH] using rev_ind.
  - exists None. now constructor.
  - destruct x as [s|o|].
    + exists (Some (dotnot s)). now apply (LD_str dotnot xs s []).
    + destruct (oid_valid o) eqn:V.
      * destruct o as [[k [t|]]|]; try discriminate V. exists (Some (dotnot t)). apply (LD_oid dotnot xs k t []); [easy|].
        intros ->. discriminate V.
      * exists (Some None). now apply (LD_bad dotnot xs o []).
    + destruct IH as [r IH]. exists r. destruct IH as [xs H|xs s ys H|xs kw t ys H K|xs o ys H V].
      * constructor. intros y I. apply in_app_or in I as [I|[<-|[]]]; auto.
      * rewrite <- app_assoc. apply LD_str. intros y I. apply in_app_or in I as [I|[<-|[]]]; auto.
      * rewrite <- app_assoc. apply LD_oid; [|exact K]. intros y I. apply in_app_or in I as [I|[<-|[]]]; auto.
      * rewrite <- app_assoc. apply LD_bad; [|exact V]. intros y I. apply in_app_or in I as [I|[<-|[]]]; auto.
Qed.
(* ... and the result is valid, with the number the rule names, or not valid at all. *)
Lemma newOID_last dotnot kw xs r : kw <> 0%N -> last_decides dotnot xs r ->
  match r with
  | Some (Some t) => newOID dotnot kw xs = Some (MkOID kw (Some t))
  | _ => oid_valid (newOID dotnot kw xs) = false
  end.
Proof.
  intros K L. unfold newOID. destruct L as [xs H|xs s ys H|xs k t ys H K'|xs o ys H V].
  - rewrite oid_others by exact H. reflexivity.
  - rewrite fold_left_app. cbn [fold_left]. rewrite oid_others by exact H. cbn [oid_set1].
    now destruct (dotnot s).
  - rewrite fold_left_app. cbn [fold_left]. rewrite oid_others by exact H. cbn [oid_set1].
    cbn [oid_valid oid_string]. destruct (N.eqb_spec k 0); [congruence|]. cbn [negb]. now destruct (dotnot t).
  - rewrite fold_left_app. cbn [fold_left]. rewrite oid_others by exact H. cbn [oid_set1]. rewrite V.
    destruct (fst _); reflexivity.
Qed.
Theorem C94_exact : forall dotnot xs r, last_decides dotnot xs r ->
  match r with
  | Some (Some t) =>
      (oid_valid (Ctrl dotnot xs) = true /\ oid_string (Ctrl dotnot xs) = t /\ oid_Keyword (Ctrl dotnot xs) = Some TargetCtrl) /\
      (oid_valid (ExtOp dotnot xs) = true /\ oid_string (ExtOp dotnot xs) = t /\ oid_Keyword (ExtOp dotnot xs) = Some TargetExtOp)
  | _ => oid_valid (Ctrl dotnot xs) = false /\ oid_valid (ExtOp dotnot xs) = false
  end.
Proof.
  intros dotnot xs r L.
  assert (A := newOID_last dotnot TargetCtrl xs r ltac:(discriminate) L).
  assert (B := newOID_last dotnot TargetExtOp xs r ltac:(discriminate) L).
  unfold Ctrl, ExtOp. destruct r as [[t|]|]; [|now split|now split]. rewrite A, B. repeat split.
Qed.
Print Assumptions C94_total.
Print Assumptions C94_exact.
Example C94_witness :
  last_decides Dn0 [IAStr "bad"; IAStr "1.3"; IAOther] (Some (Some "1.3")) /\
  oid_string (Ctrl Dn0 [IAStr "bad"; IAStr "1.3"; IAOther]) = "1.3" /\
  last_decides Dn0 [IAStr "1.3"; IAStr "bad"] (Some None) /\ oid_valid (Ctrl Dn0 [IAStr "1.3"; IAStr "bad"]) = false.
Proof.
  repeat split.
  - now apply (LD_str Dn0 [IAStr "bad"] "1.3" [IAOther]); intros y [<-|[]].
  - now apply (LD_str Dn0 [IAStr "1.3"] "bad" []).
Qed.
