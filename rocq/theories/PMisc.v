(* Lemmas on /repo/misc.go helpers (C43-C45). *)
From Coq Require Import String Ascii List PeanoNat NArith Bool Lia.
From Verif Require Import GoStr GoStrFacts MMisc SMisc.
Import ListNotations.
Open Scope string_scope.

Lemma blank_white c : blank c = true -> white c = true.
Proof.
  unfold blank, white. rewrite !orb_true_iff. intros [[H|H]|H]; [left|left|now right];
    apply Ascii.eqb_eq in H as ->; reflexivity.
Qed.
Lemma nonwhite_nonblank c : white c = false -> blank c = false.
Proof. intros H. destruct (blank c) eqn:E; [|easy]. apply blank_white in E. congruence. Qed.

(* ---- trimming of ASCII text ---- *)
Fixpoint dropw (s : string) : string :=
  match s with
  | EmptyString => EmptyString
  | String c r => if white c then dropw r else s
  end.

Lemma ascii_cases (P : ascii -> Prop) :
  (forall n, (n < 128)%N -> P (ascii_of_N n)) -> forall c, ascii_byte c = true -> P c.
Proof.
  intros H c Hc. apply N.ltb_lt in Hc. unfold byte_of in Hc.
  rewrite <- (ascii_N_embedding c). now apply H.
Qed.

Lemma first_match_ascii c r : ascii_byte c = true ->
  first_match space_seqs (String c r) = (if white c then Some 1%nat else None).
Proof.
  destruct c as [[] [] [] [] [] [] [] []]; intros H; vm_compute in H; try discriminate H; reflexivity.
Qed.
Lemma first_match_ascii_rev c r : ascii_byte c = true ->
  first_match (map srev space_seqs) (String c r) = (if white c then Some 1%nat else None).
Proof.
  destruct c as [[] [] [] [] [] [] [] []]; intros H; vm_compute in H; try discriminate H; reflexivity.
Qed.
Lemma trim_left_dropw seqs s :
  (forall c r, ascii_byte c = true -> first_match seqs (String c r) = if white c then Some 1%nat else None) ->
  is_ascii s = true -> trim_left seqs s = dropw s.
Proof.
  intros F. unfold trim_left. induction s as [|c s IH]; [easy|]. unfold is_ascii. cbn [all_bytes].
  intros H. apply andb_true_iff in H as [Hc Hs]. cbn [trim_left_aux dropw]. rewrite F by easy.
  destruct (white c); [now apply IH|easy].
Qed.
Lemma all_bytes_srev f s : all_bytes f (srev s) = all_bytes f s.
Proof.
  induction s as [|c s IH]; [easy|]. rewrite srev_cons, all_bytes_app, IH. cbn. rewrite andb_true_r. apply andb_comm.
Qed.
Lemma all_bytes_dropw f s : all_bytes f s = true -> all_bytes f (dropw s) = true.
Proof.
  induction s as [|c s IH]; [easy|]. cbn [dropw all_bytes]. intros H.
  destruct (white c); [|exact H]. apply IH. now apply andb_true_iff in H.
Qed.
Lemma trim_ascii s : is_ascii s = true -> trim_space s = srev (dropw (srev (dropw s))).
Proof.
  intros H. unfold trim_space.
  rewrite (trim_left_dropw space_seqs s) by (apply first_match_ascii || easy).
  rewrite (trim_left_dropw (map srev space_seqs)); [easy| |].
  - exact first_match_ascii_rev.
  - unfold is_ascii. rewrite all_bytes_srev. now apply all_bytes_dropw.
Qed.
Lemma trim_is_ascii s : is_ascii s = true -> is_ascii (trim_space s) = true.
Proof.
  intros H. rewrite trim_ascii by easy. unfold is_ascii in *.
  rewrite all_bytes_srev. apply all_bytes_dropw. rewrite all_bytes_srev. now apply all_bytes_dropw.
Qed.

(* first and last byte not white *)
Definition edge (o : option ascii) : Prop := forall c, o = Some c -> white c = false.
Definition tidy (s : string) : Prop := edge (first_byte s) /\ edge (last_byte s).

Lemma last_byte_app a c : last_byte (a ++ String c "") = Some c.
Proof. induction a as [|d a IH]; [easy|]. cbn [append last_byte]. destruct (a ++ String c "") eqn:E; [|now rewrite <- IH]. destruct a; discriminate. Qed.
Lemma last_byte_app2 a c b : last_byte (a ++ String c b) = last_byte (String c b).
Proof.
  induction a as [|d a IH]; [easy|]. cbn [append]. cbn [last_byte].
  destruct (a ++ String c b) eqn:E; [destruct a; discriminate|exact IH].
Qed.
Lemma last_first s : last_byte s = first_byte (srev s).
Proof.
  induction s as [|c s IH]; [easy|]. rewrite srev_cons. destruct s as [|d s]; [easy|].
  change (last_byte (String c (String d s))) with (last_byte (String d s)). rewrite IH.
  destruct (srev (String d s)) eqn:E; [|easy].
  apply (f_equal srev) in E. rewrite srev_involutive in E. discriminate.
Qed.
Lemma dropw_edge s : edge (first_byte (dropw s)).
Proof.
  induction s as [|c s IH]; [now intros c|]. cbn [dropw]. destruct (white c) eqn:E; [exact IH|].
  intros d H. injection H as <-. exact E.
Qed.
Lemma dropw_id s : edge (first_byte s) -> dropw s = s.
Proof. destruct s as [|c s]; [easy|]. intros H. cbn [dropw]. now rewrite (H c eq_refl). Qed.
Lemma dropw_suffix s : exists p, s = p ++ dropw s /\ all_bytes white p = true.
Proof.
  induction s as [|c s [p [E W]]]; [now exists ""|]. cbn [dropw]. destruct (white c) eqn:Ec.
  - exists (String c p). cbn [append all_bytes]. rewrite Ec, W, <- E. easy.
  - exists "". easy.
Qed.
Lemma trim_tidy s : is_ascii s = true -> tidy (trim_space s).
Proof.
  intros H. rewrite trim_ascii by easy. split.
  - set (u := dropw s). assert (Hu : edge (first_byte u)) by apply dropw_edge.
    destruct (dropw_suffix (srev u)) as (p & E & _).
    apply (f_equal srev) in E. rewrite srev_involutive, srev_append in E.
    destruct (srev (dropw (srev u))) as [|c r]; [now intros c|]. rewrite E in Hu. exact Hu.
  - rewrite last_first, srev_involutive. apply dropw_edge.
Qed.
Lemma trim_id s : is_ascii s = true -> tidy s -> trim_space s = s.
Proof.
  intros H [A B]. rewrite trim_ascii by easy. rewrite (dropw_id s A).
  rewrite dropw_id; [apply srev_involutive|]. now rewrite <- last_first.
Qed.

(* solid text *)
Lemma solid_app a b : solid (a ++ b) = solid a ++ solid b.
Proof. induction a as [|c a IH]; [easy|]. cbn [append solid]. rewrite IH. now destruct (white c). Qed.
Lemma solid_white p : all_bytes white p = true -> solid p = "".
Proof.
  induction p as [|c p IH]; [easy|]. cbn [all_bytes solid]. intros H.
  apply andb_true_iff in H as [-> H]. now apply IH.
Qed.
Lemma solid_dropw s : solid (dropw s) = solid s.
Proof.
  destruct (dropw_suffix s) as (p & E & W). rewrite E at 2. now rewrite solid_app, (solid_white p W).
Qed.
Lemma solid_srev s : solid (srev s) = srev (solid s).
Proof.
  induction s as [|c s IH]; [easy|]. rewrite srev_cons, solid_app, IH. cbn [solid].
  destruct (white c); [now rewrite app_nil_r'|now rewrite srev_cons].
Qed.
Lemma solid_trim s : is_ascii s = true -> solid (trim_space s) = solid s.
Proof.
  intros H. rewrite trim_ascii by easy. now rewrite solid_srev, solid_dropw, solid_srev, srev_involutive, solid_dropw.
Qed.

(* ---- words ---- *)
Lemma words_blank c r : blank c = true -> words (String c r) = words r.
Proof. intros H. cbn [words]. now rewrite H. Qed.
Definition starts_solid (s : string) : Prop := match s with EmptyString => False | String c _ => blank c = false end.
Lemma words_solid c r : blank c = false ->
  words (String c r) = match r with
                       | EmptyString => [String c ""]
                       | String d _ => if blank d then String c "" :: words r
                                       else match words r with w :: ws => String c w :: ws | [] => [String c ""] end
                       end.
Proof. intros H. cbn [words]. now rewrite H. Qed.
Lemma words_nonempty s : starts_solid s -> words s <> [].
Proof.
  destruct s as [|c r]; [easy|]. cbn [starts_solid]. intros H. rewrite words_solid by easy.
  destruct r as [|d r]; [easy|]. destruct (blank d); [easy|]. now destruct (words (String d r)).
Qed.
Lemma words_ok s : Forall (fun w => w <> "" /\ all_bytes (fun c => negb (blank c)) w = true) (words s).
Proof.
  induction s as [|c r IH]; [constructor|]. destruct (blank c) eqn:E; [now rewrite words_blank|].
  rewrite words_solid by easy. destruct r as [|d r'].
  - constructor; [|constructor]. cbn. now rewrite E.
  - destruct (blank d).
    + constructor; [|exact IH]. cbn. now rewrite E.
    + destruct (words (String d r')) as [|w ws]; [constructor; [cbn; now rewrite E|constructor]|].
      inversion IH as [|? ? [Hw1 Hw2] Hws]. constructor; [|easy]. split; [easy|].
      cbn [all_bytes]. now rewrite E, Hw2.
Qed.
Lemma words_replace s : words (replace_byte "010" " " s) = words s.
Proof.
  unfold replace_byte. induction s as [|c r IH]; [easy|]. cbn [map_bytes].
  assert (B : forall c, blank (if Ascii.eqb c "010" then " "%char else c) = blank c).
  { intros d. destruct (Ascii.eqb_spec d "010") as [->|]; reflexivity. }
  destruct (blank c) eqn:E.
  - rewrite !words_blank; [exact IH|easy|now rewrite B].
  - rewrite words_solid by now rewrite B. rewrite words_solid by easy.
    assert (Ec : Ascii.eqb c "010" = false).
    { destruct (Ascii.eqb_spec c "010") as [->|]; [discriminate|easy]. }
    rewrite Ec. destruct r as [|d r]; [easy|]. cbn [map_bytes]. cbn [map_bytes] in IH.
    rewrite B, IH. reflexivity.
Qed.
Lemma replace_ascii s : is_ascii s = true -> is_ascii (replace_byte "010" " " s) = true.
Proof.
  unfold is_ascii, replace_byte. induction s as [|c r IH]; [easy|]. cbn [map_bytes all_bytes].
  intros H. apply andb_true_iff in H as [Hc Hr]. rewrite IH by easy.
  destruct (Ascii.eqb c "010"); [reflexivity|now rewrite Hc].
Qed.

Lemma loop_blank l c r : blank c = true ->
  condense_loop l (String c r) = if l then condense_loop true r else String " " (condense_loop true r).
Proof. unfold blank. intros H. cbn [condense_loop]. now rewrite H. Qed.
Lemma loop_solid l c r : blank c = false -> ascii_byte c = true ->
  condense_loop l (String c r) = String c (condense_loop false r).
Proof.
  unfold blank. intros H A. cbn [condense_loop]. rewrite H. unfold utf8_of_byte. now rewrite A.
Qed.
Lemma loop_true_false s : starts_solid s -> is_ascii s = true -> condense_loop false s = condense_loop true s.
Proof.
  destruct s as [|c r]; [easy|]. cbn [starts_solid]. unfold is_ascii. cbn [all_bytes]. intros H A.
  apply andb_true_iff in A as [A _]. now rewrite !loop_solid.
Qed.
(* the loop writes the words with one blank between them, plus at most one blank
   when the text ends in a blank *)
Lemma loop_words s : is_ascii s = true ->
  exists tail, condense_loop true s = join " " (words s) ++ tail /\
    (words s = [] -> tail = "") /\
    (edge (last_byte s) -> tail = "").
Proof.
  unfold is_ascii. induction s as [|c r IH]; [intros _; now exists ""|]. cbn [all_bytes]. intros H.
  apply andb_true_iff in H as [Hc Hr]. destruct (IH Hr) as (tail & E & T1 & T2).
  destruct (blank c) eqn:Eb.
  - rewrite loop_blank, words_blank by easy. exists tail. split; [exact E|]. split; [exact T1|].
    intros He. destruct r as [|d r]; [now apply T1|]. now apply T2.
  - rewrite loop_solid by easy. rewrite words_solid by easy. destruct r as [|d r].
    + exists "". now split.
    + destruct (blank d) eqn:Ed.
      * rewrite loop_blank by easy. rewrite words_blank in * by easy. rewrite loop_blank in E by easy. rewrite E.
        destruct (words r) as [|w ws] eqn:Ew.
        -- exists " ". rewrite (T1 eq_refl). split; [easy|]. split; [easy|]. intros He.
           exfalso. specialize (T1 eq_refl). subst tail.
           assert (L : forall r d, blank d = true -> words r = [] -> exists e, last_byte (String d r) = Some e /\ blank e = true).
           { clear. induction r as [|e r IH]; intros d Hd Hw; [now exists d|].
             destruct (blank e) eqn:Ee.
             - rewrite words_blank in Hw by easy. change (last_byte (String d (String e r))) with (last_byte (String e r)). now apply IH.
             - exfalso. now apply (words_nonempty (String e r)). }
           destruct (L r d Ed Ew) as (e & Le & Be). specialize (He e Le).
           apply blank_white in Be. congruence.
        -- exists tail. split; [|split; [easy|]].
           ++ change (join " " (String c "" :: w :: ws)) with (String c (" " ++ join " " (w :: ws))). easy.
           ++ exact T2.
      * assert (S : starts_solid (String d r)) by exact Ed.
        rewrite loop_true_false by easy. rewrite E.
        assert (W := words_nonempty _ S).
        destruct (words (String d r)) as [|w ws] eqn:Ew; [easy|].
        exists tail. split; [|split; [easy|exact T2]]. destruct ws; reflexivity.
Qed.

Lemma join_first w ws : w <> "" -> first_byte (join " " (w :: ws)) = first_byte w.
Proof. destruct w; [easy|]. now destruct ws. Qed.
Lemma words_first c r : blank c = false -> first_byte (join " " (words (String c r))) = Some c.
Proof.
  intros H. rewrite words_solid by easy. destruct r as [|d r]; [easy|].
  destruct (blank d); [now rewrite join_first|]. destruct (words (String d r)); [easy|now rewrite join_first].
Qed.
Lemma join_last w ws : last_byte (join " " (w :: ws)) = last_byte (join " " (w :: ws)).
Proof. easy. Qed.
Lemma words_last s : (forall c, last_byte s = Some c -> blank c = false) ->
  last_byte (join " " (words s)) = last_byte s.
Proof.
  induction s as [|c r IH]; [easy|]. intros H. destruct (blank c) eqn:E.
  - rewrite words_blank by easy. destruct r as [|d r]; [now rewrite (H c eq_refl) in E|].
    change (last_byte (String c (String d r))) with (last_byte (String d r)). now apply IH.
  - rewrite words_solid by easy. destruct r as [|d r]; [easy|].
    change (last_byte (String c (String d r))) with (last_byte (String d r)) in *.
    specialize (IH H). assert (NE : join " " (words (String d r)) <> "").
    { intros E'. rewrite E' in IH. symmetry in IH. clear -IH. revert d IH. induction r as [|e r IHr]; intros d IH; [discriminate|].
      change (last_byte (String d (String e r))) with (last_byte (String e r)) in IH. now apply (IHr e). }
    rewrite <- IH. destruct (words (String d r)) as [|w ws] eqn:Ew; [easy|].
    destruct (blank d).
    + change (join " " (String c "" :: w :: ws)) with (String c (String " " (join " " (w :: ws)))).
      destruct (join " " (w :: ws)); easy.
    + replace (join " " (String c w :: ws)) with (String c (join " " (w :: ws))) by now destruct ws.
      destruct (join " " (w :: ws)); easy.
Qed.
Lemma words_tidy s : tidy s -> tidy (join " " (words s)).
Proof.
  intros [A B]. split.
  - destruct s as [|c r]; [easy|]. rewrite words_first; [exact A|]. apply nonwhite_nonblank, A. easy.
  - rewrite words_last; [exact B|]. intros c Hc. apply nonwhite_nonblank. now apply B.
Qed.
Lemma words_ascii s : is_ascii s = true -> is_ascii (join " " (words s)) = true.
Proof.
  unfold is_ascii. intros H.
  assert (F : Forall (fun w => all_bytes ascii_byte w = true) (words s)).
  { induction s as [|c r IH]; [constructor|]. cbn [all_bytes] in H. apply andb_true_iff in H as [Hc Hr].
    specialize (IH Hr). destruct (blank c) eqn:E; [now rewrite words_blank|].
    rewrite words_solid by easy. assert (C1 : all_bytes ascii_byte (String c "") = true) by (cbn; now rewrite Hc).
    destruct r as [|d r]; [now repeat constructor|]. destruct (blank d); [now constructor|].
    destruct (words (String d r)); [now repeat constructor|]. inversion IH as [|? ? H1 H2]. constructor; [|easy]. cbn [all_bytes]. now rewrite Hc, H1. }
  induction F as [|w ws Hw _ IH]; [easy|]. destruct ws; [exact Hw|].
  rewrite join_cons, !all_bytes_app, Hw, IH. reflexivity.
Qed.

(* what condensation does to ASCII text *)
Lemma condense_words s : is_ascii s = true -> condenseWHSP s = join " " (words (trim_space s)).
Proof.
  intros H. unfold condenseWHSP. assert (Ht := trim_is_ascii s H). assert (Ty := trim_tidy s H).
  set (t := trim_space s) in *.
  assert (T' : tidy (replace_byte "010" " " t)).
  { destruct Ty as [A B]. split.
    - destruct t as [|c r]; [easy|]. intros d Hd. unfold replace_byte in Hd. cbn in Hd. injection Hd as <-.
      specialize (A c eq_refl). destruct (Ascii.eqb_spec c "010") as [->|]; [discriminate|easy].
    - assert (L : forall u, last_byte (replace_byte "010" " " u) = option_map (fun c => if Ascii.eqb c "010" then " "%char else c) (last_byte u)).
      { unfold replace_byte. induction u as [|c u IH]; [easy|]. destruct u; [easy|]. exact IH. }
      intros d Hd. rewrite L in Hd. destruct (last_byte t) as [c|]; [|discriminate]. injection Hd as <-.
      specialize (B c eq_refl). destruct (Ascii.eqb_spec c "010") as [->|]; [discriminate|easy]. }
  rewrite <- (words_replace t). set (u := replace_byte "010" " " t) in *.
  assert (Hu : is_ascii u = true) by now apply replace_ascii.
  assert (E : condense_loop false u = join " " (words u)).
  { destruct u as [|c r] eqn:Eu; [easy|].
    rewrite loop_true_false; [|apply nonwhite_nonblank; exact (proj1 T' c eq_refl)|easy].
    destruct (loop_words (String c r) Hu) as (tail & E & _ & T). rewrite E, (T (proj2 T')). apply app_nil_r'. }
  rewrite E. apply trim_id; [now apply words_ascii|now apply words_tidy].
Qed.

Lemma words_cat w r : w <> "" -> all_bytes (fun c => negb (blank c)) w = true ->
  words (w ++ String " " r) = w :: words r.
Proof.
  induction w as [|c w IH]; [easy|]. intros _ H. cbn [all_bytes] in H.
  apply andb_true_iff in H as [Hc Hw]. apply negb_true_iff in Hc. cbn [append].
  rewrite words_solid by easy. destruct w as [|d w].
  - cbn [append]. change (blank " ") with true. cbv iota. now rewrite words_blank.
  - cbn [append]. cbn [all_bytes] in Hw. assert (Hd := Hw). apply andb_true_iff in Hd as [Hd _]. apply negb_true_iff in Hd. rewrite Hd.
    change (String d (w ++ String " " r)) with (String d w ++ String " " r). now rewrite IH.
Qed.
Lemma words_single w : w <> "" -> all_bytes (fun c => negb (blank c)) w = true -> words w = [w].
Proof.
  induction w as [|c w IH]; [easy|]. intros _ H. cbn [all_bytes] in H.
  apply andb_true_iff in H as [Hc Hw]. apply negb_true_iff in Hc.
  rewrite words_solid by easy. destruct w as [|d w]; [easy|].
  cbn [all_bytes] in Hw. assert (Hd := Hw). apply andb_true_iff in Hd as [Hd _]. apply negb_true_iff in Hd. rewrite Hd.
  now rewrite IH.
Qed.
Lemma words_join ws : Forall (fun w => w <> "" /\ all_bytes (fun c => negb (blank c)) w = true) ws ->
  words (join " " ws) = ws.
Proof.
  induction 1 as [|w ws [H1 H2] _ IH]; [easy|]. destruct ws as [|x ws].
  - now apply words_single.
  - rewrite join_cons. cbn [append]. now rewrite words_cat, IH.
Qed.

Lemma condense_idem s : is_ascii s = true -> condenseWHSP (condenseWHSP s) = condenseWHSP s.
Proof.
  intros H. rewrite (condense_words s) by easy.
  set (t := trim_space s). assert (Ht : is_ascii t = true) by now apply trim_is_ascii.
  rewrite condense_words by now apply words_ascii.
  rewrite trim_id; [|now apply words_ascii|apply words_tidy, trim_tidy, H].
  now rewrite words_join by apply words_ok.
Qed.
Lemma condense_solid s : is_ascii s = true -> solid (condenseWHSP s) = solid s.
Proof.
  intros H. rewrite condense_words, <- (solid_trim s H) by easy. generalize (trim_space s). intros t.
  induction t as [|c r IH]; [easy|]. destruct (blank c) eqn:E.
  - rewrite words_blank, IH by easy. cbn [solid]. now rewrite (blank_white c E).
  - rewrite words_solid by easy.
    assert (J : forall x l, solid (join " " (x :: l)) = solid x ++ solid (join " " l)).
    { intros x l. destruct l; [cbn [join]; now rewrite app_nil_r'|]. rewrite join_cons, !solid_app. reflexivity. }
    change (solid (String c r)) with (solid (String c "" ++ r)). rewrite solid_app, <- IH.
    destruct r as [|d r]; [now rewrite J|]. destruct (blank d) eqn:Ed; [now rewrite J|].
    destruct (words (String d r)) as [|w ws]; [now rewrite J|]. rewrite !J, <- app_assoc'. f_equal. now rewrite <- solid_app.
Qed.
Lemma join_no_double ws : Forall (fun w => w <> "" /\ all_bytes (fun c => negb (blank c)) w = true) ws ->
  forall a b c d, join " " ws = a ++ String c (String d b) -> blank c = true -> blank d = false.
Proof.
  intros F a b c d E Hc. destruct (blank d) eqn:Hd; [exfalso|easy].
  revert a E. induction F as [|w ws [H1 H2] F IH]; intros a E; [destruct a; discriminate|].
  assert (IN : forall w a, all_bytes (fun c => negb (blank c)) w = true -> w <> a ++ String c (String d b)).
  { intros x y Hx Ex. rewrite Ex, all_bytes_app in Hx. cbn [all_bytes] in Hx. rewrite Hc in Hx.
    cbn in Hx. now rewrite andb_false_r in Hx. }
  destruct ws as [|x ws]; [now apply (IN w a)|]. rewrite join_cons in E. cbn [append] in E.
  set (J := join " " (x :: ws)) in *.
  assert (J1 : exists e r, J = String e r /\ blank e = false).
  { inversion F as [|? ? [Hx1 Hx2] _]. subst. destruct x as [|e x]; [easy|]. exists e.
    cbn [all_bytes] in Hx2. apply andb_true_iff in Hx2 as [Hx2 _]. apply negb_true_iff in Hx2.
    unfold J. destruct ws; cbn [join append]; eauto. }
  clear IN H1. revert a E. induction w as [|y w IHw]; intros a E.
  - destruct a as [|z a]; cbn [append] in E; injection E as E0 E.
    + destruct J1 as (e & r & J1 & J2). rewrite J1 in E. injection E as E1 _. congruence.
    + now apply (IH a).
  - cbn [all_bytes] in H2. apply andb_true_iff in H2 as [Hy H2]. apply negb_true_iff in Hy.
    destruct a as [|z a]; cbn [append] in E; injection E as E0 E; [congruence|]. now apply (IHw H2 a).
Qed.

(* ---- unquote ---- *)
Lemma drop_last_app s c : drop_last (s ++ String c "") = s.
Proof.
  induction s as [|d s IH]; [easy|]. cbn [append]. cbn [drop_last].
  destruct (s ++ String c "") eqn:E; [destruct s; discriminate|]. now rewrite IH.
Qed.
Lemma unquote_quoted q s q' : is_quote q = true -> is_quote q' = true -> s <> "" ->
  unquote (String q (s ++ String q' "")) = s.
Proof.
  intros Hq Hq' Hs. unfold unquote. cbn [String.length]. rewrite length_app. cbn [String.length].
  destruct s as [|c s]; [easy|]. cbn [String.length].
  replace (S (S (String.length s) + 1) <=? 2)%nat with false by (symmetry; apply Nat.leb_gt; lia).
  rewrite Hq, last_byte_app, Hq'. apply drop_last_app.
Qed.
Lemma unquote_plain s : (forall c, first_byte s = Some c -> is_quote c = false) ->
  (forall c, last_byte s = Some c -> is_quote c = false) -> unquote s = s.
Proof.
  intros A B. unfold unquote. destruct (String.length s <=? 2)%nat; [easy|].
  destruct s as [|c s]; [easy|]. rewrite (A c eq_refl).
  destruct (last_byte (String c s)) as [d|]; [|easy]. now rewrite (B d eq_refl).
Qed.
