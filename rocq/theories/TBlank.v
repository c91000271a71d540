(* C43 for all text: what condensation makes of text with bytes outside ASCII. *)
From Coq Require Import String Ascii List PeanoNat NArith Bool Lia.
From Verif Require Import GoStr GoStrFacts MMisc SMisc PMisc.
Import ListNotations.
Open Scope string_scope.

(* specification: every byte outside ASCII is taken for the character of that number and
   written in UTF-8 *)
Fixpoint reencode (s : string) : string :=
  match s with
  | EmptyString => EmptyString
  | String c r =>
      if (N_of_ascii c <? 128)%N then String c (reencode r)
      else String (ascii_of_N (192 + N_of_ascii c / 64)) (String (ascii_of_N (128 + N_of_ascii c mod 64)) (reencode r))
  end.
Lemma reencode_cons c r : reencode (String c r) = utf8_of_byte c ++ reencode r.
Proof. cbn [reencode]. unfold utf8_of_byte, ascii_byte, byte_of, bytes, chr. now destruct (N_of_ascii c <? 128)%N. Qed.
Lemma reencode_ascii s : is_ascii s = true -> reencode s = s.
Proof.
  unfold is_ascii. induction s as [|c r IH]; [easy|]. cbn [all_bytes reencode]. intros H. apply andb_true_iff in H as [Hc Hr].
  unfold ascii_byte, byte_of in Hc. rewrite Hc. now rewrite IH.
Qed.

(* ---- trimming ---- *)
Lemma trim_aux_stop seqs s : forall k, let u := trim_left_aux seqs k s in u = "" \/ first_match seqs u = None.
Proof.
  induction s as [|c s IH]; intros k; [now left|]. cbn [trim_left_aux]. destruct k as [|k]; [|apply IH].
  destruct (first_match seqs (String c s)) eqn:E; [apply IH|right; exact E].
Qed.
Lemma trim_aux_suffix seqs s : forall k, exists p, s = p ++ trim_left_aux seqs k s.
Proof.
  induction s as [|c s IH]; intros k; [now exists ""|]. cbn [trim_left_aux].
  destruct k as [|k]; [destruct (first_match seqs (String c s)) as [n|]; [|now exists ""]|].
  - destruct (IH (pred n)) as [p E]. exists (String c p). cbn [append]. now rewrite <- E.
  - destruct (IH k) as [p E]. exists (String c p). cbn [append]. now rewrite <- E.
Qed.
Lemma white_ascii c : white c = true -> ascii_byte c = true.
Proof. destruct c as [[] [] [] [] [] [] [] []]; intros H; vm_compute in H; try discriminate H; reflexivity. Qed.
Lemma trim_edge seqs s : (forall c r, ascii_byte c = true -> first_match seqs (String c r) = if white c then Some 1%nat else None) ->
  edge (first_byte (trim_left seqs s)).
Proof.
  intros F c H. unfold trim_left in H. destruct (trim_aux_stop seqs s O) as [E|E]; cbv zeta in E.
  - rewrite E in H. discriminate H.
  - destruct (trim_left_aux seqs 0 s) as [|d r]; [discriminate H|]. injection H as ->. destruct (white c) eqn:W; [|easy].
    rewrite F, W in E by now apply white_ascii. discriminate E.
Qed.
Lemma trim_tidy_all s : tidy (trim_space s).
Proof.
  unfold trim_space. set (u := trim_left space_seqs s). split.
  - assert (H : edge (first_byte u)) by (apply trim_edge, first_match_ascii).
    destruct (trim_aux_suffix (map srev space_seqs) (srev u) O) as [p E]. unfold trim_left.
    apply (f_equal srev) in E. rewrite srev_involutive, srev_append in E.
    destruct (srev (trim_left_aux (map srev space_seqs) 0 (srev u))) as [|c r]; [now intros c|]. rewrite E in H. exact H.
  - rewrite last_first, srev_involutive. apply trim_edge, first_match_ascii_rev.
Qed.
Lemma trim_part s : exists p q, s = p ++ trim_space s ++ q.
Proof.
  unfold trim_space. destruct (trim_aux_suffix space_seqs s O) as [p E]. fold (trim_left space_seqs s) in E.
  set (u := trim_left space_seqs s) in *. destruct (trim_aux_suffix (map srev space_seqs) (srev u) O) as [q F].
  fold (trim_left (map srev space_seqs) (srev u)) in F. apply (f_equal srev) in F. rewrite srev_involutive, srev_append in F.
  exists p, (srev q). rewrite <- F. exact E.
Qed.

(* ---- the loop ---- *)
Lemma loop_solid_all l c r : blank c = false -> condense_loop l (String c r) = utf8_of_byte c ++ condense_loop false r.
Proof. unfold blank. intros H. cbn [condense_loop]. now rewrite H. Qed.
Lemma loop_true_false_all s : starts_solid s -> condense_loop false s = condense_loop true s.
Proof. destruct s as [|c r]; [easy|]. cbn [starts_solid]. intros H. now rewrite !loop_solid_all. Qed.
Lemma join_cons_first c x w ws : join " " (map reencode (String c w :: ws)) ++ x = utf8_of_byte c ++ join " " (map reencode (w :: ws)) ++ x.
Proof. cbn [map]. rewrite reencode_cons. destruct ws; cbn [map join]; now rewrite !app_assoc'. Qed.
Lemma loop_words_all s : 
  exists tail, condense_loop true s = join " " (map reencode (words s)) ++ tail /\
    (words s = [] -> tail = "") /\
    (edge (last_byte s) -> tail = "").
Proof.
  induction s as [|c r IH]; [now exists ""|]. destruct IH as (tail & E & T1 & T2).
  destruct (blank c) eqn:Eb.
  - rewrite loop_blank, words_blank by easy. exists tail. split; [exact E|]. split; [exact T1|].
    intros He. destruct r as [|d r]; [now apply T1|]. now apply T2.
  - rewrite loop_solid_all by easy. rewrite words_solid by easy. destruct r as [|d r].
    + exists "". cbn [condense_loop map join]. rewrite reencode_cons. cbn [reencode]. rewrite !app_nil_r'. now split.
    + destruct (blank d) eqn:Ed.
      * rewrite loop_blank by easy. rewrite words_blank in * by easy. rewrite loop_blank in E by easy. rewrite E.
        destruct (words r) as [|w ws] eqn:Ew.
        -- exists " ". rewrite (T1 eq_refl). split; [cbn [map join]; rewrite reencode_cons; cbn [reencode]; rewrite !app_nil_r'; reflexivity|]. split; [easy|]. intros He.
           exfalso. specialize (T1 eq_refl). subst tail.
           assert (L : forall r d, blank d = true -> words r = [] -> exists e, last_byte (String d r) = Some e /\ blank e = true).
           { clear. induction r as [|e r IH]; intros d Hd Hw; [now exists d|].
             destruct (blank e) eqn:Ee.
             - rewrite words_blank in Hw by easy. change (last_byte (String d (String e r))) with (last_byte (String e r)). now apply IH.
             - exfalso. now apply (words_nonempty (String e r)). }
           destruct (L r d Ed Ew) as (e & Le & Be). specialize (He e Le).
           apply blank_white in Be. congruence.
        -- exists tail. split; [|split; [easy|]].
           ++ rewrite join_cons_first. cbn [map]. rewrite join_cons. cbn [reencode append]. reflexivity.
           ++ exact T2.
      * assert (S : starts_solid (String d r)) by exact Ed.
        rewrite loop_true_false_all by easy. rewrite E.
        assert (W := words_nonempty _ S).
        destruct (words (String d r)) as [|w ws] eqn:Ew; [easy|].
        exists tail. split; [|split; [easy|exact T2]]. now rewrite join_cons_first.
Qed.

(* Condensation of any text: the words of the trimmed text, bytes outside ASCII encoded
   once more, one blank between them, trimmed again. *)
Theorem C43_exact : forall s,
  condenseWHSP s = trim_space (join " " (map reencode (words (trim_space s)))).
Proof.
  intros s. unfold condenseWHSP. f_equal. assert (Ty := trim_tidy_all s). set (t := trim_space s) in *.
  assert (T' : tidy (replace_byte "010" " " t)).
  { destruct Ty as [A B]. split.
    - destruct t as [|c r]; [easy|]. intros d Hd. unfold replace_byte in Hd. cbn in Hd. injection Hd as <-.
      specialize (A c eq_refl). destruct (Ascii.eqb_spec c "010") as [->|]; [discriminate|easy].
    - assert (L : forall u, last_byte (replace_byte "010" " " u) = option_map (fun c => if Ascii.eqb c "010" then " "%char else c) (last_byte u)).
      { unfold replace_byte. induction u as [|c u IH]; [easy|]. destruct u; [easy|]. exact IH. }
      intros d Hd. rewrite L in Hd. destruct (last_byte t) as [c|]; [|discriminate]. injection Hd as <-.
      specialize (B c eq_refl). destruct (Ascii.eqb_spec c "010") as [->|]; [discriminate|easy]. }
  rewrite <- (words_replace t). set (u := replace_byte "010" " " t) in *.
  destruct u as [|c r] eqn:Eu; [easy|].
  rewrite loop_true_false_all; [|apply nonwhite_nonblank; exact (proj1 T' c eq_refl)].
  destruct (loop_words_all (String c r)) as (tail & E & _ & T). rewrite E, (T (proj2 T')). apply app_nil_r'.
Qed.
Lemma reencode_solid w : all_bytes (fun c => negb (blank c)) w = true -> all_bytes (fun c => negb (blank c)) (reencode w) = true.
Proof.
  induction w as [|c w IH]; [easy|]. cbn [all_bytes]. intros H. apply andb_true_iff in H as [Hc Hw].
  rewrite reencode_cons, all_bytes_app, (IH Hw), andb_true_r.
  destruct c as [[] [] [] [] [] [] [] []]; (vm_compute in Hc; discriminate Hc) || reflexivity.
Qed.
Lemma reencode_nonempty w : w <> "" -> reencode w <> "".
Proof. destruct w as [|c w]; [easy|]. intros _. cbn [reencode]. now destruct (N_of_ascii c <? 128)%N. Qed.
(* Whatever the text: no white space at the ends and no two adjacent blanks. *)
Theorem C43_no_redundant_blanks : forall s,
  (forall c, first_byte (condenseWHSP s) = Some c -> white c = false) /\
  (forall c, last_byte (condenseWHSP s) = Some c -> white c = false) /\
  (forall a b c d, condenseWHSP s = a ++ String c (String d b) -> blank c = true -> blank d = false).
Proof.
  intros s. split; [apply trim_tidy_all|]. split; [apply trim_tidy_all|].
  intros a b c d E. rewrite C43_exact in E. set (j := join " " (map reencode (words (trim_space s)))) in *.
  destruct (trim_part j) as (p & q & P). rewrite E in P.
  apply (join_no_double (map reencode (words (trim_space s)))) with (a := p ++ a) (b := b ++ q).
  - assert (W := words_ok (trim_space s)). clear - W. induction W as [|w ws [W1 W2] _ IH]; cbn [map]; [constructor|]. constructor; [|exact IH].
    split; [now apply reencode_nonempty|now apply reencode_solid].
  - fold j. rewrite P. rewrite !app_assoc'. reflexivity.
Qed.
(* ASCII text is the case in which nothing is encoded again *)
Theorem C43_exact_ascii : forall s, is_ascii s = true -> map reencode (words (trim_space s)) = words (trim_space s).
Proof.
  intros s H. apply trim_is_ascii in H. assert (F : forall t, is_ascii t = true -> Forall (fun w => is_ascii w = true) (words t)).
  { unfold is_ascii. induction t as [|c r IH]; [constructor|]. cbn [all_bytes]. intros A. apply andb_true_iff in A as [Hc Hr].
    specialize (IH Hr). destruct (blank c) eqn:E; [now rewrite words_blank|].
    rewrite words_solid by easy. assert (C1 : all_bytes ascii_byte (String c "") = true) by (cbn; now rewrite Hc).
    destruct r as [|d r]; [now repeat constructor|]. destruct (blank d); [now constructor|].
    destruct (words (String d r)); [now repeat constructor|]. inversion IH as [|? ? H1 H2]. constructor; [|easy]. cbn [all_bytes]. now rewrite Hc, H1. }
  specialize (F _ H). induction F as [|w ws A _ IH]; [reflexivity|]. cbn [map]. now rewrite IH, reencode_ascii.
Qed.
Print Assumptions C43_exact.
Print Assumptions C43_no_redundant_blanks.
Print Assumptions C43_exact_ascii.
(* an e with acute accent becomes two characters; an a with grave accent at the end loses
   its second byte, which has become a no-break space *)
Example C43_exact_witness :
  condenseWHSP (" caf" ++ bytes [195; 169]%N ++ "   noir ") = "caf" ++ bytes [195; 131; 194; 169]%N ++ " noir" /\
  condenseWHSP ("voil" ++ bytes [195; 160]%N) = "voil" ++ bytes [195; 131]%N.
Proof. split; vm_compute; reflexivity. Qed.
