(* Texts as Unicode and decimal notation have them: trimming (C43) and strength factors
   given as texts (C14). *)
From Coq Require Import String Ascii List PeanoNat NArith ZArith Bool Lia.
From Verif Require Import GoStr GoStrFacts MMisc MSec SSec PSec PAttr SStd.
Import ListNotations.
Open Scope string_scope.

(* ---- decimal numbers ---- *)
Lemma digit_code c : digit_val c = (if ((48 <=? N_of_ascii c) && (N_of_ascii c <=? 57))%N then Some (N_of_ascii c - 48)%N else None).
Proof. reflexivity. Qed.
Lemma digits_from_ge s : forall acc n, digits_from acc s = Some n -> (acc <= n)%N.
Proof.
  induction s as [|c s IH]; intros acc n; cbn [digits_from]; [intros [= ->]; lia|].
  destruct ((48 <=? N_of_ascii c) && (N_of_ascii c <=? 57))%N; [|discriminate]. intros H. apply IH in H. lia.
Qed.
Lemma digits_from_app a b : forall acc n, digits_from acc a = Some n -> digits_from acc (a ++ b) = digits_from n b.
Proof.
  induction a as [|c a IH]; intros acc n; cbn [digits_from append]; [now intros [= ->]|].
  destruct ((48 <=? N_of_ascii c) && (N_of_ascii c <=? 57))%N; [apply IH|discriminate].
Qed.
Lemma loop_digits s : forall acc, (acc <= uint64_max)%N ->
  match parse_uint_loop acc s with
  | PUok n => digits_from acc s = Some n /\ (n <= uint64_max)%N
  | PUrange => exists d r n, s = d ++ r /\ digits_from acc d = Some n /\ (uint64_max < n)%N /\ d <> ""
  | PUsyntax => digits_from acc s = None /\ (forall d r n, s = d ++ r -> digits_from acc d = Some n -> (n <= uint64_max)%N)
  end.
Proof.
  induction s as [|c s IH]; intros acc A; cbn [parse_uint_loop digits_from]; [now split|].
  rewrite digit_code. destruct ((48 <=? N_of_ascii c) && (N_of_ascii c <=? 57))%N eqn:D.
  - set (v := (10 * acc + (N_of_ascii c - 48))%N). assert (V : (acc * 10 + (N_of_ascii c - 48) = v)%N) by (unfold v; lia). rewrite V.
    assert (F : (uint64_max < v)%N -> exists d r n, String c s = d ++ r /\ digits_from acc d = Some n /\ (uint64_max < n)%N /\ d <> "").
    { intros H. exists (String c ""), s, v. cbn [digits_from append]. rewrite D. now repeat split. }
    destruct (N.leb_spec uint64_cutoff acc) as [C|C]; [apply F; unfold v, uint64_max, uint64_cutoff in *; lia|].
    destruct (N.ltb_spec uint64_max v) as [M|M]; [now apply F|].
    specialize (IH v M). destruct (parse_uint_loop v s) as [| |n].
    + destruct IH as [N1 N2]. split; [exact N1|]. intros d r n E H. destruct d as [|e d]; [injection H as <-; exact A|].
      injection E as <- E. cbn [digits_from] in H. rewrite D in H. now apply (N2 d r n).
    + destruct IH as (d & r & n & -> & H & M2 & N). exists (String c d), r, n. cbn [digits_from append]. rewrite D. now repeat split.
    + exact IH.
  - split; [reflexivity|]. intros d r n E H. destruct d as [|e d]; [injection H as <-; exact A|].
    injection E as <- E. cbn [digits_from] in H. rewrite D in H. discriminate.
Qed.
Lemma uint_digits s :
  match parse_uint s with
  | PUok n => digits s = Some n /\ (n <= uint64_max)%N
  | PUrange => exists d r n, s = d ++ r /\ digits d = Some n /\ (uint64_max < n)%N
  | PUsyntax => digits s = None /\ (forall d r n, s = d ++ r -> digits d = Some n -> (n <= uint64_max)%N)
  end.
Proof.
  destruct s as [|c s].
  - cbn. split; [reflexivity|]. intros [|? ?] r n E; [discriminate|discriminate E].
  - unfold parse_uint. assert (H := loop_digits (String c s) 0 ltac:(unfold uint64_max; lia)).
    destruct (parse_uint_loop 0 (String c s)) as [| |n].
    + destruct H as [H1 H2]. split; [exact H1|]. intros [|e d] r n E F; [discriminate|]. now apply (H2 _ r n E).
    + destruct H as (d & r & n & E & F & M & N). exists d, r, n. destruct d; [easy|]. now repeat split.
    + exact H.
Qed.
Lemma range_number s d r n : s = d ++ r -> digits d = Some n -> (uint64_max < n)%N -> forall m, digits s = Some m -> (uint64_max < m)%N.
Proof.
  intros -> D M m F. destruct d as [|c d]; [discriminate|]. unfold digits in D, F. cbn [append] in F.
  change (String c (d ++ r)) with (String c d ++ r) in F. rewrite (digits_from_app _ _ _ _ D) in F. apply digits_from_ge in F. lia.
Qed.

Definition reading (neg : bool) (u : puint) : Z * bool :=
  match u with
  | PUsyntax => (0%Z, false)
  | PUrange => ((if neg then - Z.of_N int_cutoff else Z.of_N int_cutoff - 1)%Z, false)
  | PUok n => if neg then if (int_cutoff <? n)%N then ((- Z.of_N int_cutoff)%Z, false) else ((- Z.of_N n)%Z, true)
              else if (int_cutoff <=? n)%N then ((Z.of_N int_cutoff - 1)%Z, false) else (Z.of_N n, true)
  end.
Lemma atoi_reading c r : atoi (String c r) =
  if Ascii.eqb c "-" then reading true (parse_uint r) else if Ascii.eqb c "+" then reading false (parse_uint r) else reading false (parse_uint (String c r)).
Proof. unfold atoi, reading. destruct (Ascii.eqb c "-"); cbn [orb]; [reflexivity|]. now destruct (Ascii.eqb c "+"). Qed.
Lemma reading_number neg body n : digits body = Some n -> clamp (fst (reading neg (parse_uint body))) = clamp (if neg then - Z.of_N n else Z.of_N n)%Z.
Proof.
  intros D. assert (U := uint_digits body). destruct (parse_uint body) as [| |m]; cbn [reading].
  - rewrite D in U. now destruct U.
  - destruct U as (d & r & k & E & F & M). assert (G := range_number body d r k E F M n D). cbn [fst]. unfold clamp, int_cutoff, uint64_max in *. destruct neg; lia.
  - destruct U as [U _]. rewrite D in U. injection U as <-.
    destruct neg; [destruct (N.ltb_spec int_cutoff n)|destruct (N.leb_spec int_cutoff n)]; cbn [fst]; unfold clamp, int_cutoff in *; lia.
Qed.
Lemma not_word c r : (((48 <=? N_of_ascii c) && (N_of_ascii c <=? 57))%N || Ascii.eqb c "-" || Ascii.eqb c "+") = true ->
  String.eqb (lc (String c r)) "full" || String.eqb (lc (String c r)) "max" = false /\
  String.eqb (lc (String c r)) "none" || String.eqb (lc (String c r)) "off" = false.
Proof.
  intros H. assert (A : Ascii.eqb c xE2 = false /\ Ascii.eqb c xC4 = false /\ In (lower_byte c) ["0"; "1"; "2"; "3"; "4"; "5"; "6"; "7"; "8"; "9"; "-"; "+"]%char).
  { destruct c as [[] [] [] [] [] [] [] []]; vm_compute in H; try discriminate H; vm_compute; tauto. }
  destruct A as (A1 & A2 & A3). rewrite lc_ascii by assumption. cbn [In] in A3.
  repeat destruct A3 as [<-|A3]; try (split; reflexivity). destruct A3.
Qed.

(* A text that is a decimal number, signed or not, asks for that number. *)
Theorem C14_number : forall s z, number s = Some z -> asked (SStr s) = Some (clamp z).
Proof.
  intros [|c r] z H; [discriminate|]. unfold asked. cbn [number] in H.
  assert (W : (((48 <=? N_of_ascii c) && (N_of_ascii c <=? 57))%N || Ascii.eqb c "-" || Ascii.eqb c "+") = true).
  { destruct (Ascii.eqb c "-"); [now rewrite orb_true_r|]. destruct (Ascii.eqb c "+"); [now rewrite orb_true_r|].
    cbn [digits digits_from] in H. destruct ((48 <=? N_of_ascii c) && (N_of_ascii c <=? 57))%N; [reflexivity|discriminate]. }
  apply (not_word c r) in W as [-> ->]. f_equal. rewrite atoi_reading.
  destruct (Ascii.eqb c "-"); [|destruct (Ascii.eqb c "+")].
  - destruct (digits r) as [n|] eqn:D; [|discriminate]. injection H as <-. exact (reading_number true r n D).
  - destruct (digits r) as [n|] eqn:D; [|discriminate]. injection H as <-. exact (reading_number false r n D).
  - destruct (digits (String c r)) as [n|] eqn:D; [|discriminate]. injection H as <-. exact (reading_number false _ n D).
Qed.
(* Any other text except the four words asks for nothing; but when it begins like a huge
   number it asks for the greatest strength, whatever follows. *)
Theorem C14_not_number : forall s, number s = None -> ~ In (lc s) ["full"; "max"; "none"; "off"] ->
  (begins_huge s -> asked (SStr s) = Some 256%Z) /\ (~ begins_huge s -> asked (SStr s) = Some 0%Z).
Proof.
  intros s H W. unfold asked.
  assert (W1 : String.eqb (lc s) "full" || String.eqb (lc s) "max" = false)
    by (apply orb_false_iff; split; apply String.eqb_neq; intros E; apply W; rewrite E; cbn; tauto).
  assert (W2 : String.eqb (lc s) "none" || String.eqb (lc s) "off" = false)
    by (apply orb_false_iff; split; apply String.eqb_neq; intros E; apply W; rewrite E; cbn; tauto).
  rewrite W1, W2. clear W W1 W2. destruct s as [|c r].
  { split; [|reflexivity]. intros (sg & d & r & n & S & E & D & _). destruct S as [<-|[<-|[]]]; destruct d; discriminate. }
  cbn [number] in H. rewrite atoi_reading.
  assert (P : forall body, digits body = None -> 
    ((exists d t n, body = d ++ t /\ digits d = Some n /\ (2 ^ 64 <= n)%N) /\ parse_uint body = PUrange) \/
    (~ (exists d t n, body = d ++ t /\ digits d = Some n /\ (2 ^ 64 <= n)%N) /\ parse_uint body = PUsyntax)).
  { intros body D. assert (U := uint_digits body). destruct (parse_uint body) as [| |m].
    - right. split; [|reflexivity]. intros (d & t & n & E & F & M). destruct U as [_ U]. specialize (U d t n E F). unfold uint64_max in U. change (2 ^ 64)%N with 18446744073709551616%N in M. lia.
    - left. split; [|reflexivity]. destruct U as (d & t & n & E & F & M). exists d, t, n. repeat split; [exact E|exact F|]. unfold uint64_max in M. change (2 ^ 64)%N with 18446744073709551616%N. lia.
    - rewrite D in U. now destruct U. }
  assert (Dig : forall d e t n, digits (String e d) = Some n -> String e t = String c r -> ((48 <=? N_of_ascii c) && (N_of_ascii c <=? 57))%N = true).
  { intros d e t n D [= -> _]. cbn [digits digits_from] in D. now destruct ((48 <=? N_of_ascii c) && (N_of_ascii c <=? 57))%N. }
  destruct (Ascii.eqb_spec c "-") as [->|N1]; [|destruct (Ascii.eqb_spec c "+") as [->|N2]].
  - assert (B : ~ begins_huge (String "-" r)).
    { intros (sg & d & t & n & S & E & D & _). destruct S as [<-|[<-|[]]]; [|discriminate E]. destruct d as [|e d]; [discriminate|].
      assert (X := Dig d e (d ++ t) n D (eq_sym E)). discriminate X. }
    split; [easy|]. intros _. destruct (digits r) eqn:D; [discriminate|]. destruct (P r D) as [[_ ->]|[_ ->]]; reflexivity.
  - destruct (digits r) eqn:D; [discriminate|]. destruct (P r D) as [[X ->]|[X ->]].
    + split; [intros _; reflexivity|]. intros B. destruct B. destruct X as (d & t & n & -> & X). exists "+", d, t, n. cbn. tauto.
    + split; [|reflexivity]. intros (sg & d & t & n & S & E & F & M). destruct X. exists d, t, n. destruct S as [<-|[<-|[]]].
      * destruct d as [|e d]; [discriminate|]. assert (X := Dig d e (d ++ t) n F (eq_sym E)). discriminate X.
      * injection E as E. now repeat split.
  - destruct (digits (String c r)) eqn:D; [discriminate|]. destruct (P (String c r) D) as [[X ->]|[X ->]].
    + split; [intros _; reflexivity|]. intros B. destruct B. destruct X as (d & t & n & E & X). exists "", d, t, n. cbn. tauto.
    + split; [|reflexivity]. intros (sg & d & t & n & S & E & F & M). destruct X. exists d, t, n. destruct S as [<-|[<-|[]]]; [now repeat split|].
      injection E as -> E. easy.
Qed.
Example C14_number_witness :
  number "+0300" = Some 300%Z /\ number "-5" = Some (-5)%Z /\ number "00099999999999999999999999" = Some 99999999999999999999999%Z /\
  number "12a" = None /\ number "99999999999999999999 or so" = None /\ begins_huge "99999999999999999999 or so" /\
  ssf_string (SSF [SStr "99999999999999999999 or so"]) = "256" /\ ssf_string (SSF [SStr "12a"]) = "0".
Proof.
  repeat split; try reflexivity. exists "", "99999999999999999999", " or so", 99999999999999999999%N. repeat split; [now left|]. vm_compute. discriminate.
Qed.
Print Assumptions C14_number.
Print Assumptions C14_not_number.

(* ---- Unicode ---- *)
Lemma ascii_inj a b : (a < 256)%N -> (b < 256)%N -> ascii_of_N a = ascii_of_N b -> a = b.
Proof. intros A B E. apply (f_equal N_of_ascii) in E. now rewrite !N_ascii_embedding in E. Qed.
Lemma string_inj c d a b : String c a = String d b -> c = d /\ a = b.
Proof. intros E. now inversion E. Qed.
Lemma parts u : (u = 64 * (u / 64) + u mod 64 /\ u mod 64 < 64 /\
  u / 64 = 64 * (u / 4096) + u / 64 mod 64 /\ u / 64 mod 64 < 64 /\
  u / 4096 = 64 * (u / 262144) + u / 4096 mod 64 /\ u / 4096 mod 64 < 64)%N.
Proof.
  change 4096%N with (64 * 64)%N. change 262144%N with (64 * 64 * 64)%N. rewrite <- !N.div_div by discriminate.
  repeat split; try (apply N.div_mod; discriminate); apply N.mod_lt; discriminate.
Qed.
Ltac bytes_eq :=
  repeat match goal with
  | H : String _ _ = String _ _ |- _ => apply string_inj in H as [? H]
  | H : ascii_of_N ?a = ascii_of_N ?b |- _ => apply ascii_inj in H; [|lia|lia]
  end.
Ltac utf8_cases u := unfold utf8, byte; generalize dependent (u mod 64)%N; generalize dependent (u / 64 mod 64)%N;
  generalize dependent (u / 4096 mod 64)%N; generalize dependent (u / 262144)%N; generalize dependent (u / 4096)%N; generalize dependent (u / 64)%N; intros; destruct (N.ltb_spec u 128); [|destruct (N.ltb_spec u 2048); [|destruct (N.ltb_spec u 65536)]].
(* no character begins or ends like another one *)
Lemma utf8_front u v r t : scalar u -> scalar v -> utf8 u ++ r = utf8 v ++ t -> u = v.
Proof.
  unfold scalar. intros U V. assert (A := parts u). assert (B := parts v). utf8_cases u; utf8_cases v; cbn [append] in *; bytes_eq; lia.
Qed.
Lemma utf8_back u v r t : scalar u -> scalar v -> r ++ utf8 u = t ++ utf8 v -> u = v.
Proof.
  unfold scalar. intros U V E. assert (A := parts u). assert (B := parts v). apply (f_equal srev) in E. rewrite !srev_append in E. revert E.
  utf8_cases u; utf8_cases v; cbn [append srev srev_app] in *; bytes_eq; lia.
Qed.
Definition whites : list N :=
  [9; 10; 11; 12; 13; 32; 133; 160; 5760; 8192; 8193; 8194; 8195; 8196; 8197; 8198; 8199; 8200; 8201; 8202; 8232; 8233; 8239; 8287; 12288]%N.
Lemma whites_seqs : space_seqs = map utf8 whites.
Proof. reflexivity. Qed.
Lemma whites_in u : In u whites <-> white_space u = true.
Proof.
  unfold white_space, whites. cbn [existsb fst snd In]. rewrite !orb_true_iff, !andb_true_iff, !N.leb_le. split; lia.
Qed.
Lemma whites_scalar u : In u whites -> scalar u.
Proof. intros H. assert (F : Forall (fun u => (u < 55296)%N) whites) by (repeat constructor). rewrite Forall_forall in F. left. now apply F. Qed.
Lemma first_match_iff seqs s : match first_match seqs s with
  | Some n => exists q, In q seqs /\ n = String.length q /\ has_prefix q s = true
  | None => forall q, In q seqs -> has_prefix q s = false end.
Proof.
  induction seqs as [|q seqs IH]; cbn [first_match]; [easy|]. destruct (has_prefix q s) eqn:E; [exists q; cbn; tauto|].
  destruct (first_match seqs s) as [n|].
  - destruct IH as (q' & I & L & P). exists q'. cbn. tauto.
  - intros q' [<-|I]; [exact E|now apply IH].
Qed.
Lemma front_match u r : scalar u -> first_match space_seqs (utf8 u ++ r) = if white_space u then Some (String.length (utf8 u)) else None.
Proof.
  intros U. assert (M := first_match_iff space_seqs (utf8 u ++ r)). destruct (first_match space_seqs (utf8 u ++ r)) as [n|].
  - destruct M as (q & I & -> & P). rewrite whites_seqs in I. apply in_map_iff in I as (v & <- & V).
    apply has_prefix_spec in P as [t E]. apply utf8_front in E as <-; [|exact U|now apply whites_scalar]. now rewrite (proj1 (whites_in u) V).
  - destruct (white_space u) eqn:W; [|reflexivity]. apply whites_in in W. specialize (M (utf8 u)). rewrite has_prefix_app in M.
    discriminate M. rewrite whites_seqs. now apply in_map.
Qed.
Lemma back_match u r : scalar u -> first_match (map srev space_seqs) (srev (utf8 u) ++ r) = if white_space u then Some (String.length (utf8 u)) else None.
Proof.
  intros U. assert (M := first_match_iff (map srev space_seqs) (srev (utf8 u) ++ r)). destruct (first_match (map srev space_seqs) (srev (utf8 u) ++ r)) as [n|].
  - destruct M as (q & I & -> & P). apply in_map_iff in I as (p & <- & I). rewrite whites_seqs in I. apply in_map_iff in I as (v & <- & V).
    apply has_prefix_spec in P as [t E]. apply (f_equal srev) in E. rewrite !srev_append, !srev_involutive in E.
    apply utf8_back in E as <-; [|exact U|now apply whites_scalar]. now rewrite (proj1 (whites_in u) V), srev_length.
  - destruct (white_space u) eqn:W; [|reflexivity]. apply whites_in in W. specialize (M (srev (utf8 u))). rewrite has_prefix_app in M.
    discriminate M. apply in_map. rewrite whites_seqs. now apply in_map.
Qed.
Lemma trim_skip seqs p s : trim_left_aux seqs (String.length p) (p ++ s) = trim_left_aux seqs 0 s.
Proof. induction p as [|c p IH]; [reflexivity|]. cbn [String.length append trim_left_aux]. exact IH. Qed.
Lemma trim_step seqs p s : p <> "" -> first_match seqs (p ++ s) = Some (String.length p) -> trim_left seqs (p ++ s) = trim_left seqs s.
Proof.
  intros N F. destruct p as [|c p]; [easy|]. unfold trim_left. cbn [append] in *. cbn [trim_left_aux]. rewrite F. cbn [String.length pred]. apply trim_skip.
Qed.
Lemma trim_stop seqs s : first_match seqs s = None -> trim_left seqs s = s.
Proof. destruct s as [|c s]; [reflexivity|]. intros F. unfold trim_left. cbn [trim_left_aux]. now rewrite F. Qed.
Lemma utf8_nonempty u : utf8 u <> "".
Proof. intros E. revert E. unfold utf8, byte. destruct (u <? 128)%N, (u <? 2048)%N, (u <? 65536)%N; discriminate. Qed.
Lemma utf8_text_cons u l : utf8_text (u :: l) = utf8 u ++ utf8_text l.
Proof. unfold utf8_text. cbn [map]. destruct l; cbn [map String.concat]; [now rewrite app_nil_r'|reflexivity]. Qed.
Lemma utf8_text_app a b : utf8_text (a ++ b)%list = utf8_text a ++ utf8_text b.
Proof. induction a as [|u a IH]; [reflexivity|]. cbn [app]. now rewrite !utf8_text_cons, IH, app_assoc'. Qed.
Lemma trim_front l : Forall scalar l -> trim_left space_seqs (utf8_text l) = utf8_text (strip_front l).
Proof.
  induction 1 as [|u l U _ IH]; [reflexivity|]. cbn [strip_front]. rewrite utf8_text_cons. assert (M := front_match u (utf8_text l) U).
  destruct (white_space u).
  - rewrite trim_step; [exact IH|apply utf8_nonempty|exact M].
  - now rewrite trim_stop, utf8_text_cons.
Qed.
Lemma srev_nonempty s : s <> "" -> srev s <> "".
Proof. intros N E. apply N. rewrite <- (srev_involutive s), E. reflexivity. Qed.
Lemma trim_back l : Forall scalar l -> trim_left (map srev space_seqs) (srev (utf8_text (rev l))) = srev (utf8_text (rev (strip_front l))).
Proof.
  induction 1 as [|u l U _ IH]; [reflexivity|]. cbn [strip_front rev].
  assert (E : srev (utf8_text (rev l ++ [u])%list) = srev (utf8 u) ++ srev (utf8_text (rev l)))
    by now rewrite utf8_text_app, srev_append, utf8_text_cons, app_nil_r'.
  rewrite E. assert (M := back_match u (srev (utf8_text (rev l))) U). destruct (white_space u).
  - rewrite trim_step; [exact IH|apply srev_nonempty, utf8_nonempty|now rewrite srev_length].
  - rewrite trim_stop by exact M. cbn [rev]. now rewrite E.
Qed.
Lemma strip_front_forall (P : N -> Prop) l : Forall P l -> Forall P (strip_front l).
Proof. induction 1 as [|u l U F IH]; [constructor|]. cbn [strip_front]. destruct (white_space u); [exact IH|now constructor]. Qed.
(* Trimming takes exactly the characters with the property White_Space off both ends. *)
Theorem C43_unicode_trim : forall l, (forall u, In u l -> scalar u) -> trim_space (utf8_text l) = utf8_text (strip l).
Proof.
  intros l H. apply Forall_forall in H. unfold trim_space, strip. rewrite trim_front by exact H.
  rewrite <- (rev_involutive (strip_front l)) at 1. rewrite trim_back.
  - apply srev_involutive.
  - apply Forall_rev. now apply strip_front_forall.
Qed.
Print Assumptions C43_unicode_trim.
Example C43_unicode_witness :
  (forall u, In u [8232; 233; 128512; 32; 97; 12288; 9]%N -> scalar u) /\ strip [8232; 233; 128512; 32; 97; 12288; 9]%N = [233; 128512; 32; 97]%N /\
  trim_space (utf8_text [8232; 233; 128512; 32; 97; 12288; 9]%N) = utf8_text [233; 128512; 32; 97]%N.
Proof.
  split; [|split; vm_compute; reflexivity]. intros u H. unfold scalar. cbn [In] in H. lia.
Qed.
