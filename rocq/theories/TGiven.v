(* C145: blanks and quotation marks around a value are no part of it. *)
From Coq Require Import String Ascii List PeanoNat NArith Bool Permutation Lia.
From Verif Require Import GoStr GoStrFacts MMisc SMisc PMisc PAttr MTime MSec STime SSec SGiven TTime TSec.
Import ListNotations.
Open Scope string_scope.

Lemma mark_quote c : In (String c "") marks <-> is_quote c = true.
Proof.
  unfold marks, is_quote. split.
  - intros [H|[H|[H|[H|[]]]]]; try discriminate H; injection H as <-; reflexivity.
  - rewrite !orb_true_iff, !Ascii.eqb_eq. intros [[-> | ->]| ->]; cbn; auto.
Qed.
Lemma mark_cases a : In a marks -> a = "" \/ exists c, a = String c "" /\ is_quote c = true.
Proof. intros [<-|[<-|[<-|[<-|[]]]]]; [now left| | |]; right; eexists; split; reflexivity. Qed.
Lemma quote_solid' c : is_quote c = true -> white c = false /\ blank c = false /\ ascii_byte c = true.
Proof. unfold is_quote. rewrite !orb_true_iff, !Ascii.eqb_eq. intros [[-> | ->]| ->]; repeat split. Qed.

(* ---- white space ---- *)
Lemma dropw_app l x : all_bytes white l = true -> dropw (l ++ x) = dropw x.
Proof. induction l as [|c l IH]; [easy|]. cbn [all_bytes append dropw]. intros H. apply andb_true_iff in H as [-> H]. now apply IH. Qed.
Lemma trim_mid l x r : is_ascii (l ++ x ++ r) = true -> all_bytes white l = true -> all_bytes white r = true -> tidy x -> trim_space (l ++ x ++ r) = x.
Proof.
  intros A L R [T1 T2]. rewrite trim_ascii by exact A. rewrite (dropw_app l) by exact L. destruct x as [|c x].
  - cbn [append]. assert (D : dropw r = "") by (clear - R; induction r as [|c r IH]; [easy|]; cbn [all_bytes] in R; apply andb_true_iff in R as [C R]; cbn [dropw]; rewrite C; auto).
    now rewrite D.
  - rewrite (dropw_id (String c x ++ r)) by (intros d D; apply (T1 d); exact D). rewrite srev_append, dropw_app by now rewrite all_bytes_srev.
    rewrite dropw_id; [apply srev_involutive|]. rewrite <- last_first. exact T2.
Qed.
Lemma trim_around v : is_ascii v = true -> exists l r, v = l ++ trim_space v ++ r /\ all_bytes white l = true /\ all_bytes white r = true.
Proof.
  intros A. rewrite trim_ascii by exact A. destruct (dropw_suffix v) as (l & E & L). destruct (dropw_suffix (srev (dropw v))) as (r & F & R).
  exists l, (srev r). split; [|split; [exact L|now rewrite all_bytes_srev]].
  rewrite E at 1. f_equal. rewrite <- (srev_involutive (dropw v)) at 1. rewrite F at 1. apply srev_append.
Qed.
Lemma condense_iff v w : is_ascii v = true ->
  condenseWHSP v = w <-> join " " (words w) = w /\ tidy w /\ spread v w.
Proof.
  intros A. rewrite condense_words by exact A. split.
  - intros <-. rewrite (words_join _ (words_ok _)). split; [reflexivity|]. split; [apply words_tidy, trim_tidy, A|].
    destruct (trim_around v A) as (l & r & E & L & R). exists l, (trim_space v), r. split; [exact E|]. split; [exact L|]. split; [exact R|].
    destruct (trim_tidy v A) as [T1 T2]. split; [exact T1|]. split; [exact T2|]. now rewrite (words_join _ (words_ok _)).
  - intros (J & _ & l & x & r & -> & L & R & T1 & T2 & W). rewrite trim_mid; [now rewrite W|exact A|exact L|exact R|now split].
Qed.

(* ---- marks do not disturb the words ---- *)
Lemma words_push q c s : blank q = false -> blank c = false -> join " " (words (String q (String c s))) = String q (join " " (words (String c s))).
Proof.
  intros Q C. rewrite (words_solid q) by exact Q. rewrite C. assert (N := words_nonempty (String c s) C). destruct (words (String c s)) as [|w ws]; [easy|]. now destruct ws.
Qed.
Lemma words_add q : blank q = false -> forall s, (forall c, last_byte s = Some c -> blank c = false) -> s <> "" ->
  join " " (words (s ++ String q "")) = join " " (words s) ++ String q "".
Proof.
  intros Q. induction s as [|c s IH]; [easy|]. intros H _. cbn [append]. destruct s as [|d s].
  - cbn [append]. assert (C := H c eq_refl). rewrite words_push by assumption. rewrite (words_solid q), (words_solid c) by assumption. reflexivity.
  - assert (H' : forall e, last_byte (String d s) = Some e -> blank e = false) by (intros e E; apply H; exact E).
    specialize (IH H' ltac:(discriminate)). cbn [append] in IH. cbn [append]. destruct (blank c) eqn:C; [rewrite !(words_blank c) by exact C; exact IH|].
    destruct (blank d) eqn:D.
    + rewrite (words_solid c (String d (s ++ String q ""))), (words_solid c (String d s)) by exact C. rewrite D.
      assert (N : words (String d s) <> []).
      { clear - H' D. revert d D H'. induction s as [|e s IH]; intros d D H; [specialize (H d eq_refl); congruence|].
        rewrite words_blank by exact D. destruct (blank e) eqn:E; [apply IH; [exact E|intros c X; apply H; exact X]|apply words_nonempty; exact E]. }
      assert (N' : words (String d (s ++ String q "")) <> []) by (intros X; rewrite X in IH; destruct (join " " (words (String d s))); discriminate IH).
      destruct (words (String d s)) as [|w ws]; [easy|]. destruct (words (String d (s ++ String q ""))) as [|w' ws']; [easy|].
      rewrite !join_cons, IH. now rewrite !app_assoc'.
    + rewrite !words_push by assumption. cbn [append]. now rewrite IH.
Qed.
Lemma join_marks a b t : In a marks -> In b marks -> t <> "" ->
  (forall c, first_byte t = Some c -> blank c = false) -> (forall c, last_byte t = Some c -> blank c = false) ->
  join " " (words (a ++ t ++ b)) = a ++ join " " (words t) ++ b.
Proof.
  intros Ma Mb N F L.
  assert (X : join " " (words (t ++ b)) = join " " (words t) ++ b).
  { destruct (mark_cases b Mb) as [-> |(q & -> & Q)]; [now rewrite !app_nil_r'|]. apply words_add; [apply (quote_solid' q Q)|exact L|exact N]. }
  destruct (mark_cases a Ma) as [-> |(q & -> & Q)]; [exact X|]. destruct t as [|c t]; [easy|].
  cbn [append]. rewrite words_push; [|apply (quote_solid' q Q)|now apply F]. f_equal. exact X.
Qed.
Lemma unquote_marks u : exists a b, In a marks /\ In b marks /\ u = a ++ unquote u ++ b /\ (a = "" /\ b = "" \/ (3 <= String.length u)%nat).
Proof.
  unfold unquote. destruct (Nat.leb_spec (String.length u) 2) as [H|H].
  - exists "", "". cbn. rewrite app_nil_r'. repeat split; auto.
  - assert (K : forall s, exists b, In b marks /\ s = (match last_byte s with Some c => if is_quote c then drop_last s else s | None => s end) ++ b).
    { intros s. destruct (last_byte s) as [c|] eqn:E; [|exists ""; rewrite app_nil_r'; cbn; auto]. destruct (is_quote c) eqn:Q; [|exists ""; rewrite app_nil_r'; cbn; auto].
      exists (String c ""). split; [now apply mark_quote|]. apply last_split in E as [r ->].
      clear. induction r as [|d r IH]; [reflexivity|]. cbn [append]. destruct (r ++ String c "") as [|e z] eqn:Z; [destruct r; discriminate|].
      change (drop_last (String d (String e z))) with (String d (drop_last (String e z))). cbn [append]. f_equal. exact IH. }
    cbv zeta. destruct u as [|c r]; [cbn in H; lia|]. destruct (is_quote c) eqn:Q.
    + destruct (K r) as (b & B & E). exists (String c ""), b. split; [now apply mark_quote|]. split; [exact B|]. split; [cbn [append]; f_equal; exact E|right; exact H].
    + destruct (K (String c r)) as (b & B & E). exists "", b. split; [cbn; auto|]. split; [exact B|]. split; [exact E|right; exact H].
Qed.
Lemma last_app_ne a t b : t <> "" -> last_byte (a ++ t ++ b) = match b with "" => last_byte t | _ => last_byte b end.
Proof.
  intros N. destruct t as [|c t]; [easy|]. cbn [append]. rewrite last_byte_app2. destruct b as [|d b]; [now rewrite app_nil_r'|].
  change (String c (t ++ String d b)) with (String c t ++ String d b). apply last_byte_app2.
Qed.
Lemma unquote_worn a t b : In a marks -> In b marks -> t <> "" ->
  (forall c, first_byte t = Some c -> is_quote c = false) -> (forall c, last_byte t = Some c -> is_quote c = false) ->
  (a = "" /\ b = "" \/ (3 <= String.length (a ++ t ++ b))%nat) -> unquote (a ++ t ++ b) = t.
Proof.
  intros Ma Mb N F L S. unfold unquote. destruct (Nat.leb_spec (String.length (a ++ t ++ b)) 2) as [H|H].
  { destruct S as [[-> ->]|S]; [now rewrite app_nil_r'|lia]. }
  assert (X : match last_byte (t ++ b) with Some c => if is_quote c then drop_last (t ++ b) else t ++ b | None => t ++ b end = t).
  { destruct (mark_cases b Mb) as [-> |(q & -> & Q)].
    - rewrite app_nil_r'. destruct (last_byte t) as [c|] eqn:E; [|reflexivity]. now rewrite (L c eq_refl).
    - rewrite last_byte_app, Q. clear. induction t as [|d t IH]; [reflexivity|]. cbn [append]. destruct (t ++ String q "") as [|e z] eqn:Z; [destruct t; discriminate|].
      change (drop_last (String d (String e z))) with (String d (drop_last (String e z))). now rewrite IH. }
  cbv zeta. destruct (mark_cases a Ma) as [-> |(q & -> & Q)].
  - cbn [append]. destruct t as [|c t]; [easy|]. cbn [append] in *. rewrite (F c eq_refl). exact X.
  - cbn [append]. rewrite Q. exact X.
Qed.

(* An ASCII text is read as the value t exactly if it is t with optional marks, white space
   around them and blanks between the words. *)
Theorem C145_read : forall v t, is_ascii v = true -> bare t -> (unquote (condenseWHSP v) = t <-> worn v t).
Proof.
  intros v t A (N & At & J & F & L).
  assert (F1 : forall c, first_byte t = Some c -> blank c = false) by (intros c C; apply nonwhite_nonblank, (F c C)).
  assert (L1 : forall c, last_byte t = Some c -> blank c = false) by (intros c C; apply nonwhite_nonblank, (L c C)).
  assert (F2 : forall c, first_byte t = Some c -> is_quote c = false).
  { intros c C. destruct (is_quote c) eqn:Q; [|reflexivity]. apply mark_quote in Q. now destruct (F c C). }
  assert (L2 : forall c, last_byte t = Some c -> is_quote c = false).
  { intros c C. destruct (is_quote c) eqn:Q; [|reflexivity]. apply mark_quote in Q. now destruct (L c C). }
  split.
  - intros E. destruct (unquote_marks (condenseWHSP v)) as (a & b & Ma & Mb & U & S). rewrite E in U. exists a, b. split; [exact Ma|]. split; [exact Mb|].
    split; [rewrite <- U; exact S|]. apply (condense_iff v (a ++ t ++ b) A). exact U.
  - intros (a & b & Ma & Mb & S & W). assert (C : condenseWHSP v = a ++ t ++ b).
    { apply (condense_iff v _ A). split; [rewrite join_marks by assumption; now rewrite J|]. split; [|exact W]. split.
      - destruct (mark_cases a Ma) as [-> |(q & -> & Q)].
        + destruct t as [|c t]; [easy|]. intros d D. cbn in D. injection D as <-. apply (F c eq_refl).
        + intros d D. cbn in D. injection D as <-. apply (quote_solid' q Q).
      - rewrite last_app_ne by exact N. destruct (mark_cases b Mb) as [-> |(q & -> & Q)].
        + intros d D. apply (L d D).
        + intros d D. cbn in D. injection D as <-. apply (quote_solid' q Q). }
    rewrite C. now apply unquote_worn.
Qed.

(* ---- the single valued keywords, from the raw text ---- *)
Definition plain_byte (c : ascii) : bool := ascii_byte c && negb (white c) && negb (is_quote c).
Lemma plain_bare t : t <> "" -> all_bytes plain_byte t = true -> bare t.
Proof.
  intros N H. assert (I : forall f, (forall c, plain_byte c = true -> f c = true) -> all_bytes f t = true) by (intros f X; eapply all_bytes_impl; [exact X|exact H]).
  assert (P : forall c, plain_byte c = true -> white c = false /\ ~ In (String c "") marks).
  { intros c C. unfold plain_byte in C. apply andb_true_iff in C as [C Q]. apply andb_true_iff in C as [_ W]. apply negb_true_iff in W, Q. split; [exact W|].
    rewrite mark_quote. congruence. }
  assert (Q : forall s c, all_bytes plain_byte s = true -> last_byte s = Some c -> plain_byte c = true).
  { intros s c X Y. apply last_split in Y as [r ->]. rewrite all_bytes_app in X. apply andb_true_iff in X as [_ X]. cbn in X. now rewrite andb_true_r in X. }
  split; [exact N|]. split; [apply I; intros c C; unfold plain_byte in C; now apply andb_true_iff in C as [C _]; apply andb_true_iff in C as [C _]|].
  split; [|split].
  - rewrite words_single; [reflexivity|exact N|]. apply I. intros c C. destruct (P c C) as [W _]. apply negb_true_iff. now apply nonwhite_nonblank.
  - intros c C. apply P. destruct t as [|d t]; [easy|]. injection C as <-. cbn in H. now apply andb_true_iff in H as [H _].
  - intros c C. apply P. now apply (Q t).
Qed.
Lemma clock_bare h m : clock h m -> bare (clock_text h m).
Proof.
  intros C. assert (B : forallb (fun h => forallb (fun m => all_bytes plain_byte (clock_text (N.of_nat h) (N.of_nat m)) && negb (String.eqb (clock_text (N.of_nat h) (N.of_nat m)) "")) (seq 0 60)) (seq 0 25) = true) by (vm_compute; reflexivity).
  rewrite forallb_forall in B. specialize (B (N.to_nat h)). rewrite forallb_forall in B.
  assert (X : In (N.to_nat h) (seq 0 25)) by (apply in_seq; unfold clock in C; lia). assert (Y : In (N.to_nat m) (seq 0 60)) by (apply in_seq; unfold clock in C; lia).
  specialize (B X (N.to_nat m) Y). rewrite !N2Nat.id in B. apply andb_true_iff in B as [B1 B2]. apply negb_true_iff, String.eqb_neq in B2. now apply plain_bare.
Qed.
Lemma itoa_bare n : (n <= 256)%N -> bare (itoa n).
Proof.
  intros C. assert (B : forallb (fun h => all_bytes plain_byte (itoa (N.of_nat h)) && negb (String.eqb (itoa (N.of_nat h)) "")) (seq 0 257) = true) by (vm_compute; reflexivity).
  rewrite forallb_forall in B. specialize (B (N.to_nat n)).
  assert (X : In (N.to_nat n) (seq 0 257)) by (apply in_seq; lia).
  specialize (B X). rewrite !N2Nat.id in B. apply andb_true_iff in B as [B1 B2]. apply negb_true_iff, String.eqb_neq in B2. now apply plain_bare.
Qed.
(* timeofday *)
Theorem C145_clock : forall v, is_ascii v = true ->
  ((exists t, assertBindTimeOfDay [v] = Some t) <-> exists h m, clock h m /\ worn v (clock_text h m)).
Proof.
  intros v A. rewrite C11_accept. unfold is_clock. split; intros (h & m & C & E); exists h, m; (split; [exact C|]).
  - now apply C145_read; [|apply clock_bare|].
  - now apply C145_read; [|apply clock_bare|].
Qed.
(* ssf *)
Theorem C145_ssf : forall v, is_ascii v = true ->
  ((exists x, assertBindSSF [v] = Some x) <-> exists n, (n <= 256)%N /\ worn v (itoa n)).
Proof.
  intros v A. rewrite C14_accept. split; intros (n & C & E); exists n; (split; [exact C|]); now apply C145_read; [|apply itoa_bare|].
Qed.

(* names that are read without regard to case *)
Lemma map_last f s : last_byte (map_bytes f s) = option_map f (last_byte s).
Proof. induction s as [|c s IH]; [easy|]. destruct s; [easy|]. exact IH. Qed.
Lemma two_ascii a b x s : ascii_byte a = false -> is_ascii s = true -> two_to_one a b x s = s.
Proof.
  intros Ha. unfold is_ascii. induction s as [|c s IH]; [easy|]. cbn [all_bytes]. intros H. apply andb_true_iff in H as [C H]. cbn [two_to_one]. destruct s as [|d s]; [easy|].
  destruct (Ascii.eqb_spec c a) as [->|]; [congruence|]. cbn [andb]. now rewrite IH.
Qed.
Lemma three_ascii a b e x s : ascii_byte a = false -> is_ascii s = true -> three_to_one a b e x s = s.
Proof.
  intros Ha. unfold is_ascii. induction s as [|c s IH]; [easy|]. cbn [all_bytes]. intros H. apply andb_true_iff in H as [C H]. cbn [three_to_one].
  destruct s as [|d s]; [easy|]. specialize (IH H). destruct s as [|f s]; [now rewrite IH|].
  destruct (Ascii.eqb_spec c a) as [->|]; [congruence|]. cbn [andb]. now rewrite IH.
Qed.
Lemma fold_ascii s : is_ascii s = true -> fold_key s = map_bytes lower_byte s.
Proof. intros H. unfold fold_key. rewrite three_ascii, two_ascii by (reflexivity || exact H). reflexivity. Qed.
Lemma lc_of_ascii s : is_ascii s = true -> lc s = map_bytes lower_byte s.
Proof. intros H. unfold lc. rewrite three_ascii, two_ascii by (reflexivity || exact H). reflexivity. Qed.
Definition ends_ok (n : string) : bool :=
  match first_byte n, last_byte n with Some c, Some d => plain_byte c && plain_byte d | _, _ => false end.
Lemma lower_plain c : ascii_byte c = true -> plain_byte (lower_byte c) = plain_byte c.
Proof. destruct c as [[] [] [] [] [] [] [] []]; intros H; vm_compute in H; try discriminate H; reflexivity. Qed.
Lemma spelled_ends s n : is_ascii s = true -> map_bytes lower_byte s = n -> ends_ok n = true ->
  s <> "" /\ (forall c, first_byte s = Some c -> plain_byte c = true) /\ (forall c, last_byte s = Some c -> plain_byte c = true).
Proof.
  intros A <- E. unfold ends_ok in E. destruct s as [|c s]; [discriminate|]. split; [discriminate|].
  rewrite map_last in E. cbn [first_byte map_bytes] in E. destruct (last_byte (String c s)) as [d|] eqn:D; [|discriminate]. cbn [option_map] in E.
  apply andb_true_iff in E as [E1 E2]. split.
  - intros x X. injection X as <-. unfold is_ascii in A. cbn in A. apply andb_true_iff in A as [A _]. now rewrite <- (lower_plain c).
  - intros x X. injection X as <-. rewrite <- (lower_plain d); [exact E2|]. apply last_split in D as [r D]. rewrite D in A. unfold is_ascii in A.
    rewrite all_bytes_app in A. apply andb_true_iff in A as [_ A]. cbn in A. now rewrite andb_true_r in A.
Qed.
Lemma condense_ascii v : is_ascii v = true -> is_ascii (condenseWHSP v) = true.
Proof. intros A. rewrite condense_words by exact A. now apply words_ascii, trim_is_ascii. Qed.
Lemma read_named v n : is_ascii v = true -> ends_ok n = true ->
  map_bytes lower_byte (unquote (condenseWHSP v)) = n <-> exists s, map_bytes lower_byte s = n /\ bare s /\ worn v s.
Proof.
  intros A O. split.
  - intros E. exists (unquote (condenseWHSP v)). split; [exact E|].
    destruct (unquote_marks (condenseWHSP v)) as (a & b & Ma & Mb & U & S). set (s := unquote (condenseWHSP v)) in *.
    assert (As : is_ascii s = true).
    { assert (X := condense_ascii v A). rewrite U in X. unfold is_ascii in *. rewrite !all_bytes_app in X. apply andb_true_iff in X as [_ X]. now apply andb_true_iff in X as [X _]. }
    destruct (spelled_ends s n As E O) as (N & F & L).
    assert (P : forall c, plain_byte c = true -> white c = false /\ ~ In (String c "") marks).
    { intros c C. unfold plain_byte in C. apply andb_true_iff in C as [C Q]. apply andb_true_iff in C as [_ W]. apply negb_true_iff in W, Q. split; [exact W|].
      rewrite mark_quote. congruence. }
    assert (B : bare s).
    { split; [exact N|]. split; [exact As|]. split; [|split; intros c C; auto].
      destruct (proj1 (condense_iff v (a ++ s ++ b) A) U) as (J & _ & _). rewrite join_marks in J;
        [|exact Ma|exact Mb|exact N|intros c C; apply nonwhite_nonblank, (P c (F c C))|intros c C; apply nonwhite_nonblank, (P c (L c C))].
      apply app_inj_l in J. now apply app_inj_r in J. }
    split; [exact B|]. now apply C145_read.
  - intros (s & E & B & W). apply C145_read in W; [|exact A|exact B]. now rewrite W.
Qed.
(* authmethod: in any letter case *)
Theorem C145_auth : forall t low v m, Permutation t authNames -> is_ascii v = true ->
  (assertBindAuthenticationMethod t low [v] = Some (authm_const m) <->
   exists s, map_bytes lower_byte s = map_bytes lower_byte (authm_name m) /\ bare s /\ worn v s).
Proof.
  intros t low v m P A. rewrite (proj1 (C15_accept t low v P) m). rewrite <- read_named by (exact A || (destruct m; reflexivity)).
  unfold names_auth, eqfold. rewrite String.eqb_eq, (fold_ascii (authm_name m)) by now destruct m. rewrite fold_ascii; [reflexivity|].
  destruct (unquote_marks (condenseWHSP v)) as (a & b & _ & _ & U & _). assert (X := condense_ascii v A). rewrite U in X. unfold is_ascii in *. rewrite !all_bytes_app in X.
  apply andb_true_iff in X as [_ X]. now apply andb_true_iff in X as [X _].
Qed.
(* targetscope: in any letter case *)
Theorem C145_scope : forall v c, is_ascii v = true ->
  (assertTargetScope [v] = Some (scope_const c) <->
   exists s, In (map_bytes lower_byte s) (scope_names c) /\ bare s /\ worn v s).
Proof.
  intros v c A. rewrite (proj1 (C16_accept v) c). unfold names_scope.
  assert (X : is_ascii (unquote (condenseWHSP v)) = true).
  { destruct (unquote_marks (condenseWHSP v)) as (a & b & _ & _ & U & _). assert (X := condense_ascii v A). rewrite U in X. unfold is_ascii in *. rewrite !all_bytes_app in X.
    apply andb_true_iff in X as [_ X]. now apply andb_true_iff in X as [X _]. }
  rewrite (lc_of_ascii _ X). split.
  - intros H. assert (O : ends_ok (map_bytes lower_byte (unquote (condenseWHSP v))) = true).
    { destruct c; cbn [scope_names In] in H; destruct H as [H|[H|[]]]; rewrite <- H; reflexivity. }
    destruct (proj1 (read_named v _ A O) eq_refl) as (s & E & B & W). exists s. rewrite E. auto.
  - intros (s & H & B & W). apply C145_read in W; [|exact A|exact B]. now rewrite W.
Qed.
Example C145_witness :
  worn ("  '2359"" " ++ String "010" "") "2359" /\ assertBindTimeOfDay ["  '2359"" " ++ String "010" ""] <> None /\
  bare "SASL EXTERNAL" /\ worn " sasl   external" "sasl external" /\ ~ worn "23 59" "2359".
Proof.
  split; [|split; [vm_compute; discriminate|]].
  { apply C145_read; [reflexivity|apply plain_bare; [discriminate|reflexivity]|vm_compute; reflexivity]. }
  assert (B : bare "SASL EXTERNAL" /\ bare "sasl external").
  { split; (split; [discriminate|split; [reflexivity|split; [reflexivity|]]]); split; intros c C; injection C as <-; (split; [reflexivity|]); rewrite mark_quote; discriminate. }
  split; [exact (proj1 B)|]. split.
  { apply C145_read; [reflexivity|exact (proj2 B)|vm_compute; reflexivity]. }
  intros W. apply C145_read in W; [vm_compute in W; discriminate W|reflexivity|apply plain_bare; [discriminate|reflexivity]].
Qed.
Print Assumptions C145_read.
Print Assumptions C145_clock.
Print Assumptions C145_ssf.
Print Assumptions C145_auth.
Print Assumptions C145_scope.
