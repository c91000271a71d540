(* C43, C123, C124: exactly which texts are read as they stand. *)
From Coq Require Import String Ascii List PeanoNat NArith ZArith Bool Lia Permutation.
From Verif Require Import GoStr GoStrFacts Shifty MMisc MLists MKw MSec MTime MAttr MLevels MNet MFilter MUri MRule MConv MMeth
  SMisc SKw SLists SSec STime SAttr SFilter SNet STree PRights PSec PNet PKw PMisc PLists PTime PAttr PFilter PRule PTree SAci PAci TMisc TLists TSec TTime TAttr TLevels TFilter TNet TTree TRule SRead TRead TBlank TMeth SBack TBack.
From Verif Require SUri TUri TTab.
Import ListNotations.
Open Scope string_scope.

(* ---- exactly the texts that are read as they stand ---- *)
Definition edge_byte (c : ascii) : bool := white c || Ascii.eqb c "133" || Ascii.eqb c "160".
Lemma chunk_front c r : first_match space_seqs (utf8_of_byte c ++ r) = if edge_byte c then Some (String.length (utf8_of_byte c)) else None.
Proof. destruct c as [[] [] [] [] [] [] [] []]; reflexivity. Qed.
Lemma chunk_back c r : first_match (map srev space_seqs) (srev (utf8_of_byte c) ++ r) = if edge_byte c then Some (String.length (utf8_of_byte c)) else None.
Proof. destruct c as [[] [] [] [] [] [] [] []]; reflexivity. Qed.
Lemma trim_skip' seqs p s : trim_left_aux seqs (String.length p) (p ++ s) = trim_left_aux seqs 0 s.
Proof. induction p as [|c p IH]; [reflexivity|]. cbn [String.length append trim_left_aux]. exact IH. Qed.
Lemma trim_step' seqs p s : p <> "" -> first_match seqs (p ++ s) = Some (String.length p) -> trim_left seqs (p ++ s) = trim_left seqs s.
Proof.
  intros N F. destruct p as [|c p]; [easy|]. unfold trim_left. cbn [append] in *. cbn [trim_left_aux]. rewrite F. cbn [String.length pred]. apply trim_skip'.
Qed.
Lemma trim_stop' seqs s : first_match seqs s = None -> trim_left seqs s = s.
Proof. destruct s as [|c s]; [reflexivity|]. intros F. unfold trim_left. cbn [trim_left_aux]. now rewrite F. Qed.
Lemma trim_front_chunks t : exists x u, t = x ++ u /\ all_bytes edge_byte x = true /\ trim_left space_seqs (reencode t) = reencode u.
Proof.
  induction t as [|c t (x & u & -> & X & E)]; [now exists "", ""|]. rewrite reencode_cons. assert (F := chunk_front c (reencode (x ++ u))).
  destruct (edge_byte c) eqn:B.
  - exists (String c x), u. split; [reflexivity|]. split; [cbn; now rewrite B|]. rewrite trim_step'; [exact E|apply utf8_nonempty|exact F].
  - exists "", (String c (x ++ u)). split; [reflexivity|]. split; [reflexivity|]. rewrite trim_stop' by exact F. now rewrite reencode_cons.
Qed.
Lemma srev_ne s : s <> "" -> srev s <> "".
Proof. intros N E. apply N. rewrite <- (srev_involutive s), E. reflexivity. Qed.
Lemma trim_back_chunks n : forall t, String.length t = n -> exists u y, t = u ++ y /\ all_bytes edge_byte y = true /\ srev (trim_left (map srev space_seqs) (srev (reencode t))) = reencode u.
Proof.
  induction n as [|n IH]; intros t L.
  - apply length0 in L as ->. now exists "", "".
  - destruct (split_last t) as (v & c & ->); [intros ->; discriminate|]. rewrite length_app in L. cbn in L.
    destruct (IH v) as (u & y & -> & Y & E); [lia|]. rewrite reencode_app, srev_append.
    assert (R : reencode (String c "") = utf8_of_byte c) by (rewrite reencode_cons; apply app_nil_r'). rewrite R.
    assert (F := chunk_back c (srev (reencode (u ++ y)))). destruct (edge_byte c) eqn:B.
    + exists u, (y ++ String c ""). split; [apply app_assoc'|]. split; [rewrite all_bytes_app, Y; cbn; now rewrite B|].
      rewrite trim_step'; [exact E|apply srev_ne, utf8_nonempty|now rewrite srev_length].
    + exists ((u ++ y) ++ String c ""), "". split; [symmetry; apply app_nil_r'|]. split; [reflexivity|]. rewrite trim_stop' by exact F.
      rewrite srev_append, !srev_involutive, (reencode_app (u ++ y) (String c "")), R. reflexivity.
Qed.
Lemma trim_chunks t : exists x u y, t = x ++ u ++ y /\ all_bytes edge_byte x = true /\ all_bytes edge_byte y = true /\ trim_space (reencode t) = reencode u.
Proof.
  destruct (trim_front_chunks t) as (x & v & -> & X & E). destruct (trim_back_chunks _ v eq_refl) as (u & y & -> & Y & F).
  exists x, u, y. split; [reflexivity|]. split; [exact X|]. split; [exact Y|]. unfold trim_space. now rewrite E.
Qed.
(* the bytes of an encoding that is the beginning of itself encoded again *)
Definition self_byte (c : ascii) : bool := Ascii.eqb c "195" || Ascii.eqb c "131" || Ascii.eqb c "194" || Ascii.eqb c "130".
Lemma self_encoded c : self_byte c = true -> all_bytes self_byte (utf8_of_byte c) = true.
Proof. destruct c as [[] [] [] [] [] [] [] []]; intros H; vm_compute in H; try discriminate H; reflexivity. Qed.
Lemma str_inj c d a b : String c a = String d b -> c = d /\ a = b.
Proof. intros E. now inversion E. Qed.
Lemma self_run r : forall q b, q <> "" -> all_bytes self_byte q = true -> q ++ reencode r = r ++ b -> all_bytes self_byte b = true.
Proof.
  induction r as [|c r IH]; intros q b N Q E.
  - cbn [reencode append] in E. rewrite app_nil_r' in E. now subst.
  - destruct q as [|d q]; [easy|]. cbn [append] in E. apply str_inj in E as [-> E]. cbn [all_bytes] in Q. apply andb_true_iff in Q as [C Q].
    rewrite reencode_cons, <- app_assoc' in E. apply (IH (q ++ utf8_of_byte c) b); [|now rewrite all_bytes_app, Q, (self_encoded c C)|exact E].
    intros X. apply (utf8_nonempty c). destruct q; [exact X|discriminate].
Qed.
Lemma self_tail u : forall y, all_bytes edge_byte y = true -> u ++ y = reencode u -> y = "".
Proof.
  induction u as [|c u IH]; intros y Y E; [exact E|]. rewrite reencode_cons in E. cbn [append] in E.
  destruct (ascii_byte c) eqn:A.
  - unfold utf8_of_byte in E. rewrite A in E. cbn [append] in E. apply str_inj in E as [_ E]. now apply IH.
  - assert (S : exists d q, utf8_of_byte c = String d q /\ q <> "" /\ (d = c -> all_bytes self_byte q = true)).
    { clear - A. destruct c as [[] [] [] [] [] [] [] []]; vm_compute in A; try discriminate A; eexists _, _; (split; [reflexivity|]); (split; [discriminate|]); try discriminate; reflexivity. }
    destruct S as (d & q & S & N & H). rewrite S in E. cbn [append] in E. apply str_inj in E as [<- E]. specialize (H eq_refl).
    assert (B := self_run u q y N H (eq_sym E)). destruct y as [|e y]; [reflexivity|]. cbn [all_bytes] in B, Y. apply andb_true_iff in B as [B _]. apply andb_true_iff in Y as [Y _].
    exfalso. revert B Y. destruct e as [[] [] [] [] [] [] [] []]; intros B Y; vm_compute in B, Y; discriminate.
Qed.

Lemma reencode_join ws : reencode (join " " ws) = join " " (map reencode ws).
Proof. induction ws as [|w [|v ws] IH]; [reflexivity|reflexivity|]. cbn [map] in *. rewrite !join_cons, !reencode_app, IH. reflexivity. Qed.
Fixpoint count (f : ascii -> bool) (s : string) : nat := match s with EmptyString => O | String c r => if f c then S (count f r) else count f r end.
Lemma count_app f a b : count f (a ++ b) = (count f a + count f b)%nat.
Proof. induction a as [|c a IH]; [reflexivity|]. cbn [append count]. destruct (f c); rewrite IH; lia. Qed.
Lemma count_none f s : (forall c, In c (chars s) -> f c = false) -> count f s = O.
Proof. induction s as [|c s IH]; intros H; [reflexivity|]. cbn [count]. rewrite (H c (or_introl eq_refl)). apply IH. intros d I. apply H. now right. Qed.
(* bytes that trimming and encoding leave alone *)
Definition solid_set (f : ascii -> bool) : Prop := forall c, f c = true -> ascii_byte c = true /\ white c = false.
Lemma count_reencode f s : solid_set f -> count f (reencode s) = count f s.
Proof.
  intros F. induction s as [|c s IH]; [reflexivity|]. rewrite reencode_cons, count_app, IH. cbn [count].
  assert (H : count f (utf8_of_byte c) = if f c then 1%nat else 0%nat).
  { unfold utf8_of_byte. destruct (ascii_byte c) eqn:A; [cbn; now destruct (f c)|].
    assert (B : f c = false) by (destruct (f c) eqn:B; [destruct (F c B); congruence|reflexivity]). rewrite B.
    apply count_none. intros d D. destruct (f d) eqn:E; [|reflexivity]. apply F in E as [E _]. exfalso.
    revert D E A. destruct c as [[] [] [] [] [] [] [] []]; intros D E A; vm_compute in A; try discriminate A; destruct D as [<-|[<-|[]]]; discriminate E. }
  rewrite H. now destruct (f c).
Qed.
Lemma count_words f s : solid_set f -> count f (join " " (words s)) = count f s.
Proof.
  intros F. assert (FB : forall c, blank c = true -> f c = false).
  { intros c B. destruct (f c) eqn:E; [|reflexivity]. apply F in E as [_ E]. apply blank_white in B. congruence. }
  induction s as [|c r IH]; [reflexivity|]. destruct (blank c) eqn:B.
  - rewrite words_blank by exact B. cbn [count]. now rewrite (FB c B).
  - rewrite words_solid by exact B. destruct r as [|d r]; [reflexivity|]. destruct (blank d) eqn:D.
    + cbn [count] in *. destruct (words (String d r)) as [|w ws] eqn:W.
      * cbn [join count] in *. rewrite <- IH. now destruct (f c).
      * rewrite join_cons, count_app, count_app, IH. cbn [count]. rewrite (FB " "%char eq_refl). destruct (f c); reflexivity.
    + destruct (words (String d r)) as [|w ws] eqn:W; [now destruct (words_nonempty (String d r) D)|].
      assert (E : join " " (String c w :: ws) = String c (join " " (w :: ws))) by (destruct ws; reflexivity).
      rewrite E. cbn [count] in *. now rewrite IH.
Qed.
Lemma count_skip f seqs s : (forall q, In q seqs -> q <> "" /\ count f q = O) ->
  forall k, (forall c, In c (chars (stake k s)) -> f c = false) -> count f (trim_left_aux seqs k s) = count f s.
Proof.
  intros Q. induction s as [|c s IH]; intros k K; [reflexivity|]. destruct k as [|k]; cbn [trim_left_aux].
  - destruct (first_match seqs (String c s)) as [n|] eqn:M; [|reflexivity].
    assert (X : exists q, In q seqs /\ n = String.length q /\ has_prefix q (String c s) = true).
    { clear - M. induction seqs as [|x l IH]; [discriminate|]. cbn [first_match] in M. destruct (has_prefix x (String c s)) eqn:H.
      - injection M as <-. exists x. split; [now left|]. now split.
      - destruct (IH M) as (q & I & J). exists q. split; [now right|exact J]. }
    destruct X as (q & I & -> & H). destruct (Q q I) as [N Z]. apply has_prefix_spec in H as [z H]. destruct q as [|d q]; [easy|]. cbn [append] in H. apply str_inj in H as [-> ->].
    cbn [count] in Z |- *. destruct (f d) eqn:D; [discriminate|]. cbn [String.length pred]. apply IH. rewrite stake_app. intros e E.
    clear - Z E. revert E. induction q as [|x q IH]; [intros []|]. cbn [count] in Z. destruct (f x) eqn:X; [discriminate|]. intros [<-|E]; [exact X|now apply IH].
  - cbn [count]. rewrite (K c (or_introl eq_refl)). apply IH. intros d D. apply K. now right.
Qed.
Lemma count_srev f s : count f (srev s) = count f s.
Proof. induction s as [|c s IH]; [reflexivity|]. change (String c s) with (String c "" ++ s) at 1. rewrite srev_append, count_app, IH. cbn. destruct (f c); lia. Qed.
Lemma count_trim f s : solid_set f -> count f (trim_space s) = count f s.
Proof.
  intros F. unfold trim_space, trim_left. rewrite count_srev, count_skip, count_srev, count_skip; [reflexivity| |intros c []| |intros c []].
  - intros q Q. assert (H : forallb (fun q => negb (q =? "")%string && forallb (fun c => negb (ascii_byte c) || white c) (chars q)) space_seqs = true) by (vm_compute; reflexivity).
    rewrite forallb_forall in H. specialize (H q Q). apply andb_true_iff in H as [N H]. apply negb_true_iff, String.eqb_neq in N. split; [exact N|].
    apply count_none. intros c C. rewrite forallb_forall in H. specialize (H c C). destruct (f c) eqn:E; [|reflexivity]. apply F in E as [E1 E2]. rewrite E1, E2 in H. discriminate.
  - intros q Q. assert (H : forallb (fun q => negb (q =? "")%string && forallb (fun c => negb (ascii_byte c) || white c) (chars q)) (map srev space_seqs) = true) by (vm_compute; reflexivity).
    rewrite forallb_forall in H. specialize (H q Q). apply andb_true_iff in H as [N H]. apply negb_true_iff, String.eqb_neq in N. split; [exact N|].
    apply count_none. intros c C. rewrite forallb_forall in H. specialize (H c C). destruct (f c) eqn:E; [|reflexivity]. apply F in E as [E1 E2]. rewrite E1, E2 in H. discriminate.
Qed.
Lemma count_condense f s : solid_set f -> count f (condenseWHSP s) = count f s.
Proof.
  intros F. rewrite C43_exact, <- reencode_join, count_trim, count_reencode, count_words, count_trim by exact F. reflexivity.
Qed.
Lemma quotes_unquote s : unquote s = s \/ (count is_quote (unquote s) < count is_quote s)%nat.
Proof.
  unfold unquote. destruct (String.length s <=? 2)%nat; [now left|]. cbv zeta. destruct s as [|c r]; [now left|].
  assert (L : forall s, match last_byte s with Some c => if is_quote c then drop_last s else s | None => s end = s \/
     (count is_quote (match last_byte s with Some c => if is_quote c then drop_last s else s | None => s end) < count is_quote s)%nat).
  { intros u. destruct (last_byte u) as [d|] eqn:D; [|now left]. destruct (is_quote d) eqn:Q; [|now left]. right.
    apply last_split in D as [v ->]. rewrite drop_last_app, count_app. cbn [count]. rewrite Q. lia. }
  destruct (is_quote c) eqn:Q; [|apply L]. right. cbn [count]. rewrite Q. destruct (L r) as [-> |H]; lia.
Qed.
Lemma unquote_edges s : (3 <= String.length s)%nat -> unquote s = s ->
  (forall c, first_byte s = Some c -> is_quote c = false) /\ (forall c, last_byte s = Some c -> is_quote c = false).
Proof.
  intros L. unfold unquote. assert (E : (String.length s <=? 2)%nat = false) by (apply Nat.leb_gt; lia). rewrite E. cbv zeta. clear L E.
  assert (D : forall u, (String.length (match last_byte u with Some c => if is_quote c then drop_last u else u | None => u end) <= String.length u)%nat).
  { intros u. destruct (last_byte u) as [d|] eqn:D; [|lia]. destruct (is_quote d); [|lia]. apply last_split in D as [v ->]. rewrite drop_last_app, length_app. cbn. lia. }
  intros H. assert (F : forall c, first_byte s = Some c -> is_quote c = false).
  { intros c C. destruct s as [|x r]; [discriminate|]. injection C as ->. destruct (is_quote c); [|reflexivity]. specialize (D r). rewrite H in D. cbn in D. lia. }
  split; [exact F|]. intros c C. destruct s as [|x r]; [discriminate|]. rewrite (F x eq_refl), C in H. destruct (is_quote c); [|reflexivity].
  apply last_split in C as [v E]. rewrite E, drop_last_app in H. apply (f_equal String.length) in H. rewrite length_app in H. cbn in H. lia.
Qed.
Lemma join_words_id t : (forall c, In c (chars t) -> blank c = true -> c = " "%char) ->
  (forall a b c d, t = a ++ String c (String d b) -> blank c = true -> blank d = false) ->
  (forall c, first_byte t = Some c -> blank c = false) -> (forall c, last_byte t = Some c -> blank c = false) -> join " " (words t) = t.
Proof.
  assert (G : forall n t, (String.length t <= n)%nat -> (forall c, In c (chars t) -> blank c = true -> c = " "%char) ->
  (forall a b c d, t = a ++ String c (String d b) -> blank c = true -> blank d = false) ->
  (forall c, first_byte t = Some c -> blank c = false) -> (forall c, last_byte t = Some c -> blank c = false) -> join " " (words t) = t).
  { induction n as [|n IH]; clear t; intros t Ln S A F L.
    - destruct t; [reflexivity|cbn in Ln; lia].
    - destruct t as [|c r]; [reflexivity|]. assert (C := F c eq_refl). rewrite words_solid by exact C. destruct r as [|d r]; [reflexivity|]. cbn in Ln. destruct (blank d) eqn:D.
      + rewrite words_blank by exact D. assert (d = " "%char) as -> by (apply S; [right; now left|exact D]).
        destruct r as [|e r]; [specialize (L " "%char eq_refl); discriminate|].
        assert (X : join " " (words (String e r)) = String e r).
        { apply IH; [cbn in *; lia| | | |].
          - intros x I. apply S. right. now right.
          - intros a b x y E. apply (A (String c (String " " a)) b). rewrite E. reflexivity.
          - intros x [= <-]. apply (A (String c "") r " "%char e); reflexivity.
          - intros x E. apply L. exact E. }
        destruct (words (String e r)) as [|w ws] eqn:W; [discriminate|]. rewrite join_cons, X. reflexivity.
      + assert (X : join " " (words (String d r)) = String d r).
        { apply IH; [cbn; lia| | | |].
          - intros x I. apply S. now right.
          - intros a b x y E. apply (A (String c a) b). rewrite E. reflexivity.
          - intros x [= <-]. exact D.
          - intros x E. apply L. exact E. }
        destruct (words (String d r)) as [|w ws] eqn:W; [discriminate|]. rewrite <- X. destruct ws; reflexivity. }
  apply (G (String.length t) t (le_n _)).
Qed.
Lemma chars_reencode_ascii s c : In c (chars (reencode s)) -> ascii_byte c = true -> In c (chars s).
Proof.
  induction s as [|d s IH]; [intros []|]. rewrite reencode_cons, chars_app, in_app_iff. intros [I|I] A; [left|right; now apply IH].
  unfold utf8_of_byte in I. destruct (ascii_byte d) eqn:D; [destruct I as [<-|[]]; reflexivity|]. exfalso.
  revert I A D. destruct d as [[] [] [] [] [] [] [] []]; intros I A D; vm_compute in D; try discriminate D; destruct I as [<-|[<-|[]]]; discriminate A.
Qed.
Lemma trim_fix s : let t := trim_space s in trim_space t = t.
Proof.
  cbv zeta. unfold trim_space at 2 3. set (u := trim_left space_seqs s). set (v := trim_left (map srev space_seqs) (srev u)).
  assert (B : v = "" \/ first_match (map srev space_seqs) v = None) by apply trim_aux_stop.
  assert (A : u = "" \/ first_match space_seqs u = None) by apply trim_aux_stop.
  destruct B as [-> |B]; [reflexivity|]. destruct (trim_aux_suffix (map srev space_seqs) (srev u) O) as [p E]. fold (trim_left (map srev space_seqs) (srev u)) in E. fold v in E.
  apply (f_equal srev) in E. rewrite srev_involutive, srev_append in E. apply trim_id; [|now rewrite srev_involutive].
  destruct A as [A|A]; [rewrite A in E; destruct (srev v); [reflexivity|discriminate E]|].
  apply no_match. intros q Q. destruct (has_prefix q (srev v)) eqn:H; [|reflexivity]. exfalso. apply has_prefix_spec in H as [r H]. rewrite H, app_assoc' in E.
  assert (M := A). rewrite E in M. clear - M Q. induction space_seqs as [|x l IH]; [destruct Q|]. cbn [first_match] in M. destruct (has_prefix x (q ++ r ++ srev p)) eqn:X; [discriminate|].
  destruct Q as [<-|Q]; [rewrite has_prefix_app in X; discriminate|now apply IH].
Qed.
Lemma blank_ascii c : blank c = true -> ascii_byte c = true.
Proof. intros B. now apply white_ascii, blank_white. Qed.
Lemma condense_fix t : condenseWHSP t = t -> is_ascii t = true /\ join " " (words t) = t.
Proof.
  intros E. assert (X := C43_exact t). rewrite E in X. destruct (C43_no_redundant_blanks t) as (F & L & A). rewrite E in F, L, A.
  assert (T : trim_space t = t) by (rewrite X; apply trim_fix). rewrite T in X. rewrite <- reencode_join in X.
  set (j := join " " (words t)) in *. destruct (trim_chunks j) as (x & u & y & J & Xx & Yy & R). rewrite <- X in R.
  assert (W : j = t).
  { apply join_words_id.
    - intros c I B. rewrite R in I. apply chars_reencode_ascii in I; [|now apply blank_ascii].
      assert (I' : In c (chars j)) by (rewrite J, !chars_app, !in_app_iff; tauto).
      apply chars_in_join in I' as [[<-|[]]|(w & Wi & I')]; [reflexivity|]. assert (O := words_ok t). rewrite Forall_forall in O. specialize (O w Wi) as [_ O].
      rewrite all_bytes_chars in O. specialize (O c I'). rewrite B in O. discriminate.
    - exact A.
    - intros c C. now apply nonwhite_nonblank, F.
    - intros c C. now apply nonwhite_nonblank, L. }
  split; [|exact W]. rewrite W in J.
  assert (x = "") as ->.
  { destruct x as [|c x]; [reflexivity|]. exfalso. cbn [append all_bytes] in J, Xx. apply andb_true_iff in Xx as [C _].
    assert (Fc : white c = false) by (apply F; rewrite J; reflexivity). assert (H : first_byte (reencode u) = Some c) by (rewrite <- R, J; reflexivity).
    destruct u as [|d u]; [discriminate|]. rewrite reencode_cons in H. clear - H C Fc. unfold edge_byte in C. rewrite Fc in C. cbn [orb] in C.
    assert (D : forall e, first_byte (utf8_of_byte d ++ reencode u) = Some e -> (Ascii.eqb e "133" || Ascii.eqb e "160") = false)
      by (destruct d as [[] [] [] [] [] [] [] []]; intros e [= <-]; reflexivity).
    rewrite (D c H) in C. discriminate. }
  cbn [append] in J. rewrite R in J. apply eq_sym in J. assert (Y0 := self_tail u y Yy J). subst y. rewrite app_nil_r' in J. rewrite R. rewrite <- J. apply reencode_fix. now symmetry.
Qed.
Lemma quote_solid : solid_set is_quote.
Proof. intros c H. destruct c as [[] [] [] [] [] [] [] []]; vm_compute in H; try discriminate H; now split. Qed.
Lemma slash_solid : solid_set (Ascii.eqb "/").
Proof. intros c H. apply Ascii.eqb_eq in H as <-. now split. Qed.
(* C43: the texts condensing leaves as they are *)
Theorem C43_fixed : forall t, condenseWHSP t = t <-> kept t.
Proof.
  intros t. split; [|apply kept_condense]. intros E. destruct (condense_fix t E) as [A W]. destruct (C43_no_redundant_blanks t) as (F & L & _). rewrite E in F, L.
  now repeat split.
Qed.
Lemma settled_exact t : (3 <= String.length t)%nat -> (unquote (condenseWHSP t) = t <-> settled t).
Proof.
  intros L. split; [|apply settled_read]. intros E. assert (Q := count_condense is_quote t quote_solid).
  destruct (quotes_unquote (condenseWHSP t)) as [U|U]; [|rewrite E in U; lia]. rewrite E in U.
  destruct (proj1 (C43_fixed t) (eq_sym U)) as (A & W & F & La). rewrite <- U in E. destruct (unquote_edges t L E) as [Q1 Q2].
  split; [exact A|]. split; [exact W|]. split; intros c C; split; auto.
Qed.

(* ---- C124: search filters, for every text ---- *)
Theorem C124_filter_exact : forall en pad f, f <> "" ->
  (target_back en (sf_Eq pad (Some f)) <-> settled f /\ (3 <= String.length f)%nat) /\
  (target_back en (sf_Ne pad (Some f)) <-> settled f /\ (3 <= String.length f)%nat).
Proof.
  intros en pad f N. destruct (proj1 (C71_search_filter pad) f N) as [E1 E2].
  assert (C : cut (target_many TgFilter) [f]) by now exists f.
  assert (D : (settled f /\ (3 <= String.length f)%nat) \/ tnever en TgFilter [f]).
  { assert (R := fun c style (K : c_kw c = targetkw_name TgFilter) => C98_filter en c style [f] ltac:(rewrite K; apply same_kw)).
    destruct (Nat.le_gt_cases 3 (String.length (unquote (condenseWHSP f)))) as [L|L].
    - destruct (string_dec (unquote (condenseWHSP f)) f) as [U|U].
      + left. rewrite U in L. split; [now apply settled_exact|exact L].
      + right. intros c style K Z. right. exists (unquote (condenseWHSP f)). split; [exact U|]. now apply (proj1 (R c style K)).
    - right. intros c style K Z. left. apply (proj2 (R c style K)). now intros v [= <-]. }
  split; (split; [intros B; destruct D as [D|D]; [exact D|exfalso]|intros [S L]]).
  - exact (tlost en pad _ TgFilter REq [f] E1 C D B).
  - now apply (C124_filter en pad f S N).
  - exact (tlost en pad _ TgFilter RNe [f] E2 C D B).
  - now apply (C124_filter en pad f S N).
Qed.

(* ---- names, for every list of names without bars ---- *)
Lemma no_byte_count b s : no_byte b s = true <-> count (Ascii.eqb b) s = O.
Proof.
  induction s as [|c s IH]; [now split|]. cbn [count]. unfold no_byte in *. cbn [all_bytes]. rewrite (Ascii.eqb_sym b c). destruct (Ascii.eqb c b); cbn [negb andb]; [split; discriminate|exact IH].
Qed.
Lemma bar_solid b : ascii_byte b = true -> white b = false -> solid_set (Ascii.eqb b).
Proof. intros A B c H. now apply Ascii.eqb_eq in H as <-. Qed.
Lemma chop_count f s : (count f (chopDNPfx s) <= count f s)%nat.
Proof.
  unfold chopDNPfx. destruct (has_prefix LocalScheme s) eqn:P; [|lia]. apply has_prefix_spec in P as [r ->]. rewrite sdrop_app, count_app. lia.
Qed.
Lemma shown_count f v : solid_set f -> (count f (chopDNPfx (chopDNPfx (condenseWHSP v))) <= count f v)%nat.
Proof. intros F. rewrite <- (count_condense f v F). assert (A := chop_count f (chopDNPfx (condenseWHSP v))). assert (B := chop_count f (condenseWHSP v)). lia. Qed.
Lemma str_app_inj p a b : p ++ a = p ++ b -> a = b.
Proof. induction p as [|c p IH]; [easy|]. cbn [append]. intros E. apply str_inj in E as [_ E]. now apply IH. Qed.
Lemma scheme_kept t : chopDNPfx (chopDNPfx (condenseWHSP ("ldap:///" ++ t))) = t ->
  kept ("ldap:///" ++ t) /\ has_prefix "ldap:///" t = false /\ chopDNPfx (condenseWHSP ("ldap:///" ++ t)) = t.
Proof.
  intros E. set (X := "ldap:///" ++ t) in *. assert (Q := count_condense (Ascii.eqb "/") X slash_solid).
  assert (QX : count (Ascii.eqb "/") X = (3 + count (Ascii.eqb "/") t)%nat) by (unfold X; rewrite count_app; reflexivity).
  rewrite QX in Q. destruct (has_prefix "ldap:///" (condenseWHSP X)) eqn:P.
  - apply has_prefix_spec in P as [s P]. rewrite P in E, Q. change (chopDNPfx ("ldap:///" ++ s)) with (chopDNPfx (LocalScheme ++ s)) in E. rewrite chop_scheme in E.
    rewrite count_app in Q. change (count (Ascii.eqb "/") "ldap:///") with 3%nat in Q.
    destruct (has_prefix "ldap:///" s) eqn:P2.
    + apply has_prefix_spec in P2 as [u P2]. subst s. change (chopDNPfx ("ldap:///" ++ u)) with (chopDNPfx (LocalScheme ++ u)) in E. rewrite chop_scheme in E. subst u.
      rewrite count_app in Q. change (count (Ascii.eqb "/") "ldap:///") with 3%nat in Q. lia.
    + assert (F : chopDNPfx s = s) by (unfold chopDNPfx, LocalScheme; now rewrite P2). rewrite F in E. subst s. fold X in P. split; [now apply C43_fixed|]. split; [exact P2|].
      rewrite P. apply (chop_scheme t).
  - assert (F : chopDNPfx (condenseWHSP X) = condenseWHSP X) by (unfold chopDNPfx, LocalScheme; now rewrite P). rewrite !F in E. rewrite E in Q. lia.
Qed.
Lemma firsts_short {A} (f : A -> A -> bool) l : forall seen, (List.length (firsts_by f l seen) <= List.length l)%nat.
Proof. induction l as [|x l IH]; intros seen; [cbn; lia|]. cbn [firsts_by]. destruct (existsb _ seen); [specialize (IH seen)|specialize (IH (seen ++ [x])%list)]; cbn; lia. Qed.
Lemma firsts_full {A} (f : A -> A -> bool) l : forall seen, List.length (firsts_by f l seen) = List.length l ->
  firsts_by f l seen = l /\ distinct_by f l /\ forall x y, In x seen -> In y l -> f x y = false.
Proof.
  induction l as [|x l IH]; intros seen L.
  - split; [reflexivity|]. split; [constructor|]. intros ? ? _ [].
  - cbn [firsts_by] in *. destruct (existsb (fun y => f y x) seen) eqn:X.
    + assert (S := firsts_short f l seen). cbn in L. lia.
    + cbn in L. injection L as L. destruct (IH _ L) as (E & D & S). split; [now rewrite E|]. split.
      * constructor; [|exact D]. apply Forall_forall. intros y Y. apply S; [apply in_app_iff; right; now left|exact Y].
      * intros z y Z [<-|Y]; [|apply S; [apply in_app_iff; now left|exact Y]].
        destruct (f z x) eqn:F; [|reflexivity]. assert (T : existsb (fun y => f y x) seen = true) by (apply existsb_exists; now exists z). congruence.
Qed.
Lemma accepted_dec t : dn_accepted t \/ ~ dn_accepted t.
Proof.
  destruct (isInvalidDNSyntax eqfold t) eqn:E; [right|left; now apply syntax_iff]. intros A. apply syntax_iff in A. congruence.
Qed.
Lemma accepted_plain t : dn_accepted t -> no_byte "|" t = true -> kept ("ldap:///" ++ t) -> has_prefix "ldap:///" t = false -> plain_name t.
Proof.
  intros [L A] B K P. split; [exact K|]. split; [exact B|]. split; [exact L|]. split; [exact P|]. intros E a Ha. destruct A as [A|A]; [|now apply A].
  apply no_byte_chars in E. now destruct E.
Qed.
Lemma shown_names ts : (forall t, In t ts -> no_byte "|" t = true) ->
  firsts_by eqfold (map target_shown (map (append "ldap:///") ts)) [] = map (append "ldap:///") ts ->
  (forall t, In t ts -> dn_accepted (chopDNPfx (condenseWHSP ("ldap:///" ++ t)))) ->
  (forall t, In t ts -> plain_name t) /\ distinct_by eqfold (map (append "ldap:///") ts).
Proof.
  intros B E A. destruct (firsts_full eqfold (map target_shown (map (append "ldap:///") ts)) []) as (F & D & _); [rewrite E, !map_length; reflexivity|].
  rewrite E in F. rewrite <- F in D. split; [|exact D]. intros t T.
  assert (S : target_shown ("ldap:///" ++ t) = "ldap:///" ++ t).
  { rewrite map_map in F. symmetry. exact (proj1 map_ext_in_iff F t T). }
  unfold target_shown in S. apply str_app_inj in S. destruct (scheme_kept t S) as (K & P & C). specialize (A t T). rewrite C in A. apply accepted_plain; auto.
Qed.
Lemma shown_cut ts : ts <> [] -> (forall t, In t ts -> no_byte "|" t = true) -> cut true (firsts_by eqfold (map target_shown (map (append "ldap:///") ts)) []).
Proof.
  intros N B. assert (I : forall (l : list string) seen x, In x (firsts_by eqfold l seen) -> In x l).
  { induction l as [|y l IH]; intros seen x X; [exact X|]. cbn [firsts_by] in X. destruct (existsb _ seen); [right; now apply (IH seen)|]. destruct X as [<-|X]; [now left|right; now apply IH in X]. }
  split; [destruct ts as [|t ts]; [easy|discriminate]|]. intros v V. apply I in V. rewrite map_map in V. apply in_map_iff in V as (t & <- & T).
  unfold target_shown. apply no_byte_count. rewrite count_app.
  assert (S := shown_count (Ascii.eqb "|") ("ldap:///" ++ t) (bar_solid "|" eq_refl eq_refl)). rewrite count_app in S. specialize (B t T). apply no_byte_count in B. rewrite B in S.
  change (count (Ascii.eqb "|") "ldap:///") with O in *. lia.
Qed.
Lemma targets_known en k ts : e_eqf en = eqfold -> In k [TgTarget; TgTo; TgFrom] -> ts <> [] -> (forall t, In t ts -> no_byte "|" t = true) ->
  ((forall t, In t ts -> plain_name t) /\ distinct_by eqfold (map (append "ldap:///") ts)) \/ tnever en k (map (append "ldap:///") ts).
Proof.
  intros F I N B. assert (R := fun c style (K : c_kw c = targetkw_name k) => C98_targets en c k style (map (append "ldap:///") ts) F I ltac:(rewrite K; apply same_kw)).
  destruct (Forall_Exists_dec (fun t => dn_accepted (chopDNPfx (condenseWHSP ("ldap:///" ++ t))))) with (l := ts) as [A|A].
  { intros t. destruct (isInvalidDNSyntax eqfold (chopDNPfx (condenseWHSP ("ldap:///" ++ t)))) eqn:E; [right; intros X; apply syntax_iff in X; congruence|left; now apply syntax_iff]. }
  - rewrite Forall_forall in A.
    destruct (list_eq_dec string_dec (firsts_by eqfold (map target_shown (map (append "ldap:///") ts)) []) (map (append "ldap:///") ts)) as [E|E]; [left; now apply shown_names|right].
    intros c style K Z. right. eexists. split.
    2: { destruct (R c style K) as [R1 _]. rewrite outer_line in R1 by exact Z. apply R1. split; [now destruct ts|]. intros v V. apply in_map_iff in V as (t & <- & T). now apply A. }
    intros J. apply E. apply (cut_join true); [now apply shown_cut|split; [now destruct ts|]|exact J]. intros v V. apply in_map_iff in V as (t & <- & T). exact (B t T).
  - right. intros c style K Z. left. apply (proj2 (R c style K)). intros [_ X]. apply Exists_exists in A as (t & T & A). apply A. apply X. now apply in_map.
Qed.
Theorem C124_names_exact : forall en pad k ts, e_eqf en = eqfold -> In k [TgTarget; TgTo; TgFrom] -> ts <> [] -> (forall t, In t ts -> no_byte "|" t = true) ->
  let l := Some (targetkw_const k, map (dn_member (targetkw_const k)) ts) in
  let fine := (forall t, In t ts -> plain_name t) /\ distinct_by eqfold (map (append "ldap:///") ts) in
  (target_back en (tdns_Eq pad l) <-> fine) /\ (target_back en (tdns_Ne pad l) <-> fine).
Proof.
  intros en pad k ts F I N B l fine.
  assert (C : cut (target_many k) (map (append "ldap:///") ts)).
  { replace (target_many k) with true by (destruct I as [<-|[<-|[<-|[]]]]; reflexivity). split; [now destruct ts|].
    intros v V. apply in_map_iff in V as (t & <- & T). exact (B t T). }
  destruct (proj1 (C71_target_dns pad) k (map (dn_member (targetkw_const k)) ts) I) as [E1 E2]. rewrite shown_members in E1, E2.
  split; (split; [intros X; destruct (targets_known en k ts F I N B) as [K|K]; [exact K|exfalso]|intros [P D]]).
  - exact (tlost en pad _ k REq _ E1 C K X).
  - apply (C124_names en pad k ts F I N P D).
  - exact (tlost en pad _ k RNe _ E2 C K X).
  - apply (C124_names en pad k ts F I N P D).
Qed.
Lemma names_known en k ts : e_eqf en = eqfold -> In k [UserDN; RoleDN; GroupDN] -> ts <> [] -> (forall t, In t ts -> no_byte "|" t = true /\ no_byte "?" t = true) ->
  ((forall t, In t ts -> plain_name t) /\ distinct_by eqfold (map (append "ldap:///") ts)) \/ never en k (map (append "ldap:///") ts).
Proof.
  intros F I N H. destruct ts as [|t0 ts]; [easy|].
  assert (B : forall t, In t (t0 :: ts) -> no_byte "|" t = true) by (intros t T; apply (H t T)).
  assert (NQ : forall t, In t (t0 :: ts) -> scontains "?" ("ldap:///" ++ t) = false).
  { intros t T. destruct (H t T) as [_ Q]. change "?" with (String "?" ""). apply not_true_is_false. rewrite contains1. apply no_byte_chars. exact Q. }
  assert (R := fun c style (K : c_kw c = bindkw_name k) => C98_names en c k style ("ldap:///" ++ t0) (map (append "ldap:///") ts) F I ltac:(rewrite K; apply same_kw)).
  assert (SH : map (name_shown (uri_text (bindkw_const k))) (("ldap:///" ++ t0) :: map (append "ldap:///") ts) = map target_shown (map (append "ldap:///") (t0 :: ts))).
  { change (("ldap:///" ++ t0) :: map (append "ldap:///") ts) with (map (append "ldap:///") (t0 :: ts)). rewrite !map_map. apply map_ext_in. intros t T.
    unfold name_shown. now rewrite (NQ t T), andb_false_r. }
  cbv zeta in R. rewrite SH in R. change (("ldap:///" ++ t0) :: map (append "ldap:///") ts) with (map (append "ldap:///") (t0 :: ts)) in R.
  assert (OK : forall t, In t (t0 :: ts) -> bind_value_ok (uri_text (bindkw_const k)) ("ldap:///" ++ t) <-> dn_accepted (chopDNPfx (condenseWHSP ("ldap:///" ++ t)))).
  { intros t T. unfold bind_value_ok. rewrite (NQ t T), andb_false_r. split; [now intros [? _]|]. intros A. split; [exact A|].
    unfold contains_byte. apply no_byte_chars, no_byte_count. assert (C1 := chop_count (Ascii.eqb "?") (condenseWHSP ("ldap:///" ++ t))).
    rewrite (count_condense _ _ (bar_solid "?" eq_refl eq_refl)), count_app in C1. destruct (H t T) as [_ Q]. apply no_byte_count in Q. rewrite Q in C1.
    change (count (Ascii.eqb "?") "ldap:///") with O in C1. lia. }
  destruct (Forall_Exists_dec (fun t => dn_accepted (chopDNPfx (condenseWHSP ("ldap:///" ++ t))))) with (l := t0 :: ts) as [A|A].
  { intros t. destruct (isInvalidDNSyntax eqfold (chopDNPfx (condenseWHSP ("ldap:///" ++ t)))) eqn:E; [right; intros X; apply syntax_iff in X; congruence|left; now apply syntax_iff]. }
  - rewrite Forall_forall in A.
    destruct (Nat.le_gt_cases 3 (String.length (unquote (condenseWHSP ("ldap:///" ++ t0))))) as [L|L].
    2: { right. intros c style K Z. left. apply (proj1 (proj2 (R c style K))). intros [X _]. lia. }
    destruct (list_eq_dec string_dec (firsts_by eqfold (map target_shown (map (append "ldap:///") (t0 :: ts))) []) (map (append "ldap:///") (t0 :: ts))) as [E|E]; [left; now apply shown_names|right].
    intros c style K Z. right. eexists. split.
    2: { destruct (R c style K) as [R1 _]. rewrite outer_line in R1 by exact Z. apply R1. split; [exact L|]. intros v V. apply in_map_iff in V as (t & <- & T). apply (OK t T), A, T. }
    intros J. apply E. apply (cut_join true); [apply shown_cut; [discriminate|exact B]|split; [discriminate|]|exact J]. intros v V. apply in_map_iff in V as (t & <- & T). exact (B t T).
  - right. intros c style K Z. left. apply (proj1 (proj2 (R c style K))). intros [_ X]. apply Exists_exists in A as (t & T & A). apply A, (OK t T), X. now apply in_map.
Qed.
Theorem C123_names_exact : forall en pad k ts, e_eqf en = eqfold -> In k [UserDN; RoleDN; GroupDN] -> ts <> [] ->
  (forall t, In t ts -> no_byte "|" t = true /\ no_byte "?" t = true) ->
  let l := Some (bindkw_const k, map (dn_member (bindkw_const k)) ts) in
  let fine := (forall t, In t ts -> plain_name t) /\ distinct_by eqfold (map (append "ldap:///") ts) in
  (bind_back en (bdns_Eq pad l) <-> fine) /\ (bind_back en (bdns_Ne pad l) <-> fine).
Proof.
  intros en pad k ts F I N B l fine.
  assert (C : cut (bind_many k) (map (append "ldap:///") ts)).
  { replace (bind_many k) with true by (destruct I as [<-|[<-|[<-|[]]]]; reflexivity). split; [now destruct ts|].
    intros v V. apply in_map_iff in V as (t & <- & T). exact (proj1 (B t T)). }
  destruct (proj1 (C71_bind_dns pad) k (map (dn_member (bindkw_const k)) ts) I) as [E1 E2]. rewrite shown_members in E1, E2.
  assert (G : fine -> bind_back en (bdns_Eq pad l) /\ bind_back en (bdns_Ne pad l)).
  { intros [P D]. apply (C123_names en pad k ts F I N); [|exact D]. intros t T. split; [now apply P|apply (B t T)]. }
  split; (split; [intros X; destruct (names_known en k ts F I N B) as [K|K]; [exact K|exfalso]|intros P; now apply G]).
  - exact (lost en pad _ k REq _ E1 C K X).
  - exact (lost en pad _ k RNe _ E2 C K X).
Qed.
(* one name, as the constructors make it *)
Theorem C124_name_exact : forall en pad x r, e_eqf en = eqfold -> x <> "" -> no_byte "|" (chopDNPfx x) = true ->
  In r [tdn_Eq pad (TDN x); tdn_Ne pad (TDN x); tdn_Eq pad (TTDN x); tdn_Ne pad (TTDN x); tdn_Eq pad (TFDN x); tdn_Ne pad (TFDN x)] ->
  (target_back en r <-> plain_name (chopDNPfx x)).
Proof.
  intros en pad x r F N B I. set (t := chopDNPfx x) in *.
  assert (W : exists k o, In k [TgTarget; TgTo; TgFrom] /\ SMeth.target_says pad r k o ("ldap:///" ++ t)).
  { destruct (C71_target_dn_made pad x N) as ([E1 E2] & [E3 E4] & [E5 E6]). fold t in E1, E2, E3, E4, E5, E6.
    destruct I as [<-|[<-|[<-|[<-|[<-|[<-|[]]]]]]]; [exists TgTarget, REq|exists TgTarget, RNe|exists TgTo, REq|exists TgTo, RNe|exists TgFrom, REq|exists TgFrom, RNe]; (split; [cbn; tauto|assumption]). }
  destruct W as (k & o & J & E).
  assert (C : cut (target_many k) ["ldap:///" ++ t]) by (replace (target_many k) with true by (destruct J as [<-|[<-|[<-|[]]]]; reflexivity); split; [discriminate|]; intros v [<-|[]]; exact B).
  assert (H : forall u, In u [t] -> no_byte "|" u = true) by (intros u [<-|[]]; exact B).
  split.
  - intros X. destruct (targets_known en k [t] F J ltac:(discriminate) H) as [[K _]|K]; [apply K; now left|]. exfalso. exact (tlost en pad _ k o ["ldap:///" ++ t] E C K X).
  - intros P. apply (tback en pad _ k o ["ldap:///" ++ t] E C). apply (targets_again en k [t] F J); [discriminate|intros u [<-|[]]; exact P|]. constructor; constructor.
Qed.
Theorem C123_name_exact : forall en pad x r, e_eqf en = eqfold -> x <> "" -> no_byte "|" (chopDNPfx x) = true -> no_byte "?" (chopDNPfx x) = true ->
  In r [bdn_Eq pad (UDN x); bdn_Ne pad (UDN x); bdn_Eq pad (RDN x); bdn_Ne pad (RDN x); bdn_Eq pad (GDN x); bdn_Ne pad (GDN x)] ->
  (bind_back en r <-> plain_name (chopDNPfx x)).
Proof.
  intros en pad x r F N B Q I. set (t := chopDNPfx x) in *.
  assert (W : exists k o, In k [UserDN; RoleDN; GroupDN] /\ SMeth.bind_says pad r k o ("ldap:///" ++ t)).
  { destruct (C71_bind_dn_made pad x N) as ([E1 E2] & [E3 E4] & [E5 E6]). fold t in E1, E2, E3, E4, E5, E6.
    destruct I as [<-|[<-|[<-|[<-|[<-|[<-|[]]]]]]]; [exists UserDN, REq|exists UserDN, RNe|exists RoleDN, REq|exists RoleDN, RNe|exists GroupDN, REq|exists GroupDN, RNe]; (split; [cbn; tauto|assumption]). }
  destruct W as (k & o & J & E).
  assert (C : cut (bind_many k) ["ldap:///" ++ t]) by (replace (bind_many k) with true by (destruct J as [<-|[<-|[<-|[]]]]; reflexivity); split; [discriminate|]; intros v [<-|[]]; exact B).
  assert (H : forall u, In u [t] -> no_byte "|" u = true /\ no_byte "?" u = true) by (intros u [<-|[]]; now split).
  split.
  - intros X. destruct (names_known en k [t] F J ltac:(discriminate) H) as [[K _]|K]; [apply K; now left|]. exfalso. exact (lost en pad _ k o ["ldap:///" ++ t] E C K X).
  - intros P. apply (back en pad _ k o ["ldap:///" ++ t] E C). apply (names_again en k [t] F J); [discriminate|intros u [<-|[]]; now split|]. constructor; constructor.
Qed.

(* ---- C123: attribute and value, for every pair ---- *)
Lemma lost_any en pad r k o v : SMeth.bind_says pad r k o v -> bind_many k = false ->
  (forall x, assert_bind en (bindkw_const k) [v] = AOk x -> exists t, x = XText t /\ t <> v) -> ~ bind_back en r.
Proof.
  intros S M N [_ B]. destruct (bind_reading_one pad r k o [v] S) as [[c R] _]; [rewrite M; now exists v|].
  destruct (B c k o [v] 1%Z R) as (r' & H1 & H2); [discriminate|]. destruct R as (K & O & _ & E).
  assert (KE : eqfold (c_kw c) (bindkw_name k) = true) by (rewrite K; apply same_kw).
  destruct (assert_bind en (bindkw_const k) [v]) as [| |x] eqn:A.
  - unfold br_assert, raw in H1. cbn [with_ex c_ex br_keyword c_kw] in H1. rewrite bkw_round, (known_bind c k KE), A in H1. discriminate.
  - assert (X := bind_err en c k 1%Z [v] KE A). unfold refuses in X. congruence.
  - destruct (N x eq_refl) as (t & -> & T). destruct (bind_text en c k 1%Z [v] t KE A) as (r2 & H3 & H4).
    rewrite H3 in H1. injection H1 as ->. rewrite H4, E, K, O in H2. cbn [MRule.op_text] in H2. rewrite cop_const in H2. apply T. apply line_inj, quotes_inj in H2. exact H2.
Qed.
Lemma hash_split a b x y : no_byte "#" a = true -> no_byte "#" b = true -> a ++ "#" ++ x = b ++ "#" ++ y -> a = b /\ x = y.
Proof.
  intros NA NB. revert b NB. induction a as [|c a IH]; intros b NB E; destruct b as [|d b].
  - cbn [append] in E. apply str_inj in E as [_ E]. now split.
  - cbn [append] in E. apply str_inj in E as [<- _]. discriminate NB.
  - cbn [append] in E. apply str_inj in E as [-> _]. discriminate NA.
  - cbn [append] in E. apply str_inj in E as [-> E]. unfold no_byte in NA, NB. cbn [all_bytes] in NA, NB. apply andb_true_iff in NA as [_ NA]. apply andb_true_iff in NB as [_ NB].
    destruct (IH NA b NB E) as [-> ->]. now split.
Qed.
Lemma name_start a x p d : attr_name a -> has_prefix p (a ++ "#" ++ x) = true -> no_byte "#" p = true -> In d (chars p) -> name_byte d = false -> d <> "*"%char -> False.
Proof. intros A H N I B S. rewrite (name_no_prefix a x p d A N I B S) in H. discriminate. Qed.
Lemma attr_never en k a w : In k [UserAttr; GroupAttr] -> attr_name a -> what_ok w -> ~ settled (a ++ "#" ++ what_text w) ->
  forall x, assert_bind en (bindkw_const k) [a ++ "#" ++ what_text w] = AOk x -> exists t, x = XText t /\ t <> a ++ "#" ++ what_text w.
Proof.
  intros I A W NS x. set (v := a ++ "#" ++ what_text w). assert (LV : (3 <= String.length v)%nat).
  { unfold v. rewrite length_app. assert (NA := attr_name_nonempty a A). assert (NW : what_text w <> "") by (destruct w as [n|u]; [intros X; assert (M : (n = 1 \/ n = 2 \/ n = 3 \/ n = 4 \/ n = 5)%N) by (cbn in W; lia); destruct M as [->|[->|[->|[->| ->]]]]; discriminate X|apply W]).
    destruct a; [easy|]. destruct (what_text w); [easy|]. cbn. lia. }
  assert (NE : unquote (condenseWHSP v) <> v) by (intros E; apply NS, settled_exact; assumption).
  rewrite (attr_reader en k v I). cbv zeta. set (t := unquote (condenseWHSP v)) in *.
  destruct (has_prefix "ldap:///" t) eqn:P1; [|destruct (has_prefix "parent[" t) eqn:P2].
  - unfold uri_text. destruct (parseLDAPURI t _) as [u|]; [|discriminate]. cbn [of_opt]. intros [= <-]. eexists. split; [reflexivity|]. intros E.
    unfold uri_string in E. destruct (uri_valid u) eqn:V; cbn [negb] in E.
    + assert (D : exists y, dn_string badBDN (u_dn u) = "ldap:///" ++ y) by (unfold uri_valid, dn_isZero in V; destruct (u_dn u) as [[kw [s|]]|]; try discriminate V; now exists s).
      destruct D as [y D]. assert (X : has_prefix "ldap:///" v = true).
      { rewrite <- E, D. destruct (sf_isZero (u_filter u)), (abtv_isZero (u_avbt u)); cbn [negb]; rewrite app_assoc'; apply has_prefix_app. }
      apply (name_start a (what_text w) "ldap:///" ":" A X); try reflexivity; [cbn; tauto|discriminate].
    + assert (X : has_prefix "<" v = true) by (rewrite <- E; reflexivity). apply (name_start a (what_text w) "<" "<" A X); try reflexivity; [cbn; tauto|discriminate].
  - destruct (parseInheritance (e_shifty en) t) as [| |i]; [discriminate|discriminate|]. intros [= <-]. eexists. split; [reflexivity|]. intros E. unfold inh_string in E.
    assert (X : has_prefix "<" v = true \/ has_prefix "parent[" v = true).
    { rewrite <- E. destruct i as [i|]; [|now left]. destruct (abtv_isZero (in_abtv i)); [now left|right; apply has_prefix_app]. }
    destruct X as [X|X].
    + apply (name_start a (what_text w) "<" "<" A X); try reflexivity; [cbn; tauto|discriminate].
    + apply (name_start a (what_text w) "parent[" "[" A X); try reflexivity; [cbn; tauto|discriminate].
  - destruct (idx "#" t) as [n|] eqn:H; [|unfold parseATBTV; rewrite H; discriminate]. apply idx_split in H as (b & y & T & NB & _). rewrite T, parse_hash by exact NB.
    destruct (AT_iff b) as [[-> B]|[-> _]]; [|discriminate]. intros [= <-]. eexists. split; [reflexivity|]. unfold avbt_s, abtv_string. cbn [ab_pair abtv_isZero pair_string].
    destruct (N.eqb_spec (matchBT y) 0) as [Y|Y]; cbn [negb].
    + unfold AV. destruct y as [|c y].
      * cbn [String.length Nat.ltb Nat.leb]. intros E. assert (X : has_prefix "%" v = true) by (rewrite <- E; reflexivity).
        apply (name_start a (what_text w) "%" "%" A X); try reflexivity; [cbn; tauto|discriminate].
      * cbn [String.length Nat.ltb Nat.leb Nat.eqb at_string]. intros E. apply NE. rewrite T. exact E.
    + destruct (N.eqb_spec (matchBT y) 0) as [?|_]; [easy|]. cbn [at_string]. intros E. apply hash_split in E as [E1 E2]; [|now apply attr_name_no_hash|now apply attr_name_no_hash]. subst b.
      destruct w as [m|u]; cbn [what_text] in *.
      * assert (FR : t = reencode v).
        { apply fine_read; [intros X; rewrite X in LV; cbn in LV; lia|]. intros c C. unfold v in C. rewrite !chars_app, !in_app_iff in C. destruct C as [C|[C|C]]; [now apply (name_fine a)|destruct C as [<-|[]]; reflexivity|].
          assert (M : (m = 1 \/ m = 2 \/ m = 3 \/ m = 4 \/ m = 5)%N) by (cbn in W; lia). clear - C M. assert (Z : forallb fine_byte (chars (bt_string m)) = true) by (destruct M as [->|[->|[->|[->| ->]]]]; reflexivity).
          rewrite forallb_forall in Z. now apply Z. }
        assert (TR := T). rewrite FR in TR. unfold v in TR. rewrite !reencode_app in TR. change (reencode "#") with "#" in TR. change (String "#" y) with ("#" ++ y) in TR.
        apply hash_split in TR as [RA RB]; [|apply no_byte_count; rewrite count_reencode by (now apply bar_solid); apply no_byte_count; exact NB|exact NB].
        apply NE. rewrite FR. unfold v. rewrite !reencode_app, RA. change (reencode "#") with "#".
        assert (M : (m = 1 \/ m = 2 \/ m = 3 \/ m = 4 \/ m = 5)%N) by (cbn in W; lia). destruct M as [->|[->|[->|[->| ->]]]]; reflexivity.
      * assert (L := PUri.matchBT_le y). destruct W as [_ W]. rewrite <- E2 in W. revert W. generalize dependent (matchBT y). intros m Y _ L.
        assert (M : (m = 1 \/ m = 2 \/ m = 3 \/ m = 4 \/ m = 5)%N) by lia. destruct M as [->|[->|[->|[->| ->]]]]; discriminate.
Qed.
Theorem C123_attr_exact : forall en pad fmt k a w, In k [UserAttr; GroupAttr] -> attr_name a -> what_ok w ->
  let p := MkABTV (bindkw_const k) (Some (pair_of a w)) in
  (bind_back en (abtv_Eq pad fmt p) <-> settled (a ++ "#" ++ what_text w)) /\
  (bind_back en (abtv_Ne pad fmt p) <-> settled (a ++ "#" ++ what_text w)).
Proof.
  intros en pad fmt k a w I A W p.
  assert (KK : bindkw_const k = BindUAT \/ bindkw_const k = BindGAT) by (destruct I as [<-|[<-|[]]]; [left|right]; reflexivity).
  destruct (C23_round_trip (bindkw_const k) a w KK A W) as [T1 _].
  destruct (proj1 (C72_partial pad fmt p) k (pair_of a w) _ I eq_refl ltac:(discriminate) T1) as (_ & E1 & E2).
  assert (M : bind_many k = false) by (destruct I as [<-|[<-|[]]]; reflexivity).
  assert (D : settled (a ++ "#" ++ what_text w) \/ ~ settled (a ++ "#" ++ what_text w)).
  { set (v := a ++ "#" ++ what_text w). destruct (Nat.le_gt_cases 3 (String.length v)) as [L|L].
    - destruct (string_dec (unquote (condenseWHSP v)) v) as [U|U]; [left; now apply settled_exact|right; intros S; apply U; now apply settled_read].
    - exfalso. unfold v in L. rewrite !length_app in L. assert (NA := attr_name_nonempty a A).
      assert (NW : what_text w <> "") by (destruct w as [n|u]; [intros X; assert (N5 : (n = 1 \/ n = 2 \/ n = 3 \/ n = 4 \/ n = 5)%N) by (cbn in W; lia); destruct N5 as [->|[->|[->|[->| ->]]]]; discriminate X|apply W]).
      destruct a; [easy|]. destruct (what_text w); [easy|]. cbn in L. lia. }
  split; (split; [intros B; destruct D as [D|D]; [exact D|exfalso]|intros S]).
  - exact (lost_any en pad _ k REq _ E1 M (attr_never en k a w I A W D) B).
  - apply (C123_attr en pad fmt k a w I A W S).
  - exact (lost_any en pad _ k RNe _ E2 M (attr_never en k a w I A W D) B).
  - apply (C123_attr en pad fmt k a w I A W S).
Qed.

(* Concrete texts on both sides. *)
Example C43_fixed_witness : kept "a b'" /\ ~ kept "a  b" /\ ~ kept (String "195" (String "188" "")).
Proof.
  split; [|split].
  - split; [reflexivity|]. split; [vm_compute; reflexivity|]. split; intros c [= <-]; reflexivity.
  - intros K. apply C43_fixed in K. vm_compute in K. discriminate K.
  - intros K. apply C43_fixed in K. vm_compute in K. discriminate K.
Qed.
Example C124_exact_witness :
  target_back en0 (sf_Ne true (Some "(cn=*)")) /\ ~ target_back en0 (sf_Ne true (Some "(cn=a  b)")) /\ ~ target_back en0 (sf_Eq true (Some "'(cn=a)")) /\
  target_back en0 (tdn_Eq true (TDN "ldap:///cn=O'")) /\
  ~ target_back en0 (tdns_Eq true (Some (Target, map (dn_member Target) ["cn=a,dc=x"; "cn=A,dc=x"]))).
Proof.
  assert (X1 : condenseWHSP "(cn=a  b)" <> "(cn=a  b)") by (vm_compute; discriminate).
  assert (X2 : eqfold ("ldap:///" ++ "cn=a,dc=x") ("ldap:///" ++ "cn=A,dc=x") = true) by (vm_compute; reflexivity).
  split; [|split; [|split; [|split]]].
  - refine (proj2 (proj2 (C124_filter_exact en0 true "(cn=*)" _)) _); [discriminate|]. split; [apply settled_check; vm_compute; reflexivity|vm_compute; lia].
  - intros B. destruct (proj1 (proj2 (C124_filter_exact en0 true "(cn=a  b)" ltac:(discriminate))) B) as [S _]. apply X1, settled_condense, S.
  - intros B. destruct (proj1 (proj1 (C124_filter_exact en0 true "'(cn=a)" ltac:(discriminate))) B) as [(_ & _ & F & _) _]. destruct (F "'"%char eq_refl) as [_ X]. discriminate X.
  - refine (proj2 (C124_name_exact en0 true "ldap:///cn=O'" _ eq_refl ltac:(discriminate) eq_refl (or_introl eq_refl)) _). change (chopDNPfx "ldap:///cn=O'") with "cn=O'".
    split; [|split; [reflexivity|split; [vm_compute; lia|split; [reflexivity|discriminate]]]].
    split; [reflexivity|]. split; [vm_compute; reflexivity|]. split; intros c [= <-]; reflexivity.
  - intros B. destruct (proj1 (proj1 (C124_names_exact en0 true TgTarget ["cn=a,dc=x"; "cn=A,dc=x"] eq_refl (or_introl eq_refl) ltac:(discriminate) ltac:(intros t [<-|[<-|[]]]; reflexivity))) B) as [_ D].
    cbn [map] in D. inversion D as [|x l F _]; subst. inversion F as [|y m G _]; subst. exact (eq_true_false_abs _ X2 G).
Qed.
Example C123_exact_witness :
  bind_back en0 (abtv_Ne true "" (MkABTV BindGAT (Some (pair_of "manager" (WType GROUPDN))))) /\
  ~ bind_back en0 (abtv_Ne true "" (MkABTV BindGAT (Some (pair_of "manager" (WValue "a "))))) /\
  bind_back en0 (bdn_Ne true (GDN "cn=O'")) /\ ~ bind_back en0 (bdn_Ne true (GDN "cn= a ")).
Proof.
  assert (M : attr_name "manager") by (left; apply identifier_iff; reflexivity).
  assert (IG : In GroupAttr [UserAttr; GroupAttr]) by (cbn; tauto).
  assert (X1 : condenseWHSP "manager#a " <> "manager#a ") by (vm_compute; discriminate).
  assert (X2 : condenseWHSP ("ldap:///" ++ "cn= a ") <> "ldap:///" ++ "cn= a ") by (vm_compute; discriminate).
  split; [|split; [|split]].
  - refine (proj2 (proj2 (C123_attr_exact en0 true "" GroupAttr "manager" (WType GROUPDN) IG M _)) _); [vm_compute; split; discriminate|apply settled_check; vm_compute; reflexivity].
  - intros B. assert (S := proj1 (proj2 (C123_attr_exact en0 true "" GroupAttr "manager" (WValue "a ") IG M ltac:(split; [discriminate|reflexivity]))) B). apply X1, settled_condense, S.
  - refine (proj2 (C123_name_exact en0 true "cn=O'" _ eq_refl ltac:(discriminate) eq_refl eq_refl _) _); [do 5 right; now left|]. change (chopDNPfx "cn=O'") with "cn=O'".
    split; [|split; [reflexivity|split; [vm_compute; lia|split; [reflexivity|discriminate]]]].
    split; [reflexivity|]. split; [vm_compute; reflexivity|]. split; intros c [= <-]; reflexivity.
  - intros B. assert (I : In (bdn_Ne true (GDN "cn= a ")) [bdn_Eq true (UDN "cn= a "); bdn_Ne true (UDN "cn= a "); bdn_Eq true (RDN "cn= a "); bdn_Ne true (RDN "cn= a "); bdn_Eq true (GDN "cn= a "); bdn_Ne true (GDN "cn= a ")]) by (do 5 right; now left).
    destruct (proj1 (C123_name_exact en0 true "cn= a " _ eq_refl ltac:(discriminate) eq_refl eq_refl I) B) as [K _]. apply X2, kept_condense, K.
Qed.

Print Assumptions C43_fixed.
Print Assumptions C124_filter_exact.
Print Assumptions C124_names_exact.
Print Assumptions C124_name_exact.
Print Assumptions C123_names_exact.
Print Assumptions C123_name_exact.
Print Assumptions C123_attr_exact.
