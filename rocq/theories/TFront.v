(* C123: exactly which inheritance levels and LDAP URIs come back through conversion. *)
From Coq Require Import String Ascii List PeanoNat NArith ZArith Bool Lia Permutation.
From Verif Require Import GoStr GoStrFacts Shifty MMisc MLists MKw MSec MTime MAttr MLevels MNet MFilter MUri MRule MConv MMeth
  SMisc SKw SLists SSec STime SAttr SFilter SNet STree PRights PSec PNet PKw PMisc PLists PTime PAttr PFilter PRule PTree SAci PAci TMisc TLists TSec TTime TAttr TLevels TFilter TNet TTree TRule SRead TRead TBlank TMeth SBack TBack TKeep SMore TMore.
From Verif Require SUri TUri TTab.
Import ListNotations.
Open Scope string_scope.

(* ---- reading keeps ASCII bytes in front and at the end ---- *)
Definition apart (seqs : list string) (c : ascii) : Prop := forall q, In q seqs -> ~ In c (chars q).
Lemma prefix_cut q x c z : ~ In c (chars q) -> has_prefix q (x ++ String c z) = has_prefix q x.
Proof.
  revert x. induction q as [|d q IH]; intros x N; [destruct x; reflexivity|].
  destruct x as [|e x]; cbn [append has_prefix].
  - destruct (Ascii.eqb_spec d c) as [->|_]; [destruct N; now left|reflexivity].
  - f_equal. apply IH. intros I. apply N. now right.
Qed.
Lemma match_cut seqs x c z : apart seqs c -> first_match seqs (x ++ String c z) = first_match seqs x.
Proof.
  intros A. induction seqs as [|q seqs IH]; [reflexivity|]. cbn [first_match]. rewrite (prefix_cut q x c z) by (apply A; now left).
  rewrite IH; [reflexivity|]. intros q' Q. apply A. now right.
Qed.
Lemma match_len seqs x n : first_match seqs x = Some n -> (n <= String.length x)%nat.
Proof.
  induction seqs as [|q seqs IH]; [discriminate|]. cbn [first_match]. destruct (has_prefix q x) eqn:E; [|exact IH].
  intros [= <-]. apply has_prefix_spec in E as [y ->]. rewrite length_app. lia.
Qed.
Lemma trim_cut seqs c z : apart seqs c -> first_match seqs (String c z) = None -> forall x k, (k <= String.length x)%nat ->
  trim_left_aux seqs k (x ++ String c z) = trim_left_aux seqs k x ++ String c z.
Proof.
  intros A F. induction x as [|d x IH]; intros k K.
  - cbn [String.length] in K. replace k with O by lia. cbn [append]. cbn [trim_left_aux]. now rewrite F.
  - destruct k as [|k]; cbn [append trim_left_aux].
    + change (String d (x ++ String c z)) with (String d x ++ String c z). rewrite (match_cut seqs (String d x) c z A).
      destruct (first_match seqs (String d x)) as [n|] eqn:E; [|reflexivity]. apply match_len in E. cbn [String.length] in E. apply IH. lia.
    + cbn [String.length] in K. apply IH. lia.
Qed.
Lemma clean_apart c : clean_byte c = true -> apart space_seqs c /\ apart (map srev space_seqs) c.
Proof.
  intros C. assert (G : forallb (fun q => forallb (fun d => negb (Ascii.eqb c d)) (chars q)) (space_seqs ++ map srev space_seqs)%list = true).
  { destruct c as [[] [] [] [] [] [] [] []]; (vm_compute in C; discriminate C) || (vm_compute; reflexivity). }
  rewrite forallb_forall in G. split; intros q Q I; specialize (G q); rewrite in_app_iff in G;
    assert (H := G ltac:(tauto)); rewrite forallb_forall in H; specialize (H c I); rewrite Ascii.eqb_refl in H; discriminate H.
Qed.
Lemma clean_split c : clean_byte c = true -> ascii_byte c = true /\ white c = false /\ is_quote c = false.
Proof. unfold clean_byte. intros H. apply andb_true_iff in H as [H Q]. apply andb_true_iff in H as [A B]. apply negb_true_iff in B, Q. now repeat split. Qed.
Lemma clean_nomatch c r : clean_byte c = true -> first_match space_seqs (String c r) = None /\ first_match (map srev space_seqs) (String c r) = None.
Proof. intros C. apply clean_split in C as (A & W & _). now rewrite first_match_ascii, first_match_ascii_rev, W by exact A. Qed.
Definition rtrim (s : string) : string := srev (trim_left (map srev space_seqs) (srev s)).
Lemma rtrim_front p x : (forall c, In c (chars p) -> clean_byte c = true) -> rtrim (p ++ x) = p ++ rtrim x.
Proof.
  intros H. induction p as [|c p IH]; [reflexivity|]. cbn [append]. rewrite <- (IH (fun d I => H d (or_intror I))). clear IH.
  assert (C := H c (or_introl eq_refl)). destruct (clean_apart c C) as [_ A]. destruct (clean_nomatch c "" C) as [_ M].
  unfold rtrim. change (String c (p ++ x)) with (String c "" ++ (p ++ x)). rewrite (srev_append (String c "")). unfold trim_left.
  change (srev (String c "")) with (String c ""). rewrite (trim_cut _ c "" A M) by lia. now rewrite srev_append.
Qed.
Lemma trim_front p x : p <> "" -> (forall c, In c (chars p) -> clean_byte c = true) -> trim_space (p ++ x) = p ++ rtrim x.
Proof.
  intros N H. rewrite <- (rtrim_front p x H). unfold trim_space, rtrim. f_equal. f_equal. f_equal. destruct p as [|c p]; [easy|].
  unfold trim_left. cbn [append trim_left_aux]. now rewrite (proj1 (clean_nomatch c (p ++ x) (H c (or_introl eq_refl)))).
Qed.
Lemma loop_front p x l : (forall c, In c (chars p) -> clean_byte c = true) -> p <> "" ->
  condense_loop l (replace_byte "010" " " (p ++ x)) = p ++ condense_loop false (replace_byte "010" " " x).
Proof.
  intros H. revert l. induction p as [|c p IH]; intros l N; [easy|]. destruct (clean_split c (H c (or_introl eq_refl))) as (A & W & _).
  assert (R : replace_byte "010" " " (String c (p ++ x)) = String c (replace_byte "010" " " (p ++ x))).
  { unfold replace_byte. cbn [map_bytes]. destruct (Ascii.eqb_spec c "010") as [->|]; [discriminate W|reflexivity]. }
  cbn [append]. rewrite R, loop_solid_all by now apply nonwhite_nonblank.
  assert (U : utf8_of_byte c = String c "") by (clear -A; destruct c as [[] [] [] [] [] [] [] []]; (vm_compute in A; discriminate A) || reflexivity). rewrite U. cbn [append]. f_equal.
  destruct p as [|d p]; [reflexivity|]. apply IH; [intros e I; apply H; now right|discriminate].
Qed.

Definition unq_end (s : string) : string := match last_byte s with Some c => if is_quote c then drop_last s else s | None => s end.
Lemma last_front p x : x <> "" -> last_byte (p ++ x) = last_byte x.
Proof. intros N. induction p as [|c p IH]; [reflexivity|]. cbn [append]. rewrite <- IH. destruct p; [destruct x; [easy|reflexivity]|reflexivity]. Qed.
Lemma drop_front p x : x <> "" -> drop_last (p ++ x) = p ++ drop_last x.
Proof. intros N. induction p as [|c p IH]; [reflexivity|]. cbn [append]. rewrite <- IH. destruct p; [destruct x; [easy|reflexivity]|reflexivity]. Qed.
Lemma unquote_front p x : (3 <= String.length p)%nat -> (forall c, In c (chars p) -> clean_byte c = true) -> unquote (p ++ x) = p ++ unq_end x.
Proof.
  intros L H. unfold unquote. assert (G : (String.length (p ++ x) <=? 2)%nat = false) by (apply Nat.leb_gt; rewrite length_app; lia). rewrite G. clear G.
  assert (S1 : match p ++ x with String c r => if is_quote c then r else p ++ x | EmptyString => p ++ x end = p ++ x).
  { destruct p as [|c p]; [cbn in L; lia|]. cbn [append]. now rewrite (proj2 (proj2 (clean_split c (H c (or_introl eq_refl))))). }
  cbv zeta. rewrite S1. unfold unq_end. destruct x as [|d x].
  - change (match last_byte "" with Some c => if is_quote c then drop_last "" else "" | None => "" end) with "". rewrite app_nil_r'. destruct (last_byte p) as [c|] eqn:E; [|reflexivity]. apply last_in in E. now rewrite (proj2 (proj2 (clean_split c (H c E)))).
  - rewrite last_front by discriminate. destruct (last_byte (String d x)) as [c|]; [|reflexivity]. destruct (is_quote c); [|reflexivity]. now rewrite drop_front.
Qed.
Definition rest_read (x : string) : string := unq_end (rtrim (condense_loop false (replace_byte "010" " " (rtrim x)))).
Lemma read_front p x : (3 <= String.length p)%nat -> (forall c, In c (chars p) -> clean_byte c = true) ->
  unquote (condenseWHSP (p ++ x)) = p ++ rest_read x.
Proof.
  intros L H. assert (N : p <> "") by (intros ->; cbn in L; lia). unfold condenseWHSP. rewrite (trim_front p x N H), loop_front, trim_front, unquote_front by assumption. reflexivity.
Qed.
Lemma settled_rest p x : (3 <= String.length p)%nat -> (forall c, In c (chars p) -> clean_byte c = true) -> (settled (p ++ x) <-> rest_read x = x).
Proof.
  intros L H. rewrite <- settled_exact by (rewrite length_app; lia). rewrite (read_front p x L H). split; [apply str_app_inj|now intros ->].
Qed.
Lemma fine_split c : fine_byte c = true -> white c = false /\ is_quote c = false.
Proof. unfold fine_byte. intros H. apply andb_true_iff in H as [H _]. apply andb_true_iff in H as [B Q]. apply negb_true_iff in B, Q. now split. Qed.
Lemma settled_tail p x : (forall c, In c (chars p) -> clean_byte c = true) -> x <> "" -> settled (p ++ x) -> (forall c, first_byte x = Some c -> fine_byte c = true) -> settled x.
Proof.
  intros H N (A & W & F & La) B. split; [|split; [|split]].
  - unfold is_ascii in *. rewrite all_bytes_app in A. now apply andb_true_iff in A as [_ A].
  - destruct x as [|d x]; [easy|]. assert (D := nonwhite_nonblank _ (proj1 (fine_split d (B d eq_refl)))). clear A F La B N. revert W. induction p as [|c p IH]; intros W; [exact W|].
    apply IH; [intros e E; apply H; now right|]. clear IH. cbn [append] in W. assert (C := nonwhite_nonblank _ (proj1 (proj2 (clean_split c (H c (or_introl eq_refl)))))).
    assert (Q : exists e u, p ++ String d x = String e u /\ blank e = false).
    { destruct p as [|e p]; [now exists d, x|]. exists e, (p ++ String d x). split; [reflexivity|]. apply nonwhite_nonblank, (clean_split e), H. right. now left. }
    destruct Q as (e & u & Q & EB). rewrite Q in *. rewrite (words_solid c _ C), EB in W.
    assert (WN := words_nonempty (String e u) EB). destruct (words (String e u)) as [|w ws]; [easy|]. destruct ws; cbn [join append] in *; apply str_inj in W as [_ W]; exact W.
  - intros c C. now apply fine_split, B.
  - intros c C. apply La. now rewrite last_front.
Qed.

(* ---- C123: levels of inheritance, for every pair ---- *)
Lemma five m : what_ok (WType m) -> (m = 1 \/ m = 2 \/ m = 3 \/ m = 4 \/ m = 5)%N.
Proof. cbn [what_ok]. lia. Qed.
(* a text that is read as a pair shown as a#w is that text, or w is a bind type in another spelling *)
Lemma pair_shown t bkw r a w : attr_name a -> what_ok w -> parseATBTV t bkw = Some r -> avbt_s r = a ++ "#" ++ what_text w ->
  t = a ++ "#" ++ what_text w \/ exists m y, w = WType m /\ matchBT y = m /\ t = a ++ "#" ++ y.
Proof.
  intros A W P E. destruct (idx "#" t) as [n|] eqn:H; [|unfold parseATBTV in P; rewrite H in P; discriminate]. apply idx_split in H as (b & y & T & NB & _). rewrite T, parse_hash in P by exact NB.
  destruct (AT_iff b) as [[X B]|[X _]]; rewrite X in P; [|discriminate]. injection P as <-. revert E. unfold avbt_s, abtv_string. cbn [ab_pair abtv_isZero pair_string].
  destruct (N.eqb_spec (matchBT y) 0) as [Y|Y]; cbn [negb].
  - unfold AV. destruct y as [|c y].
    + cbn [String.length Nat.ltb Nat.leb]. intros E. assert (Z : has_prefix "%" (a ++ "#" ++ what_text w) = true) by (rewrite <- E; reflexivity). exfalso.
      apply (name_start a (what_text w) "%" "%" A Z); try reflexivity; [cbn; tauto|discriminate].
    + cbn [String.length Nat.ltb Nat.leb Nat.eqb at_string]. intros E. left. now rewrite T.
  - destruct (N.eqb_spec (matchBT y) 0) as [?|_]; [easy|]. cbn [at_string]. intros E. apply hash_split in E as [E1 E2]; [|now apply attr_name_no_hash|now apply attr_name_no_hash]. subst b.
    destruct w as [m|u]; cbn [what_text what_ok] in *.
    + right. exists m, y. split; [reflexivity|]. split; [|exact T]. assert (L := PUri.matchBT_le y). revert E2 L Y. generalize (matchBT y). intros k E2 L Y.
      assert (K : (k = 1 \/ k = 2 \/ k = 3 \/ k = 4 \/ k = 5)%N) by lia. destruct (five m W) as [->|[->|[->|[->| ->]]]]; destruct K as [->|[->|[->|[->| ->]]]]; (reflexivity || discriminate E2).
    + exfalso. assert (L := PUri.matchBT_le y). destruct W as [_ W]. rewrite <- E2 in W. revert W Y L. generalize (matchBT y). intros k W Y L.
      assert (K : (k = 1 \/ k = 2 \/ k = 3 \/ k = 4 \/ k = 5)%N) by lia. destruct K as [->|[->|[->|[->| ->]]]]; discriminate W.
Qed.
Lemma bt_fine m c : what_ok (WType m) -> In c (chars (bt_string m)) -> fine_byte c = true.
Proof.
  intros W C. assert (Z : forallb fine_byte (chars (bt_string m)) = true) by (destruct (five m W) as [->|[->|[->|[->| ->]]]]; reflexivity). rewrite forallb_forall in Z. now apply Z.
Qed.
Lemma clean_fine c : clean_byte c = true -> fine_byte c = true.
Proof. intros C. destruct c as [[] [] [] [] [] [] [] []]; (vm_compute in C; discriminate C) || reflexivity. Qed.
Lemma clean_reencode p : (forall c, In c (chars p) -> clean_byte c = true) -> reencode p = p.
Proof. intros H. apply reencode_ascii. unfold is_ascii. apply all_bytes_chars. intros c C. apply clean_split, H, C. Qed.
Lemma what_nonempty w : what_ok w -> what_text w <> "".
Proof. intros W. destruct w as [m|u]; [|apply W]. destruct (five m W) as [->|[->|[->|[->| ->]]]]; discriminate. Qed.
Lemma pair_long a w : attr_name a -> what_ok w -> (3 <= String.length (a ++ "#" ++ what_text w))%nat.
Proof.
  intros A W. rewrite !length_app. assert (NA := attr_name_nonempty a A). assert (NW := what_nonempty w W). destruct a; [easy|]. destruct (what_text w); [easy|]. cbn. lia.
Qed.
Definition levels_front (g : N -> bool) : string := "parent[" ++ join "," (map digit (filter g all_levels)) ++ "].".
Lemma levels_clean g c : In c (chars (levels_front g)) -> clean_byte c = true.
Proof.
  unfold levels_front. rewrite !chars_app, !in_app_iff. intros [C|[C|C]].
  - revert c C. apply all_bytes_chars. reflexivity.
  - apply chars_in_join in C as [[<-|[]]|(x & X & C)]; [reflexivity|]. apply in_map_iff in X as (n & <- & X). apply filter_In in X as [X _].
    revert c C. apply all_bytes_chars. unfold all_levels in X. cbn [In] in X. repeat destruct X as [<-|X]; try reflexivity. destruct X.
  - revert c C. apply all_bytes_chars. reflexivity.
Qed.
Lemma levels_never en k g a w : shifty_ok (e_shifty en) -> In k [UserAttr; GroupAttr] -> attr_name a -> what_ok w ->
  (exists n, (n < 10)%N /\ g n = true) -> ~ settled (a ++ "#" ++ what_text w) ->
  let v := levels_front g ++ a ++ "#" ++ what_text w in
  forall x, assert_bind en (bindkw_const k) [v] = AOk x -> exists t, x = XText t /\ t <> v.
Proof.
  intros OK I A W (n0 & Hn0 & Hg) NS v x. set (u := a ++ "#" ++ what_text w) in *. set (q := levels_front g) in *.
  assert (CL : forall c, In c (chars q) -> clean_byte c = true) by apply levels_clean.
  assert (LQ : (3 <= String.length q)%nat) by (unfold q, levels_front; rewrite length_app; cbn; lia).
  assert (NR : rest_read u <> u).
  { intros R. apply NS. apply (settled_tail q u CL); [intros X; assert (L := pair_long a w A W); fold u in L; rewrite X in L; cbn in L; lia|now apply settled_rest|].
    intros c C. unfold u in C. assert (NA := attr_name_nonempty a A). destruct a as [|d a]; [easy|]. injection C as <-. apply (name_fine (String d a) d A). now left. }
  rewrite (attr_reader en k v I). cbv zeta. unfold v. rewrite (read_front q u LQ CL). set (t := rest_read u) in *.
  replace (has_prefix "ldap:///" (q ++ t)) with false by reflexivity. replace (has_prefix "parent[" (q ++ t)) with true by reflexivity.
  set (ns := filter g all_levels). assert (Hns : forall n, In n ns -> (n < 10)%N).
  { intros n Hn. apply filter_In in Hn as [Hn _]. unfold all_levels in Hn. cbn [In] in Hn. lia. }
  assert (NE : ns <> []).
  { assert (In n0 ns) by (apply filter_In; split; [now apply lt10|exact Hg]). intros X. now rewrite X in H. }
  destruct (joined_digits ns NE Hns) as [J1 J2]. destruct (shift_digits (e_shifty en) OK ns NE Hns) as (S1 & S2 & S3).
  assert (QT : q ++ t = "parent[" ++ join "," (map digit ns) ++ "]." ++ t) by (unfold q, levels_front; fold ns; now rewrite !app_assoc').
  rewrite QT, parse_shape by (exact J1 || apply lc_prefix7 || reflexivity). rewrite J2. cbv zeta.
  set (lv := lvl_shift (e_shifty en) 0 (map LStr (map digit ns))) in *. destruct (N.eqb_spec lv 0) as [?|_]; [contradiction|].
  destruct (parseATBTV t []) as [r|] eqn:P; [|discriminate]. intros [= <-]. eexists. split; [reflexivity|]. intros E.
  assert (LT : levels_string (e_shifty en) lv = join "," (map digit ns)).
  { rewrite levels_text by assumption. do 2 f_equal. rewrite (filter_ext_in' _ (fun n => existsb (N.eqb n) ns)).
    - unfold ns. apply filter_ext_in'. intros n Hn. apply eq_true_iff_eq. rewrite existsb_exists. split.
      + intros (m & Hm & X). apply N.eqb_eq in X as <-. now apply filter_In in Hm.
      + intros G. exists n. split; [now apply filter_In|apply N.eqb_refl].
    - intros n Hn. apply S3. unfold all_levels in Hn. cbn [In] in Hn. lia. }
  unfold inh_string in E. cbn [in_abtv in_levels] in E. destruct (abtv_isZero r); [discriminate E|]. rewrite LT in E.
  assert (E' : avbt_s r = u).
  { unfold avbt_s. apply (str_app_inj q). rewrite <- E at 1. unfold q, levels_front. fold ns. now rewrite !app_assoc'. }
  destruct (pair_shown t [] r a w A W P E') as [X|(m & y & -> & M & X)]; [exact (NR X)|].
  assert (FR : q ++ t = reencode (q ++ u)).
  { unfold t. rewrite <- (read_front q u LQ CL). apply fine_read; [intros Z; apply (f_equal String.length) in Z; rewrite length_app in Z; cbn in Z; lia|].
    intros c C. unfold u in C. rewrite !chars_app, !in_app_iff in C. destruct C as [C|[C|[C|C]]]; [now apply clean_fine, CL|now apply (name_fine a)|destruct C as [<-|[]]; reflexivity|].
    cbn [what_text] in C. now apply (bt_fine m). }
  rewrite reencode_app, (clean_reencode q CL) in FR. apply str_app_inj in FR. apply NR. rewrite FR. unfold u. rewrite !reencode_app.
  rewrite X in FR. unfold u in FR. rewrite !reencode_app in FR. change (reencode "#") with "#" in *. apply hash_split in FR as [RA _]; [|now apply attr_name_no_hash|apply no_byte_count; rewrite count_reencode by (now apply bar_solid); apply no_byte_count; now apply attr_name_no_hash].
  rewrite <- RA. cbn [what_text]. do 2 f_equal. destruct (five m W) as [->|[->|[->|[->| ->]]]]; reflexivity.
Qed.
Theorem C123_levels_exact : forall en pad fmt k a w init h, shifty_ok (e_shifty en) -> In k [UserAttr; GroupAttr] -> attr_name a -> what_ok w ->
  lcalls_ok (IShift init :: h) -> (exists n, (n < 10)%N /\ level_in false (IShift init :: h) n = true) ->
  let i := inh_run (e_shifty en) (Inherit (e_shifty en) (MkABTV (bindkw_const k) (Some (pair_of a w))) init) h in
  (bind_back en (inh_Eq (e_shifty en) pad fmt i) <-> settled (a ++ "#" ++ what_text w)) /\
  (bind_back en (inh_Ne (e_shifty en) pad fmt i) <-> settled (a ++ "#" ++ what_text w)).
Proof.
  intros en pad fmt k a w init h OK I A W L NE i.
  assert (KK : bindkw_const k = BindUAT \/ bindkw_const k = BindGAT) by (destruct I as [<-|[<-|[]]]; [left|right]; reflexivity).
  destruct (C06_round_trip (e_shifty en) OK fmt (bindkw_const k) a w init h KK A W L NE) as (T & _). fold i in T.
  assert (X : exists lv, i = Some (MkInh lv (MkABTV (bindkw_const k) (Some (pair_of a w))))).
  { apply C05_attribute_constant. destruct KK as [E|E]; rewrite E; reflexivity. }
  destruct X as [lv X].
  destruct (proj1 (C71_inheritance (e_shifty en) pad fmt i) k lv (pair_of a w) I X) as [E1 E2]. rewrite T in E1, E2.
  assert (TV : "parent[" ++ join "," (map digit (filter (level_in false (IShift init :: h)) all_levels)) ++ "]." ++ a ++ "#" ++ what_text w =
    levels_front (level_in false (IShift init :: h)) ++ a ++ "#" ++ what_text w) by (unfold levels_front; now rewrite !app_assoc').
  rewrite TV in E1, E2. clear TV T.
  assert (M : bind_many k = false) by (destruct I as [<-|[<-|[]]]; reflexivity).
  assert (D : settled (a ++ "#" ++ what_text w) \/ ~ settled (a ++ "#" ++ what_text w)).
  { assert (LP := pair_long a w A W). destruct (string_dec (unquote (condenseWHSP (a ++ "#" ++ what_text w))) (a ++ "#" ++ what_text w)) as [U|U]; [left; now apply settled_exact|right; intros S; apply U; now apply settled_read]. }
  split; (split; [intros B; destruct D as [D|D]; [exact D|exfalso]|intros S]).
  - exact (lost_any en pad _ k REq _ E1 M (levels_never en k _ a w OK I A W NE D) B).
  - apply (C123_levels en pad fmt k a w init h OK I A W L NE S).
  - exact (lost_any en pad _ k RNe _ E2 M (levels_never en k _ a w OK I A W NE D) B).
  - apply (C123_levels en pad fmt k a w init h OK I A W L NE S).
Qed.

(* ---- C123: LDAP URIs under a name keyword come back whatever blanks they hold ---- *)
Lemma scheme_clean c : In c (chars "ldap:///") -> clean_byte c = true.
Proof. revert c. apply all_bytes_chars. reflexivity. Qed.
Lemma uri_name_any en k t u : e_eqf en = eqfold -> In k [UserDN; RoleDN; GroupDN] -> has_prefix "ldap:///" t = true -> scontains "?" t = true ->
  parseLDAPURI t [bindkw_const k] = Some u -> uri_string u = t -> again en k [t].
Proof.
  intros F I P Q U T c style K Z. change (join " || " [?t]) with t.
  destruct (C98_names en c k style t [] F I ltac:(rewrite K; apply same_kw)) as [R _].
  assert (E : MConv.uri_text (bindkw_const k) t = Some t) by (unfold MConv.uri_text; now rewrite U, T).
  rewrite outer_line in R by exact Z. cbn [map] in R. unfold name_shown in R. rewrite P, Q, E in R. cbn [andb firsts_by existsb join] in R. apply R. split.
  - apply has_prefix_spec in P as [x ->]. rewrite read_front by (apply scheme_clean || (cbn; lia)). rewrite length_app. cbn. lia.
  - intros v [<-|[]]. unfold bind_value_ok. rewrite P, Q, E. discriminate.
Qed.
Theorem C123_uri_search_any : forall en pad d names n f, e_eqf en = eqfold ->
  SUri.uri_dn d -> (forall x, In x names -> attr_name x) -> In n [BaseObject; SingleLevel; Subtree] -> f <> "" -> ~ SUri.has_char "?" f ->
  let u := URI [UDn (UDN d); UAttrs (map AT names); UScope n; UFilter (Filter [f])] in
  no_byte "|" (uri_string u) = true ->
  bind_back en (uri_Eq pad u) /\ bind_back en (uri_Ne pad u).
Proof.
  intros en pad d names n f F D A N NF Q u B.
  destruct (TUri.C35_search_form d names n f [bindkw_const UserDN] D A N NF Q) as [T P]. cbv zeta in T, P. fold u in T, P.
  assert (UD : u_dn u = UDN d) by reflexivity. assert (UA : u_avbt u = abtv_zero) by reflexivity.
  assert (ND : exists x, UDN d = Some (MkDN BindUDN (Some x))) by (destruct d; [now destruct (proj1 D)|eexists; reflexivity]). destruct ND as [x ND].
  assert (UK : TTab.uri_kind u (u_dn u) = UserDN) by (unfold TTab.uri_kind; rewrite UA, UD, ND; reflexivity).
  destruct (proj1 (TTab.C71_uri pad u)) as [E1 E2]; [rewrite UD, ND; reflexivity|]. rewrite UK in E1, E2.
  assert (G : again en UserDN [uri_string u]).
  { apply (uri_name_any en UserDN _ u F); [now left| | |exact P|reflexivity].
    - rewrite T. reflexivity.
    - rewrite T. rewrite <- (app_assoc' "ldap:///" d). apply qmark_in. }
  assert (C : cut (bind_many UserDN) [uri_string u]) by (split; [discriminate|intros v [<-|[]]; exact B]).
  split; [exact (back en pad _ UserDN REq [_] E1 C G)|exact (back en pad _ UserDN RNe [_] E2 C G)].
Qed.
Theorem C123_uri_plain_any : forall en pad d n, e_eqf en = eqfold -> SUri.uri_dn d -> In n [BaseObject; SingleLevel; Subtree] ->
  let u := URI [UDn (UDN d); UScope n] in
  no_byte "|" (uri_string u) = true ->
  bind_back en (uri_Eq pad u) /\ bind_back en (uri_Ne pad u).
Proof.
  intros en pad d n F D N u B.
  destruct (TUri.C35_plain_form d n [bindkw_const UserDN] D N) as (T & u' & P & T' & _). cbv zeta in T, P, T'. fold u in T, P, T'.
  assert (UD : u_dn u = UDN d) by reflexivity. assert (UA : u_avbt u = abtv_zero) by reflexivity.
  assert (ND : exists x, UDN d = Some (MkDN BindUDN (Some x))) by (destruct d; [now destruct (proj1 D)|eexists; reflexivity]). destruct ND as [x ND].
  assert (UK : TTab.uri_kind u (u_dn u) = UserDN) by (unfold TTab.uri_kind; rewrite UA, UD, ND; reflexivity).
  destruct (proj1 (TTab.C71_uri pad u)) as [E1 E2]; [rewrite UD, ND; reflexivity|]. rewrite UK in E1, E2.
  assert (G : again en UserDN [uri_string u]).
  { apply (uri_name_any en UserDN _ u' F); [now left| | |exact P|exact T'].
    - rewrite T. reflexivity.
    - rewrite T. rewrite <- (app_assoc' "ldap:///" d). apply qmark_in. }
  assert (C : cut (bind_many UserDN) [uri_string u]) by (split; [discriminate|intros v [<-|[]]; exact B]).
  split; [exact (back en pad _ UserDN REq [_] E1 C G)|exact (back en pad _ UserDN RNe [_] E2 C G)].
Qed.

(* ---- C123: LDAP URIs with an attribute and a value come back exactly when the text is settled ---- *)
Lemma loop_app s x : (forall c, In c (chars s) -> clean_byte c = true) -> s <> "" -> forall l,
  condense_loop l (replace_byte "010" " " (x ++ s)) = condense_loop l (replace_byte "010" " " x) ++ s.
Proof.
  intros H N. assert (RC : forall c r, replace_byte "010" " " (String c r) = String (if Ascii.eqb c "010" then " "%char else c) (replace_byte "010" " " r)) by reflexivity.
  induction x as [|c x IH]; intros l.
  - cbn [append]. assert (E := loop_front s "" l H N). rewrite app_nil_r' in E. rewrite E. apply app_nil_r'.
  - cbn [append]. rewrite !RC. set (d := if Ascii.eqb c "010" then " "%char else c). cbn [condense_loop].
    destruct (Ascii.eqb d "009" || Ascii.eqb d "010" || Ascii.eqb d " "); [destruct l; cbn [append]; now rewrite IH|]. now rewrite IH, app_assoc'.
Qed.
Lemma trim_back x s : (forall c, In c (chars s) -> clean_byte c = true) -> s <> "" -> trim_space (x ++ s) = trim_left space_seqs x ++ s.
Proof.
  intros H N. destruct s as [|c s]; [easy|]. assert (C := H c (or_introl eq_refl)). unfold trim_space, trim_left at 2.
  rewrite (trim_cut space_seqs c s (proj1 (clean_apart c C)) (proj1 (clean_nomatch c s C))) by lia. fold (trim_left space_seqs x). set (y := trim_left space_seqs x).
  assert (R := rtrim_front (String c s) "" H). rewrite app_nil_r' in R. change (rtrim "") with "" in R. rewrite app_nil_r' in R.
  rewrite srev_append. rewrite <- (srev_involutive (y ++ String c s)), srev_append. f_equal.
  destruct (srev (String c s)) as [|d z] eqn:Z.
  { apply (f_equal srev) in Z. rewrite srev_involutive in Z. discriminate Z. }
  assert (D : clean_byte d = true).
  { apply H. apply (f_equal srev) in Z. rewrite srev_involutive in Z. rewrite Z. apply last_in. rewrite last_first, srev_involutive. reflexivity. }
  unfold trim_left. cbn [append trim_left_aux]. now rewrite (proj2 (clean_nomatch d (z ++ srev y) D)).
Qed.
Lemma unquote_back x s : (3 <= String.length s)%nat -> (forall c, In c (chars s) -> clean_byte c = true) -> exists y, unquote (x ++ s) = y ++ s.
Proof.
  intros L H. assert (N : s <> "") by (intros ->; cbn in L; lia). unfold unquote.
  assert (G : (String.length (x ++ s) <=? 2)%nat = false) by (apply Nat.leb_gt; rewrite length_app; lia). rewrite G. clear G. cbv zeta.
  assert (S1 : exists y, match x ++ s with String c r => if is_quote c then r else x ++ s | EmptyString => x ++ s end = y ++ s).
  { destruct x as [|c x].
    - exists "". cbn [append]. destruct s as [|c s]; [easy|]. now rewrite (proj2 (proj2 (clean_split c (H c (or_introl eq_refl))))).
    - cbn [append]. destruct (is_quote c); [now exists x|now exists (String c x)]. }
  destruct S1 as [y ->]. exists y. rewrite last_front by exact N. destruct (last_byte s) as [c|] eqn:E; [|reflexivity].
  apply last_in in E. now rewrite (proj2 (proj2 (clean_split c (H c E)))).
Qed.
Lemma read_back x s : (3 <= String.length s)%nat -> (forall c, In c (chars s) -> clean_byte c = true) -> exists y, unquote (condenseWHSP (x ++ s)) = y ++ s.
Proof.
  intros L H. assert (N : s <> "") by (intros ->; cbn in L; lia). unfold condenseWHSP. rewrite (trim_back x s H N), loop_app, trim_back by assumption. now apply unquote_back.
Qed.
Lemma folds_no_hash y w : folds y w -> no_byte "#" w = true -> no_byte "#" y = true.
Proof.
  assert (NC : forall e s, no_byte "#" (String e s) = true <-> e <> "#"%char /\ no_byte "#" s = true).
  { intros e s. unfold no_byte. cbn [all_bytes]. rewrite andb_true_iff, negb_true_iff, Ascii.eqb_neq. intuition. }
  intros F. induction F as [|c d s w A S F IH|d s w D F IH|d s w D F IH]; intros N; [reflexivity| | |].
  - apply NC in N as [N1 N2]. apply NC. split; [|now apply IH]. intros ->. destruct S as [S|[(n & B & S & _)|(n & B & _ & S)]]; [now apply N1| |].
    + apply (f_equal N_of_ascii) in S. rewrite N_ascii_embedding in S by lia. change (N_of_ascii "#") with 35%N in S. lia.
    + apply (f_equal N_of_ascii) in S. rewrite N_ascii_embedding in S by lia. change (N_of_ascii "#") with 35%N in S. lia.
  - apply NC in N as [_ N]. exact (IH N).
  - apply NC in N as [_ N]. exact (IH N).
Qed.
Lemma type_no_hash y : matchBT y <> 0%N -> no_byte "#" y = true.
Proof.
  unfold matchBT, btMap. cbn [tbl_match].
  repeat match goal with |- context [eqfold y ?v] => let E := fresh in destruct (eqfold y v) eqn:E; [intros _; apply C17_letter_case in E; [|reflexivity]; now apply (folds_no_hash y v)|] end.
  intros X. now destruct X.
Qed.
Lemma last_hash a b x y : no_byte "#" x = true -> no_byte "#" y = true -> a ++ "#" ++ x = b ++ "#" ++ y -> x = y.
Proof.
  revert b. induction a as [|c a IH]; intros b NX NY E; destruct b as [|d b]; cbn [append] in E; apply str_inj in E as [E1 E2].
  - exact E2.
  - exfalso. change (String "#" y) with ("#" ++ y) in E2. rewrite E2 in NX. apply no_byte_count in NX. rewrite !count_app in NX. change (count (Ascii.eqb "#") "#") with 1%nat in NX. lia.
  - exfalso. change (String "#" x) with ("#" ++ x) in E2. rewrite <- E2 in NY. apply no_byte_count in NY. rewrite !count_app in NY. change (count (Ascii.eqb "#") "#") with 1%nat in NY. lia.
  - now apply (IH b).
Qed.
Lemma count_unquote f s : (forall c, f c = true -> is_quote c = false) -> count f (unquote s) = count f s.
Proof.
  intros H. assert (L : forall u, count f (match last_byte u with Some c => if is_quote c then drop_last u else u | None => u end) = count f u).
  { intros u. destruct (last_byte u) as [d|] eqn:D; [|reflexivity]. destruct (is_quote d) eqn:Q; [|reflexivity].
    apply last_split in D as [v ->]. rewrite drop_last_app, count_app. cbn [count]. destruct (f d) eqn:X; [rewrite (H d X) in Q; discriminate|lia]. }
  unfold unquote. destruct (String.length s <=? 2)%nat; [reflexivity|]. cbv zeta. destruct s as [|c r]; [reflexivity|]. destruct (is_quote c) eqn:Q; [|apply L].
  rewrite L. cbn [count]. destruct (f c) eqn:X; [rewrite (H c X) in Q; discriminate|reflexivity].
Qed.
Lemma count_read b s : clean_byte b = true -> count (Ascii.eqb b) (unquote (condenseWHSP s)) = count (Ascii.eqb b) s.
Proof.
  intros C. apply clean_split in C as (A & W & Q). rewrite count_unquote; [|intros c E; apply Ascii.eqb_eq in E as <-; exact Q]. apply count_condense. now apply bar_solid.
Qed.
Lemma q_split a b x y : no_byte "?" a = true -> no_byte "?" b = true -> a ++ "?" ++ x = b ++ "?" ++ y -> a = b /\ x = y.
Proof.
  intros NA NB. revert b NB. induction a as [|c a IH]; intros b NB E; destruct b as [|d b]; cbn [append] in E; apply str_inj in E as [E1 E2].
  - now split.
  - subst. discriminate NB.
  - subst. discriminate NA.
  - subst. unfold no_byte in NA, NB. cbn [all_bytes] in NA, NB. apply andb_true_iff in NA as [_ NA]. apply andb_true_iff in NB as [_ NB]. destruct (IH NA b NB E2) as [-> ->]. now split.
Qed.
Lemma no_q s : ~ SUri.has_char "?" s <-> no_byte "?" s = true.
Proof. symmetry. apply no_byte_chars. Qed.
Lemma value_never en d a w : SUri.uri_dn d -> attr_name a -> what_ok w -> ~ SUri.has_char "?" (what_text w) ->
  let v := SUri.uri_text [d; a ++ "#" ++ what_text w] in ~ settled v ->
  forall x, assert_bind en (bindkw_const UserAttr) [v] = AOk x -> exists t, x = XText t /\ t <> v.
Proof.
  intros D A W Q v NS x. assert (LV : (3 <= String.length v)%nat) by (unfold v, SUri.uri_text; rewrite length_app; cbn; lia).
  assert (NE : unquote (condenseWHSP v) <> v) by (intros E; apply NS, settled_exact; assumption).
  rewrite (attr_reader en UserAttr v (or_introl eq_refl)). cbv zeta.
  set (p := a ++ "#" ++ what_text w) in *. assert (V : v = "ldap:///" ++ (d ++ "?" ++ p)) by reflexivity.
  assert (T : unquote (condenseWHSP v) = "ldap:///" ++ rest_read (d ++ "?" ++ p)) by (rewrite V; apply read_front; [cbn; lia|apply scheme_clean]).
  assert (CQ := count_read "?" v eq_refl). assert (CS := count_read "/" v eq_refl).
  assert (RB : forall m, w = WType m -> exists h, unquote (condenseWHSP v) = h ++ "#" ++ bt_string m).
  { intros m ->. destruct (read_back ("ldap:///" ++ d ++ "?" ++ a) ("#" ++ bt_string m)) as [h H].
    - destruct (five m W) as [->|[->|[->|[->| ->]]]]; apply Nat.leb_le; reflexivity.
    - destruct (five m W) as [->|[->|[->|[->| ->]]]]; apply all_bytes_chars; reflexivity.
    - exists h. rewrite <- H. rewrite V. unfold p. cbn [what_text]. now rewrite !app_assoc'. }
  set (t := unquote (condenseWHSP v)) in *. set (r := rest_read (d ++ "?" ++ p)) in *. clearbody r t.
  rewrite T. replace (has_prefix "ldap:///" ("ldap:///" ++ r)) with true by reflexivity. unfold MConv.uri_text.
  destruct (parseLDAPURI ("ldap:///" ++ r) [bindkw_const UserAttr]) as [u|] eqn:P; [|discriminate]. cbn [of_opt]. intros [= <-]. eexists. split; [reflexivity|]. intros E.
  assert (ND : no_byte "?" d = true) by (apply no_q, D).
  assert (NP : no_byte "?" p = true).
  { apply no_byte_count. unfold p. rewrite !count_app. assert (NA : count (Ascii.eqb "?") a = O) by (apply no_byte_count; apply attr_name_no; [exact A|reflexivity|discriminate]).
    apply no_q, no_byte_count in Q. rewrite NA, Q. reflexivity. }
  assert (C1 : count (Ascii.eqb "?") r = 1%nat).
  { rewrite T, V, !count_app in CQ. apply no_byte_count in ND, NP. rewrite ND, NP in CQ. change (count (Ascii.eqb "?") "ldap:///") with O in CQ. change (count (Ascii.eqb "?") "?") with 1%nat in CQ. lia. }
  destruct (idx "?" r) as [n|] eqn:X; [|apply idx_none, no_byte_count in X; lia]. apply idx_split in X as (d' & p' & -> & ND' & _).
  assert (NP' : no_byte "?" p' = true) by (apply no_byte_count; rewrite count_app in C1; cbn [count] in C1; rewrite Ascii.eqb_refl in C1; lia).
  change ("ldap:///" ++ d' ++ String "?" p') with (SUri.uri_text [d'; p']) in *.
  assert (CO : SUri.components_ok [d'; p']) by (split; [discriminate|]; intros c [<-|[<-|[]]]; now apply no_q).
  destruct (TUri.parse_shape _ _ _ CO P) as (UD & _ & _ & _ & B). cbn [SUri.comp nth] in UD, B.
  assert (N0 : d' <> "").
  { intros ->. assert (Z : uri_string u = badURI) by (unfold uri_string, uri_valid; rewrite UD; reflexivity). rewrite E in Z. discriminate Z. }
  destruct B as [(_ & _ & a' & y & EP & A' & _)|(I & _)].
  2: { rewrite (TUri.C36_exact_plain _ _ u CO P N0 eq_refl I) in E. cbn [SUri.comp nth] in E. apply (f_equal (count (Ascii.eqb "?"))) in E. unfold SUri.uri_text in E. cbn [join] in E.
    rewrite V in E. apply no_byte_count in ND, NP. rewrite !count_app, ND, NP in E. change (count (Ascii.eqb "?") "?") with 1%nat in E. lia. }
  rewrite (TUri.C36_exact_value _ _ u a' y CO P N0 eq_refl EP A') in E. cbn [SUri.comp nth] in E. unfold SUri.uri_text in E at 1. cbn [join] in E. rewrite V in E. apply str_app_inj in E.
  assert (NDP : no_byte "?" (TUri.dn_printed d') = true).
  { unfold TUri.dn_printed. destruct (has_prefix "ldap:///" d') eqn:Z; [|exact ND']. apply has_prefix_spec in Z as [z ->]. exact ND'. }
  apply q_split in E as [E1 E2]; [|exact NDP|exact ND].
  assert (PP : p' = p).
  { rewrite EP. destruct (N.leb_spec 1 (matchBT y)) as [L|L].
    - unfold p in E2. apply hash_split in E2 as [-> E2]; [|now apply attr_name_no_hash|now apply attr_name_no_hash]. unfold p. do 2 f_equal.
      assert (M5 := PUri.matchBT_le y). assert (NY : matchBT y <> 0%N) by lia. apply type_no_hash in NY as NH.
      assert (WT : exists m, w = WType m).
      { destruct w as [m|s]; [now exists m|]. exfalso. cbn [what_text what_ok] in *. destruct W as [_ W]. rewrite <- E2 in W. revert W L M5. generalize (matchBT y). intros k W' L' M'.
        assert (K : (k = 1 \/ k = 2 \/ k = 3 \/ k = 4 \/ k = 5)%N) by lia. destruct K as [->|[->|[->|[->| ->]]]]; discriminate W'. }
      destruct WT as [m ->]. destruct (RB m eq_refl) as [h H]. cbn [what_text]. rewrite T, EP in H.
      apply (last_hash ("ldap:///" ++ d' ++ "?" ++ a) h y (bt_string m)); [exact NH|destruct (five m W) as [->|[->|[->|[->| ->]]]]; reflexivity|].
      rewrite <- H. unfold SUri.uri_text. cbn [join]. now rewrite !app_assoc'.
    - destruct (String.eqb_spec y "") as [->|NY]; [|exact E2]. exfalso. assert (Z : has_prefix "%" p = true) by (rewrite <- E2; reflexivity).
      apply (name_start a (what_text w) "%" "%" A Z); try reflexivity; [cbn; tauto|discriminate]. }
  rewrite PP in *. apply NE. rewrite T, V. unfold SUri.uri_text. cbn [join].
  assert (DD : d' = d); [|rewrite DD; reflexivity].
  unfold TUri.dn_printed in E1. destruct (has_prefix "ldap:///" d') eqn:Z; [|exact E1]. exfalso. apply has_prefix_spec in Z as [z ->].
  change (sdrop 8 ("ldap:///" ++ z)) with z in E1. subst z. rewrite T, V in CS. unfold SUri.uri_text in CS. cbn [join] in CS. rewrite !count_app in CS. change (count (Ascii.eqb "/") "ldap:///") with 3%nat in CS. lia.
Qed.
Theorem C123_uri_value_exact : forall en pad d a w, SUri.uri_dn d -> attr_name a -> what_ok w -> ~ SUri.has_char "?" (what_text w) ->
  let u := URI [UDn (UDN d); UAvbt (UAT [BStr a; BStr (what_text w)])] in
  (bind_back en (uri_Eq pad u) <-> settled (uri_string u)) /\ (bind_back en (uri_Ne pad u) <-> settled (uri_string u)).
Proof.
  intros en pad d a w D A W Q u. assert (K := C123_uri_value en pad d a w D A W Q). cbv zeta in K. fold u in K.
  destruct (TUri.C35_attr_value_form d a w D A W Q) as (T & _). cbv zeta in T. fold u in T.
  assert (UD : u_dn u = UDN d) by reflexivity.
  assert (UA : u_avbt u = MkABTV BindUAT (Some (pair_of a w))).
  { unfold u, URI. cbn [uri_set uri_new u_dn u_scope u_avbt u_attrs u_filter]. unfold UAT, userOrGroupAttr, pair_set, pair_nil. cbn [fold_left pair_set1]. rewrite (AT_name a A).
    assert (R := what_read w W). destruct (matchBT (what_text w) =? 0)%N; cbn [negb] in R; rewrite R; reflexivity. }
  assert (ND : exists x, UDN d = Some (MkDN BindUDN (Some x))) by (destruct d; [now destruct (proj1 D)|eexists; reflexivity]). destruct ND as [x ND].
  assert (UK : TTab.uri_kind u (u_dn u) = UserAttr) by (unfold TTab.uri_kind; rewrite UA; reflexivity).
  destruct (proj1 (TTab.C71_uri pad u)) as [E1 E2]; [rewrite UD, ND; reflexivity|]. rewrite UK in E1, E2.
  assert (TT : uri_string u = SUri.uri_text [d; a ++ "#" ++ what_text w]) by exact T.
  assert (S : settled (uri_string u) \/ ~ settled (uri_string u)).
  { assert (L : (3 <= String.length (uri_string u))%nat) by (rewrite TT; unfold SUri.uri_text; rewrite length_app; cbn; lia).
    destruct (string_dec (unquote (condenseWHSP (uri_string u))) (uri_string u)) as [U|U]; [left; now apply settled_exact|right; intros S; apply U; now apply settled_read]. }
  rewrite TT in *. split; (split; [intros B; destruct S as [S|S]; [exact S|exfalso]|intros B; now apply K]).
  - exact (lost_any en pad _ UserAttr REq _ E1 eq_refl (value_never en d a w D A W Q S) B).
  - exact (lost_any en pad _ UserAttr RNe _ E2 eq_refl (value_never en d a w D A W Q S) B).
Qed.

(* Concrete texts on both sides. *)
Example C123_front_witness :
  let i w := inh_run (e_shifty en0) (Inherit (e_shifty en0) (MkABTV BindGAT (Some (pair_of "manager" w))) [LInt 2]) [IShift [LInt 5]] in
  let p d w := URI [UDn (UDN d); UAvbt (UAT [BStr "manager"; BStr w])] in
  bind_back en0 (inh_Ne (e_shifty en0) true "" (i (WType GROUPDN))) /\ ~ bind_back en0 (inh_Ne (e_shifty en0) true "" (i (WValue "a  b"))) /\
  bind_back en0 (uri_Eq true (URI [UDn (UDN "o=a  b"); UAttrs (map AT ["cn"]); UScope Subtree; UFilter (Filter ["(cn=a  b)"])])) /\
  bind_back en0 (uri_Ne true (URI [UDn (UDN " o=a  b "); UScope SingleLevel])) /\
  bind_back en0 (uri_Ne true (p "o=a" "USERDN")) /\ ~ bind_back en0 (uri_Eq true (p "o=a  b" "USERDN")) /\ ~ bind_back en0 (uri_Eq true (p "o=a" "x'")).
Proof.
  intros i p. assert (M : attr_name "manager") by (left; apply identifier_iff; reflexivity). assert (CN : attr_name "cn") by (left; apply identifier_iff; reflexivity).
  assert (IG : In GroupAttr [UserAttr; GroupAttr]) by (cbn; tauto).
  assert (LC : lcalls_ok [IShift [LInt 2]; IShift [LInt 5]]).
  { intros c x Hc Hx. cbn [In] in Hc. repeat destruct Hc as [<-|Hc]; try contradiction; cbn [lcall_args In] in Hx; repeat destruct Hx as [<-|Hx]; try contradiction; cbn [larg_ok]; lia. }
  assert (LN : exists n, (n < 10)%N /\ level_in false [IShift [LInt 2]; IShift [LInt 5]] n = true) by (exists 5%N; split; reflexivity).
  assert (LV := fun w W => C123_levels_exact en0 true "" GroupAttr "manager" w [LInt 2] [IShift [LInt 5]] shifty_ref_ok IG M W LC LN). cbv zeta in LV.
  assert (DN : forall d, d <> "" -> no_byte "?" d = true -> has_prefix "ldap:///" d = false -> SUri.uri_dn d).
  { intros d N1 N2 N3. split; [exact N1|]. split; [now apply no_q|]. intros [r ->]. discriminate N3. }
  assert (X1 : condenseWHSP "manager#a  b" <> "manager#a  b") by (vm_compute; discriminate).
  assert (X2 : condenseWHSP (uri_string (p "o=a  b" "USERDN")) <> uri_string (p "o=a  b" "USERDN")) by (vm_compute; discriminate).
  assert (X3 : unquote (condenseWHSP (uri_string (p "o=a" "x'"))) <> uri_string (p "o=a" "x'")) by (vm_compute; discriminate).
  split; [|split; [|split; [|split; [|split; [|split]]]]].
  - refine (proj2 (proj2 (LV (WType GROUPDN) _)) _); [vm_compute; split; discriminate|apply settled_check; vm_compute; reflexivity].
  - intros B. apply X1, settled_condense. exact (proj1 (proj2 (LV (WValue "a  b") ltac:(split; [discriminate|reflexivity]))) B).
  - refine (proj1 (C123_uri_search_any en0 true "o=a  b" ["cn"] Subtree "(cn=a  b)" eq_refl _ _ _ _ _ _)); [apply DN; (discriminate || reflexivity)|intros x [<-|[]]; exact CN|cbn; tauto|discriminate|now apply no_q|vm_compute; reflexivity].
  - refine (proj2 (C123_uri_plain_any en0 true " o=a  b " SingleLevel eq_refl _ _ _)); [apply DN; (discriminate || reflexivity)|cbn; tauto|vm_compute; reflexivity].
  - refine (proj2 (proj2 (C123_uri_value_exact en0 true "o=a" "manager" (WType USERDN) _ M _ _)) _); [apply DN; (discriminate || reflexivity)|vm_compute; split; discriminate|now apply no_q|apply settled_check; vm_compute; reflexivity].
  - intros B. apply X2, settled_condense. refine (proj1 (proj1 (C123_uri_value_exact en0 true "o=a  b" "manager" (WType USERDN) _ M _ _)) B); [apply DN; (discriminate || reflexivity)|vm_compute; split; discriminate|now apply no_q].
  - intros B. apply X3, settled_read. refine (proj1 (proj1 (C123_uri_value_exact en0 true "o=a" "manager" (WValue "x'") _ M _ _)) B); [apply DN; (discriminate || reflexivity)|split; [discriminate|reflexivity]|now apply no_q].
Qed.

Print Assumptions C123_levels_exact.
Print Assumptions C123_uri_search_any.
Print Assumptions C123_uri_plain_any.
Print Assumptions C123_uri_value_exact.
